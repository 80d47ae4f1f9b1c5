(* C66, C67 and C68: URLs, the HTTP server, and the files it sends. *)
From Coq Require Import String.
From Verif Require Import WebSpec WebProofs WebFileProofs.
Open Scope list_scope.
Local Notation length := List.length.

(** C66. What is escaped for a URL consists of letters, digits, - _ . ~ and %, and percent-decoding gives it back, whatever
    the bytes. *)
Theorem C66_url : forall l, bytes_ok l -> exists t, urlEscape l = Some t /\ urlDecode t = Some l /\ Forall (fun c => unreserved c \/ c = 37) t.
Proof. exact url_ok. Qed.
Print Assumptions C66_url.
Example C66_url_ex : urlEscape (txt "a b/c" ++ [200; 0]) = Some (txt "a%20b%2Fc%C8%00").
Proof. reflexivity. Qed.

(** C67. HTTP/1.1 requests sent one after the other get their answers in order, on one connection; a client that decodes
    what it receives gets the status, header lines and body that the handler wrote, in whatever pieces it wrote them and
    however the stream cut them; a handler that does nothing is answered for with a page for error 500. *)
Theorem C67_dialogue : forall sizes handler rs as_, Forall requestOk rs -> Forall (fun r => version r = txt "HTTP/1.1") rs -> length as_ = length rs ->
  (forall i r a, nth_error rs i = Some r -> nth_error as_ i = Some a -> yields (handler i r) a) ->
  exists wire, connection sizes handler (flat_map requestText rs) = Some wire /\ received wire = Some (map kept as_).
Proof. exact dialogue. Qed.
Print Assumptions C67_dialogue.
Definition get (path v : list Z) : request := mkreq (txt "GET") path v [(txt "Host", txt "x"); (txt "Accept", [])].
Definition hello (k : nat) (r : request) : list act := [Begin OK; Out (txt "X: "); Out (uri r ++ crlf ++ crlf); EndHeader; Out (txt "he"); Out (txt "llo")].
Example C67_dialogue_ex :
  Forall requestOk [get (txt "/a") (txt "HTTP/1.1"); get (txt "/b") (txt "HTTP/1.1")] /\
  (forall k p, Forall (fun c => c <> 13 /\ c <> 10) p -> gives (hello k (get p (txt "HTTP/1.1"))) (mka OK [txt "X: " ++ p] (txt "hello"))) /\
  connection (fun _ => [3%nat]) hello (requestText (get (txt "/a") (txt "HTTP/1.1"))) =
    Some (txt "HTTP/1.1 200 OK" ++ crlf ++ txt "Transfer-Encoding: chunked" ++ crlf ++ txt "Connection: keep-alive" ++ crlf ++ txt "X: /a" ++ crlf ++ crlf ++
          txt "2" ++ crlf ++ txt "he" ++ crlf ++ txt "3" ++ crlf ++ txt "llo" ++ crlf ++ txt "0" ++ crlf ++ crlf).
Proof.
  split; [|split; [|reflexivity]].
  - repeat (constructor; [repeat split; try discriminate; repeat constructor; try discriminate|]). constructor.
  - intros k p H. exists [Out (txt "X: "); Out (p ++ crlf ++ crlf)], [Out (txt "he"); Out (txt "llo")]. split; [reflexivity|]. split; [reflexivity|]. split; [reflexivity|]. split; [cbn; rewrite !app_nil_r, <- app_assoc; reflexivity|]. split; [reflexivity|]. split; [|reflexivity].
    constructor; [|constructor]. split; [discriminate|]. rewrite Forall_forall in H. split; [|split; [|discriminate]]; intros I; apply in_app_iff in I; (destruct I as [I|I]; [cbn in I; intuition discriminate|]); destruct (H _ I); congruence.
Qed.
(** C67. The first request of another version gets an answer without chunks, which ends where the connection does; what
    follows is not read. *)
Theorem C67_close : forall sizes handler rs as_ r a rest, Forall requestOk (rs ++ [r]) -> Forall (fun r => version r = txt "HTTP/1.1") rs -> version r <> txt "HTTP/1.1" -> length as_ = length rs ->
  (forall i r a, nth_error rs i = Some r -> nth_error as_ i = Some a -> yields (handler i r) a) -> yields (handler (length rs) r) a ->
  exists wire, connection sizes handler (flat_map requestText (rs ++ [r]) ++ rest) = Some wire /\ received wire = Some (map kept as_ ++ [closing a]).
Proof. exact dialogue_close. Qed.
Print Assumptions C67_close.
Example C67_close_ex : requestOk (get (txt "/a") (txt "HTTP/1.0")) /\
  connection (fun _ => []) hello (requestText (get (txt "/a") (txt "HTTP/1.0")) ++ txt "rest") = Some (txt "HTTP/1.1 200 OK" ++ crlf ++ txt "X: /a" ++ crlf ++ crlf ++ txt "hello").
Proof. split; [repeat split; try discriminate; repeat constructor; try discriminate|reflexivity]. Qed.
(** C67. Whatever bytes a client sends, the server ends the connection without a crash, and has sent a sequence of
    responses, of which at most the last one is not in chunks. *)
Theorem C67_always : forall sizes handler, (forall k r, exists a, yields (handler k r) a) -> forall ins,
  exists wire l last, connection sizes handler ins = Some wire /\ received wire = Some (map kept l ++ map closing last) /\ (length last <= 1)%nat.
Proof. exact always. Qed.
Print Assumptions C67_always.
Example C67_always_ex : connection (fun _ => []) (fun _ _ => []) (txt "GET /" ++ [10]) <> Some [] /\
  exists wire, connection (fun _ => []) (fun _ _ => []) (txt "GET /" ++ [10; 10]) = Some wire /\ received wire = Some [closing (generic BadRequest)] /\
  yields [] (generic InternalError).
Proof.
  split; [discriminate|]. exists (txt "HTTP/1.1 400 Bad Request" ++ crlf ++ txt "Content-Type: text/html" ++ crlf ++ crlf ++ genericPage BadRequest). split; [reflexivity|]. split; [reflexivity|]. right. split; reflexivity.
Qed.
(** A request that is cut off is answered with an error: the client sends some whole requests and then lines that no blank
    line follows. *)
Theorem C67_cut : forall sizes handler rs as_ ls u, Forall requestOk rs -> Forall (fun r => version r = txt "HTTP/1.1") rs -> length as_ = length rs ->
  (forall i r a, nth_error rs i = Some r -> nth_error as_ i = Some a -> yields (handler i r) a) ->
  Forall (fun l => ~ In 10 l /\ exists c, In c l /\ isWhite c = false) (ls ++ match u with [] => [] | _ => [u] end) -> ls ++ [u] <> [[]] ->
  exists wire, connection sizes handler (flat_map requestText rs ++ concat (map (fun l => l ++ [10]) ls) ++ u) = Some wire /\ received wire = Some (map kept as_ ++ [closing (generic BadRequest)]).
Proof. exact dialogue_cut. Qed.
Print Assumptions C67_cut.
Example C67_cut_ex : Forall (fun l => ~ In 10 l /\ exists c, In c l /\ isWhite c = false) ([txt "GET / HTTP/1.1"] ++ [txt "Ho"]) /\ [txt "GET / HTTP/1.1"] ++ [txt "Ho"] <> [[]].
Proof.
  split; [|discriminate]. constructor; [split; [vm_compute; intuition discriminate|exists 71; split; [left; reflexivity|reflexivity]]|]. constructor; [|constructor]. split; [vm_compute; intuition discriminate|exists 72; split; [left; reflexivity|reflexivity]].
Qed.
(** Once a handler has left a header unfinished, nothing follows: whatever else the client sends, it gets the same bytes. *)
Theorem C67_half : forall sizes handler rs as_ r c outs, Forall requestOk (rs ++ [r]) -> Forall (fun r => version r = txt "HTTP/1.1") rs -> length as_ = length rs ->
  (forall i r a, nth_error rs i = Some r -> nth_error as_ i = Some a -> yields (handler i r) a) -> handler (length rs) r = Begin c :: map Out outs ->
  exists t half, received t = Some (map kept as_) /\ forall rest, connection sizes handler (flat_map requestText (rs ++ [r]) ++ rest) = Some (t ++ half).
Proof. exact dialogue_half. Qed.
Print Assumptions C67_half.
Example C67_half_ex : connection (fun _ => []) (fun _ _ => [Begin OK; Out (txt "X")]) (requestText (get (txt "/a") (txt "HTTP/1.1")) ++ requestText (get (txt "/b") (txt "HTTP/1.1"))) =
  connection (fun _ => []) (fun _ _ => [Begin OK; Out (txt "X")]) (requestText (get (txt "/a") (txt "HTTP/1.1"))).
Proof. vm_compute. reflexivity. Qed.
(** C67 does not hold for requests with a body: the body is taken for the next request, and gets an answer of its own. *)
Definition post : request := mkreq (txt "POST") (txt "/a") (txt "HTTP/1.1") [(txt "Content-Length", txt "19")].
Definition smuggled : request := mkreq (txt "GET") (txt "/b") (txt "HTTP/1.1") [].
Theorem C67_body_refuted : length (requestText smuggled) = 19%nat /\
  exists wire, connection (fun _ => []) hello (requestText post ++ requestText smuggled) = Some wire /\
    received wire = Some (map kept [mka OK [txt "X: /a"] (txt "hello"); mka OK [txt "X: /b"] (txt "hello")]).
Proof.
  split; [reflexivity|].
  exists (txt "HTTP/1.1 200 OK" ++ crlf ++ txt "Transfer-Encoding: chunked" ++ crlf ++ txt "Connection: keep-alive" ++ crlf ++ txt "X: /a" ++ crlf ++ crlf ++ txt "5" ++ crlf ++ txt "hello" ++ crlf ++ txt "0" ++ crlf ++ crlf ++
          txt "HTTP/1.1 200 OK" ++ crlf ++ txt "Transfer-Encoding: chunked" ++ crlf ++ txt "Connection: keep-alive" ++ crlf ++ txt "X: /b" ++ crlf ++ crlf ++ txt "5" ++ crlf ++ txt "hello" ++ crlf ++ txt "0" ++ crlf ++ crlf).
  split; reflexivity.
Qed.
Print Assumptions C67_body_refuted.

(** C68. A request for a file with an extension that is served leads to that file in the root folder, with its type, if
    the path does not go above its start. What follows a question mark does not count. *)
Theorem C68_found_partial : forall w root req ext mime, zlen (beforeQuery req) < 2 ^ 31 -> sound w root = true -> stays (if full w root then 0 else 1) (namesOf w root) = true ->
  sound w (asked req) = true -> plain w (asked req) = true -> stays 0 (namesOf w (asked req)) = true -> In (ext, mime) served -> hasExt w (beforeQuery req) ext ->
  exists q, fetchPath w root req = Some (Some (q, mime)) /\ full w q = full w root /\
    forall cwd at_, resolve w cwd at_ q = resolve w cwd (resolve w cwd at_ root) (asked req) /\ within (resolve w cwd at_ root) (resolve w cwd at_ q).
Proof. exact fetch_found. Qed.
Print Assumptions C68_found_partial.
Example C68_found_ex : let req := txt "/static/x/../a.css?1" in
  sound false (asked req) = true /\ plain false (asked req) = true /\ stays 0 (namesOf false (asked req)) = true /\ hasExt false (beforeQuery req) (txt ".css") /\
  fetchPath false (txt "/srv/www") req = Some (Some (txt "/srv/www/static/a.css", txt "text/css")).
Proof.
  repeat split. exists (txt "/static/x/../"), (txt "a"). split; [reflexivity|]. split; [right; reflexivity|]. split; [discriminate|]. split; [constructor; [split; [reflexivity|discriminate]|constructor]|]. split; [reflexivity|]. repeat constructor.
Qed.
(** C68. Everything else is not found. *)
Theorem C68_missing : forall w root req, zlen (beforeQuery req) < 2 ^ 31 -> (forall ext mime, In (ext, mime) served -> ~ hasExt w (beforeQuery req) ext) -> fetchPath w root req = Some None.
Proof. exact fetch_missing. Qed.
Print Assumptions C68_missing.
Example C68_missing_ex : fetchPath false (txt "/srv") (txt "/etc/passwd") = Some None /\ fetchPath false (txt "/srv") (txt "/a.min.css") = Some None /\
  fetchPath false (txt "/srv") (txt "/a.css/") = Some None /\ fetchPath false (txt "/srv") (txt "/.css") = Some None.
Proof. repeat split. Qed.
(** C68. The response is the file, byte for byte, with its type, or error 404. *)
Theorem C68_file : forall w load root req l, (forall p bin, load p = Some bin -> zlen bin < 2 ^ 64) -> fetch w load root req = Some l ->
  l = respondGeneric NotFound /\ (fetchPath w root req = Some None \/ exists q mime, fetchPath w root req = Some (Some (q, mime)) /\ load q = None) \/
  exists q mime bin, fetchPath w root req = Some (Some (q, mime)) /\ load q = Some bin /\ gives l (fileAnswer mime bin).
Proof. exact fetch_gives. Qed.
Print Assumptions C68_file.
Example C68_file_ex : exists l, fetch false (fun p => if bytes_eqb p (txt "/srv/a.js") then Some (txt "alert()") else None) (txt "/srv") (txt "/a.js") = Some l /\ written l = txt "Content-Type: text/javascript" ++ crlf ++ txt "Cache-Control: max-age=1200" ++ crlf ++ crlf ++ txt "alert()".
Proof. exists [Begin OK; Out (txt "Content-Type: text/javascript" ++ crlf); Out (txt "Cache-Control: max-age=1200" ++ crlf ++ crlf); EndHeader; Out (txt "alert()")]. split; reflexivity. Qed.
(** C68 does not hold for paths that go up: a request can lead to any file with such an extension, wherever it is. *)
Theorem C68_escape_refuted : forall N T dir stem ext mime, N <> [] -> Forall fileName N -> Forall fileName (T ++ [stem ++ ext]) -> In (ext, mime) served -> stem <> [] -> ~ In dot stem ->
  zlen (slashed N) < 2 ^ 31 -> zlen (slashed (repeat up (length N) ++ T ++ [stem ++ ext])) < 2 ^ 31 -> dir = slashed N ->
  exists q, fetchPath false dir (slashed (repeat up (length N) ++ T ++ [stem ++ ext])) = Some (Some (q, mime)) /\ full false q = true /\
    forall cwd at_, resolve false cwd at_ q = (fst at_, rev (T ++ [stem ++ ext])).
Proof. exact fetch_escapes. Qed.
Print Assumptions C68_escape_refuted.
Example C68_escape_ex : slashed (repeat up 2 ++ map txt ["home"; "me"; "photo.png"]%string) = txt "/../../home/me/photo.png" /\
  fetchPath false (txt "/srv/www") (txt "/../../home/me/photo.png") = Some (Some (txt "/home/me/photo.png", txt "image/png")) /\
  fetchPath false (txt "/srv/www") (txt "/static/../../../home/me/photo.png") = Some (Some (txt "/home/me/photo.png", txt "image/png")).
Proof. repeat split. Qed.

(** C68. The page of a source file: a path that does not go above its start leads to that file in the root folder. *)
Theorem C68_source_partial : forall w root req, sound w root = true -> full w root = true -> stays 0 (namesOf w root) = true ->
  sound w (dropFirst (sepOf w) req) = true -> plain w (dropFirst (sepOf w) req) = true -> stays 0 (namesOf w (dropFirst (sepOf w) req)) = true ->
  exists q, joinAndNormalize w [dropFirst (sepOf w) req] = Some q /\
    (zlen q < 2 ^ 31 -> exists q', sourcePath w root req = Some q' /\ full w q' = true /\
       forall cwd at_, resolve w cwd at_ q' = resolve w cwd (resolve w cwd at_ root) (dropFirst (sepOf w) req) /\ within (resolve w cwd at_ root) (resolve w cwd at_ q')).
Proof. exact source_inside. Qed.
Print Assumptions C68_source_partial.
(** C68. Any other path leads into the root folder or into its parent, and not further: of several steps up, one at most
    is left. *)
Theorem C68_source_near : forall w root req, sound w root = true -> full w root = true -> stays 0 (namesOf w root) = true -> fold_left go (namesOf w root) [] <> [] ->
  sound w (dropFirst (sepOf w) req) = true -> plain w (dropFirst (sepOf w) req) = true ->
  exists q, joinAndNormalize w [dropFirst (sepOf w) req] = Some q /\
    (zlen q < 2 ^ 31 -> exists q', sourcePath w root req = Some q' /\ full w q' = true /\
       forall cwd at_, resolve w cwd at_ q' = resolve w cwd (resolve w cwd at_ root) q /\ within (parent (resolve w cwd at_ root)) (resolve w cwd at_ q')).
Proof. exact source_near. Qed.
Print Assumptions C68_source_near.
Example C68_source_ex : sourcePath false (txt "/ws/ply") (txt "src/./a.cpp") = Some (txt "/ws/ply/src/a.cpp") /\
  sourcePath false (txt "/ws/ply") (txt "../../../../../etc/passwd") = Some (txt "/ws/etc/passwd") /\ sourcePath false (txt "/ws/ply") (txt "../../etc/passwd") = Some (txt "/ws/ply/etc/passwd").
Proof. repeat split. Qed.
(** It does lead out of the root folder: to every file in the parent folder. *)
Theorem C68_source_refuted : forall N n0 T, Forall fileName (N ++ [n0]) -> T <> [] -> Forall fileName T -> zlen (slashed (N ++ [n0])) < 2 ^ 31 -> zlen (slashed (up :: T)) < 2 ^ 31 ->
  exists q q', joinAndNormalize false [dropFirst (sepOf false) (slashed (up :: T))] = Some q /\ (zlen q < 2 ^ 31 -> sourcePath false (slashed (N ++ [n0])) (slashed (up :: T)) = Some q' /\ full false q' = true /\
    forall cwd at_, resolve false cwd at_ q' = (fst at_, rev (N ++ T))).
Proof. exact source_escapes. Qed.
Print Assumptions C68_source_refuted.
Example C68_source_refuted_ex : sourcePath false (txt "/ws/ply") (txt "/../secret") = Some (txt "/ws/secret").
Proof. reflexivity. Qed.
(** On Windows a path with a drive leads anywhere. *)
Theorem C68_drive_refuted : sourcePath true (txt "C:\ws") (txt "D:/secret") = Some (txt "D:\secret").
Proof. reflexivity. Qed.
Print Assumptions C68_drive_refuted.

(** C68. The page of the documentation, on POSIX: with a full root folder, a path that does not go above its start leads to
    the index of a folder among the pages, or to a page, among the pages. *)
Theorem C68_page_partial : forall isDir root req, sound false root = true -> full false root = true -> stays 0 (namesOf false root) = true ->
  sound false req = true -> plain false req = true -> stays 0 (namesOf false req) = true ->
  exists q a, joinAndNormalize false [root; txt "pages"; req] = Some q /\
    (zlen q < 2 ^ 31 -> (if isDir q : bool then joinAndNormalize false [q; txt "index.html"] = Some a else a = q ++ txt ".html") /\
     (zlen a < 2 ^ 31 -> exists q', pagePath false isDir root req = Some (Some q') /\ full false q' = true /\
      forall cwd at_, let pages := resolve false cwd (resolve false cwd at_ root) (txt "pages") in
        resolve false cwd at_ q' = resolve false cwd at_ a /\
        (isDir q = true -> resolve false cwd at_ q' = resolve false cwd (resolve false cwd pages req) (txt "index.html") /\ within pages (resolve false cwd at_ q')) /\
        (isDir q = false -> fold_left go (namesOf false req) [] <> [] -> within pages (resolve false cwd at_ q')))).
Proof. exact page_ok. Qed.
Print Assumptions C68_page_partial.
Example C68_page_ex : pagePath false (bytes_eqb (txt "/d/pages/a")) (txt "/d") (txt "a") = Some (Some (txt "/d/pages/a/index.html")) /\
  pagePath false (bytes_eqb (txt "/d/pages/a")) (txt "/d") (txt "a/./b") = Some (Some (txt "/d/pages/a/b.html")).
Proof. split; reflexivity. Qed.
(** It does not hold for a path that goes up, nor for a root folder that is not full: the folder is entered twice. *)
Theorem C68_page_refuted : pagePath false (fun _ => false) (txt "/d") (txt "../../home/x") = Some (Some (txt "/home/x.html")) /\
  pagePath false (fun _ => false) (txt "data") (txt "intro") = Some (Some (txt "data/pages/data/pages/intro.html")).
Proof. split; reflexivity. Qed.
Print Assumptions C68_page_refuted.
