(* What a web server must do, as a client sees it. *)
From Coq Require Import String.
From Verif Require Export WebModel PathSpec NumTextSpec.
Local Open Scope list_scope.
Local Notation length := List.length.
Local Notation "'do' p <- m ; k" := (match m with Some p => k | None => None end) (at level 200, p pattern, m at level 100, k at level 200).

(* ---- URLs (RFC 3986) ---- *)
Definition hexDigit (c : Z) : option Z :=
  if (48 <=? c) && (c <=? 57) then Some (c - 48) else if (65 <=? c) && (c <=? 70) then Some (c - 55) else if (97 <=? c) && (c <=? 102) then Some (c - 87) else None.
Fixpoint urlDecode (l : list Z) : option (list Z) :=
  match l with
  | [] => Some []
  | 37 :: h :: k :: l => do x <- hexDigit h; do y <- hexDigit k; do r <- urlDecode l; Some (16 * x + y :: r)
  | 37 :: _ => None
  | c :: l => do r <- urlDecode l; Some (c :: r)
  end.
(** Letters, digits, - _ . ~ *)
Definition unreserved (c : Z) : Prop := 65 <= c <= 90 \/ 97 <= c <= 122 \/ 48 <= c <= 57 \/ c = 45 \/ c = 95 \/ c = 46 \/ c = 126.

(* ---- responses, read as RFC 7230 says ---- *)
(** The text before the first CR LF, and what follows it. *)
Fixpoint line (l : list Z) : option (list Z * list Z) :=
  match l with
  | 13 :: 10 :: l => Some ([], l)
  | c :: l => do (x, r) <- line l; Some (c :: x, r)
  | [] => None
  end.
(** The lines up to an empty one. *)
Fixpoint headers (fuel : nat) (l : list Z) : option (list (list Z) * list Z) :=
  match fuel with
  | O => None
  | S fuel =>
    do (x, r) <- line l;
    match x with [] => Some ([], r) | _ => do (xs, r) <- headers fuel r; Some (x :: xs, r) end
  end.
Fixpoint hexNumber (acc : Z) (l : list Z) : option Z :=
  match l with [] => Some acc | c :: l => do x <- hexDigit c; hexNumber (16 * acc + x) l end.
(** A body in chunks, and what follows it. *)
Fixpoint chunks (fuel : nat) (l : list Z) : option (list Z * list Z) :=
  match fuel with
  | O => None
  | S fuel =>
    do (x, r) <- line l;
    match x with
    | [] => None
    | _ =>
      do n <- hexNumber 0 x;
      if n =? 0 then match r with 13 :: 10 :: r => Some ([], r) | _ => None end else
      if zlen r <? n then None else
      match skipn (Z.to_nat n) r with
      | 13 :: 10 :: r' => do (b, r'') <- chunks fuel r'; Some (firstn (Z.to_nat n) r ++ b, r'')
      | _ => None
      end
    end
  end.
(** Status line, header lines and body. *)
Definition response : Type := list Z * list (list Z) * list Z.
(** All responses on a connection. One that is not in chunks ends where the connection does. *)
Fixpoint client (fuel : nat) (l : list Z) : option (list response) :=
  match fuel, l with
  | _, [] => Some []
  | O, _ => None
  | S fuel, _ =>
    do (status, r) <- line l;
    do (hs, r) <- headers (S (length r)) r;
    if existsb (bytes_eqb (txt "Transfer-Encoding: chunked")) hs then
      do (body, r) <- chunks (S (length r)) r;
      do rs <- client fuel r;
      Some ((status, hs, body) :: rs)
    else Some [(status, hs, r)]
  end.
Definition received (wire : list Z) : option (list response) := client (length wire) wire.

(* ---- handlers ---- *)
(** An answer: code, header lines, body. *)
Record answer := mka { acode : code; alines : list (list Z); abody : list Z }.
(** Header lines are not empty, have no line breaks and do not speak about the encoding of the transfer. *)
Definition lineOk (l : list Z) : Prop := l <> [] /\ ~ In 13 l /\ ~ In 10 l /\ l <> txt "Transfer-Encoding: chunked".
Definition written (l : list act) : list Z := flat_map (fun a => match a with Out bs => bs | _ => [] end) l.
Definition isOut (a : act) : bool := match a with Out _ => true | _ => false end.
(** A handler gives an answer: it begins a response, writes the header lines and an empty line in any number of writes, ends
    the header, and writes the body in any number of writes. *)
Definition gives (l : list act) (a : answer) : Prop :=
  exists hs bs, l = Begin (acode a) :: hs ++ EndHeader :: bs /\ forallb isOut hs = true /\ forallb isOut bs = true /\
    written hs = concat (map (fun x => x ++ crlf) (alines a)) ++ crlf /\ written bs = abody a /\ Forall lineOk (alines a) /\ zlen (abody a) < 2 ^ 64.
Definition statusLine (c : code) : list Z :=
  match c with
  | OK => txt "HTTP/1.1 200 OK" | BadRequest => txt "HTTP/1.1 400 Bad Request" | NotFound => txt "HTTP/1.1 404 Not Found"
  | InternalError => txt "HTTP/1.1 500 Internal Server Error"
  end.
(** What the client must get for an answer on a connection that stays open, and on one that is closed. *)
Definition kept (a : answer) : response := (statusLine (acode a), txt "Transfer-Encoding: chunked" :: txt "Connection: keep-alive" :: alines a, abody a).
Definition closing (a : answer) : response := (statusLine (acode a), alines a, abody a).
(** The answer that stands for no answer. *)
Definition generic (c : code) : answer := mka c [txt "Content-Type: text/html"] (genericPage c).
(** What the client must get for what a handler does, if it answers or does nothing. *)
Definition yields (l : list act) (a : answer) : Prop := gives l a \/ l = [] /\ a = generic InternalError.

(* ---- requests ---- *)
Definition token (l : list Z) : Prop := l <> [] /\ Forall (fun c => isWhite c = false) l.
(** A name without colons, a value without newlines; no white space around them. *)
Definition fieldOk (f : list Z * list Z) : Prop :=
  fst f <> [] /\ Forall (fun c => c <> 58 /\ c <> 10) (fst f) /\ Forall (fun c => c <> 10) (snd f) /\
  isWhite (hd 0 (fst f)) = false /\ isWhite (last (fst f) 0) = false /\ isWhite (hd 0 (snd f)) = false /\ isWhite (last (snd f) 0) = false.
Definition requestOk (r : request) : Prop := token (method r) /\ token (uri r) /\ token (version r) /\ Forall fieldOk (fields r).
Definition requestText (r : request) : list Z :=
  method r ++ [32] ++ uri r ++ [32] ++ version r ++ crlf ++
  flat_map (fun f => fst f ++ txt ": " ++ snd f ++ crlf) (fields r) ++ crlf.

(* ---- files ---- *)
(** The part of a request before a question mark, and without the slashes at its start. *)
Fixpoint beforeQuery (l : list Z) : list Z := match l with [] => [] | c :: l => if c =? 63 then [] else c :: beforeQuery l end.
Fixpoint dropFirst (f : Z -> bool) (l : list Z) : list Z := match l with c :: r => if f c then dropFirst f r else l | [] => [] end.
Definition asked (req : list Z) : list Z := dropFirst (fun c => c =? slash) (beforeQuery req).
(** The extensions that are served, and their types. *)
Definition served : list (list Z * list Z) :=
  [(txt ".css", txt "text/css"); (txt ".js", txt "text/javascript"); (txt ".png", txt "image/png"); (txt ".svg", txt "image/svg+xml");
   (txt ".ttf", txt "font/ttf"); (txt ".woff", txt "font/woff"); (txt ".woff2", txt "font/woff2"); (txt ".eot", txt "application/vnd.ms-fontobject")].
(** The last name of a path has an extension: it starts at the first dot, which is not the first character. *)
Definition hasExt (w : bool) (p ext : list Z) : Prop := exists dir stem,
  p = dir ++ stem ++ ext /\ (dir = [] \/ sepOf w (last dir 0) = true) /\ stem <> [] /\ Forall (fun c => sepOf w c = false /\ c <> dot) stem /\
  hd 0 ext = dot /\ Forall (fun c => sepOf w c = false) ext.
(** A location is in a folder, or in a folder within it. *)
Definition within (dir q : loc) : Prop := fst q = fst dir /\ exists x, snd q = x ++ snd dir.
Definition parent (l : loc) : loc := (fst l, tl (snd l)).
(** An ordinary file name, on POSIX, that can be written in a request. *)
Definition fileName (n : list Z) : Prop := n <> [] /\ Forall (fun c => c <> slash /\ c <> 63) n /\ ordinary n.
(** /a/b/c *)
Definition slashed (ns : list (list Z)) : list Z := flat_map (cons slash) ns.
Definition up : list Z := [dot; dot].
(** The answer for a file. *)
Definition fileAnswer (mime bin : list Z) : answer := mka OK [txt "Content-Type: " ++ mime; txt "Cache-Control: max-age=1200"] bin.
