(* Model of web-common: URLEscape.cpp, Server.cpp, OutPipe_HTTPChunked.cpp, FetchFromFileSystem.cpp, SourceCode.cpp, and of the
   choice of files in serve-docs. WEB below is repos/plywood/src/web. None is a failed assertion or undefined behaviour.
   What a client sends is a list of bytes that ends where the connection is closed (InStreamModel has the streams). *)
From Coq Require Import String.
From Verif Require Export Base StringViewModel NumTextModel PathModel Txt.
Local Open Scope list_scope.
Local Notation length := List.length.
Local Notation "'do' p <- m ; k" := (match m with Some p => k | None => None end) (at level 200, p pattern, m at level 100, k at level 200).

Definition crlf : list Z := [13; 10].

(* ---- URLs ---- *)
(** WEB/common/web-common/URLEscape.cpp:13-18. *)
Definition urlPlain (c : Z) : bool := isAsciiLetter c || isDecimalDigit c || (c =? 45) || (c =? 95) || (c =? 46) || (c =? 126).
(** URLEscape.cpp:19-20. *)
Definition urlByte (c : Z) : option (list Z) :=
  if urlPlain c then Some [c] else
  do h <- print_u64 c 16 false;
  do r <- sv_right (sv_upperAsc (48 :: h)) 2;
  Some (37 :: r).
(** URLEscape.cpp:11-22. *)
Fixpoint urlEscape (l : list Z) : option (list Z) :=
  match l with [] => Some [] | c :: l => do x <- urlByte c; do y <- urlEscape l; Some (x ++ y) end.

(* ---- responses ---- *)
(** WEB/common/web-common/Response.h:12-18. *)
Inductive code := OK | BadRequest | NotFound | InternalError.
(** Server.cpp:21-33. *)
Definition description (c : code) : list Z * list Z :=
  match c with
  | OK => (txt "200", txt "OK")
  | BadRequest => (txt "400", txt "Bad Request")
  | NotFound => (txt "404", txt "Not Found")
  | InternalError => (txt "500", txt "Internal Server Error")
  end.

(** OutPipe_HTTPChunked.cpp:19-30. [wire]: what was given to the stream to the client. *)
Definition chunkWrite (mode : bool) (wire bs : list Z) : option (list Z) :=
  if mode then
    if zlen bs =? 0 then None else
    do h <- print_u64 (zlen bs) 16 true;
    Some (wire ++ h ++ crlf ++ bs ++ crlf)
  else Some (wire ++ bs).

(** The stream outsChunked: what has not been given to the pipe yet, and the mode of the pipe. *)
Record ostream := mkos { pending : list Z; chunkMode : bool }.
(** A stream gives its bytes to the pipe in pieces of any sizes, none of them empty (OutStreamModel, C23). *)
Fixpoint drain (sizes : list nat) (o : ostream) (wire : list Z) : option (ostream * list Z) :=
  match sizes with
  | [] => Some (o, wire)
  | n :: sizes =>
    let bs := firstn n (pending o) in
    if zlen bs =? 0 then drain sizes o wire else
    do wire <- chunkWrite (chunkMode o) wire bs;
    drain sizes (mkos (skipn n (pending o)) (chunkMode o)) wire
  end.
(** flushMem. *)
Definition flushMem (o : ostream) (wire : list Z) : option (ostream * list Z) := drain [length (pending o)] o wire.
(** The destructor of the stream, which flushes it and destroys the pipe (OutPipe_HTTPChunked.cpp:12-17). *)
Definition destroy (o : ostream) (wire : list Z) : option (list Z) :=
  do (o, wire) <- flushMem o wire; Some (wire ++ txt "0" ++ crlf ++ crlf).

(** Server.cpp:35-44 [ResponseIface_WebServer]. *)
Inductive state := NoResponse | BeganResponse | EndedHeader.
Record iface := mki { st : state; isChunked : bool; outsChunked : option ostream; wire : list Z; writes : nat }.

(** What a handler does: beginResponseHeader, writes to the stream that this returned, endResponseHeader. *)
Inductive act := Begin (c : code) | Out (bs : list Z) | EndHeader.

Section Server.
(** [sizes k]: the sizes of the pieces that the pipe gets during write [k]. *)
Context (sizes : nat -> list nat).

(** Server.cpp:46-60. The assignment of outsChunked destroys the stream that was there. *)
Definition begin (i : iface) (c : code) : option iface :=
  let w := wire i ++ txt "HTTP/1.1 " ++ fst (description c) ++ txt " " ++ snd (description c) ++ crlf in
  if isChunked i then
    let w := w ++ txt "Transfer-Encoding: chunked" ++ crlf ++ txt "Connection: keep-alive" ++ crlf in
    do w <- match outsChunked i with Some o => destroy o w | None => Some w end;
    Some (mki BeganResponse true (Some (mkos [] false)) w (writes i))
  else Some (mki BeganResponse false (outsChunked i) w (writes i)).
(** Server.cpp:61-67. *)
Definition endHeader (i : iface) : option iface :=
  if isChunked i then
    do o <- outsChunked i;
    do (o, w) <- flushMem o (wire i);
    Some (mki EndedHeader true (Some (mkos (pending o) true)) w (writes i))
  else Some (mki EndedHeader false (outsChunked i) (wire i) (writes i)).
(** A write to the stream that beginResponseHeader returned. *)
Definition out (i : iface) (bs : list Z) : option iface :=
  match st i with
  | NoResponse => None
  | _ =>
    if isChunked i then
      do o <- outsChunked i;
      do (o, w) <- drain (sizes (writes i)) (mkos (pending o ++ bs) (chunkMode o)) (wire i);
      Some (mki (st i) true (Some o) w (S (writes i)))
    else Some (mki (st i) false (outsChunked i) (wire i ++ bs) (writes i))
  end.
Definition doAct (i : iface) (a : act) : option iface :=
  match a with Begin c => begin i c | Out bs => out i bs | EndHeader => endHeader i end.
Fixpoint doActs (i : iface) (l : list act) : option iface :=
  match l with [] => Some i | a :: l => do i <- doAct i a; doActs i l end.

(** Server.cpp:81-96 [respondGeneric]. *)
Definition genericPage (c : code) : list Z :=
  let d := fst (description c) ++ txt " " ++ snd (description c) in
  txt "<html>" ++ [10] ++ txt "<head><title>" ++ d ++ txt "</title></head>" ++ [10] ++ txt "<body>" ++ [10] ++
  txt "<center><h1>" ++ d ++ txt "</h1></center>" ++ [10] ++ txt "<hr>" ++ [10] ++ txt "</body>" ++ [10] ++ txt "</html>" ++ [10].
Definition respondGeneric (c : code) : list act :=
  [Begin c; Out (txt "Content-Type: text/html" ++ crlf ++ crlf); EndHeader; Out (genericPage c)].
(** Server.cpp:70-78. *)
Definition handleMissing (i : iface) : option (iface * bool) :=
  match st i with
  | NoResponse => do i <- doActs i (respondGeneric InternalError); Some (i, true)
  | EndedHeader => Some (i, true)
  | BeganResponse => Some (i, false)
  end.
(** The destructor of the interface, at the end of a turn of the loop. *)
Definition leave (i : iface) : option (list Z) :=
  match outsChunked i with Some o => destroy o (wire i) | None => Some (wire i) end.

(* ---- requests ---- *)
(** Response.h:20-36, without the address of the client. *)
Record request := mkreq { method : list Z; uri : list Z; version : list Z; fields : list (list Z * list Z) }.

(** readString<fmt::Line>: the bytes up to the next newline, with it. *)
Fixpoint readLine (ins : list Z) : list Z * list Z :=
  match ins with
  | [] => ([], [])
  | c :: ins => if c =? 10 then ([c], ins) else let (l, r) := readLine ins in (c :: l, r)
  end.
(** Server.cpp:110-122: the lines up to a blank one, or None for the second part at the end of the input. Every turn reads
    a byte or more. *)
Fixpoint readLines (fuel : nat) (ins : list Z) (lines : list (list Z)) : option (list (list Z) * option (list Z)) :=
  match fuel with
  | O => None
  | S fuel =>
    let (line, rest) := readLine ins in
    if zlen line =? 0 then Some (lines, None)
    else if sv_findByte line (fun u => negb (isWhite u)) 0 <? 0 then Some (lines, Some rest)
    else readLines fuel rest (lines ++ [line])
  end.
(** Server.cpp:136-150: None for the inner option is a bad request. *)
Fixpoint readFields (lines : list (list Z)) : option (option (list (list Z * list Z))) :=
  match lines with
  | [] => Some (Some [])
  | l :: lines =>
    do c <- hd_error l;
    if isWhite c then readFields lines else
    let colonPos := sv_findByte l (fun u => u =? 58) 0 in
    if colonPos <? 0 then Some None else
    do name <- sv_left l colonPos;
    do value <- sv_subStr1 l (colonPos + 1);
    do fs <- readFields lines;
    Some (match fs with Some fs => Some ((sv_trim isWhite false true name, sv_trim isWhite true true value) :: fs) | None => None end)
  end.

(** Server.cpp:99-166 [serverThreadEntry]: what is sent to a client, from [wire] on, given what it sends. [handler k r]: what the
    request handler does for request [k]. Every turn of the loop reads a byte or more. *)
Context (handler : nat -> request -> list act).
Fixpoint serve (fuel : nat) (k : nat) (ins w : list Z) : option (list Z) :=
  match fuel with
  | O => None
  | S fuel =>
    let i := mki NoResponse false None w 0 in
    let bad := do i <- doActs i (respondGeneric BadRequest); leave i in
    do (lines, rest) <- readLines (S (length ins)) ins [];
    match rest with
    | None => match lines with [] => leave i | _ => bad end
    | Some rest =>
      match lines with
      | [] => leave i
      | line :: lines =>
        match sv_splitByte 32 (sv_trim isWhite false true line) with
        | [m; u; v] =>
          do fs <- readFields lines;
          match fs with
          | None => bad
          | Some fs =>
            let i := mki NoResponse (bytes_eqb v (txt "HTTP/1.1")) None w 0 in
            do i <- doActs i (handler k (mkreq m u v fs));
            do (i, again) <- handleMissing i;
            do w <- leave i;
            if again && isChunked i then serve fuel (S k) rest w else Some w
          end
        | _ => bad
        end
      end
    end
  end.
Definition connection (ins : list Z) : option (list Z) := serve (S (length ins)) 0 ins [].
End Server.

(* ---- files ---- *)
Section Files.
Context (w : bool).
(** FetchFromFileSystem.cpp:12-27. *)
Definition mimeTypes : list (list Z * list Z) :=
  [(txt ".woff2", txt "font/woff2"); (txt ".woff", txt "font/woff"); (txt ".ttf", txt "font/ttf");
   (txt ".eot", txt "application/vnd.ms-fontobject"); (txt ".png", txt "image/png"); (txt ".css", txt "text/css");
   (txt ".svg", txt "image/svg+xml"); (txt ".js", txt "text/javascript")].
Definition mimeOf (ext : list Z) : option (list Z) :=
  match find (fun e => bytes_eqb (fst e) ext) mimeTypes with Some e => Some (snd e) | None => None end.
(** FetchFromFileSystem.cpp:32-54: the path to load and its type, or None for the inner option: not found. *)
Definition fetchPath (root requestPath : list Z) : option (option (list Z * list Z)) :=
  let getPos := sv_findByte requestPath (fun c => c =? 63) 0 in
  do requestPath <- (if 0 <=? getPos then sv_left requestPath getPos else Some requestPath);
  do (_, filename) <- PathModel.split w requestPath;
  let dotPos := sv_findByte filename (fun c => c =? 46) 0 in
  if dotPos <=? 0 then Some None else
  do ext <- sv_subStr1 filename dotPos;
  match mimeOf ext with
  | None => Some None
  | Some mime => do p <- joinAndNormalize w [root; sv_trim (fun c => c =? 47) true false requestPath]; Some (Some (p, mime))
  end.
(** FetchFromFileSystem.cpp:55-69, with [load] for loadBinary. *)
Definition fetch (load : list Z -> option (list Z)) (root requestPath : list Z) : option (list act) :=
  do f <- fetchPath root requestPath;
  match f with
  | None => Some (respondGeneric NotFound)
  | Some (p, mime) =>
    match load p with
    | None => Some (respondGeneric NotFound)
    | Some bin =>
      Some [Begin OK; Out (txt "Content-Type: " ++ mime ++ crlf); Out (txt "Cache-Control: max-age=1200" ++ crlf ++ crlf);
            EndHeader; Out bin]
    end
  end.
(** SourceCode.cpp:17-20: the path of the source file. *)
Definition sourcePath (root requestPath : list Z) : option (list Z) :=
  do norm <- joinAndNormalize w [sv_trim (isSepByte w) true false requestPath];
  joinAndNormalize w [root; norm].
(** WEB/serve-docs/ply-web-serve-docs/DocServer.cpp:104-118: the path of the page; [isDir]: what FileSystem::exists says. None
    for the inner option: not found. *)
Definition pagePath (isDir : list Z -> bool) (dataRoot requestPath : list Z) : option (option (list Z)) :=
  if isAbsolute w requestPath then Some None else
  do absPath <- joinAndNormalize w [dataRoot; txt "pages"; requestPath];
  do absPath <- (if isDir absPath then joinAndNormalize w [absPath; txt "index.html"] else Some (absPath ++ txt ".html"));
  do p <- joinAndNormalize w [dataRoot; txt "pages"; absPath];
  Some (Some p).
End Files.
