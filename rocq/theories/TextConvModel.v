(* Model of ply-runtime/io/text/TextConverter.h and TextConverter.cpp.
   RT below is repos/plywood/src/runtime/ply-runtime. None: a failed assertion. *)
From Verif Require Export TextEncodingModel.

Section TextConverter.
Context (dst src : encoding).

(** TextConverter (RT/io/text/TextConverter.h:19-37): the bytes held by srcSmallBuf and dstSmallBuf. *)
Record conv := mkc { sb : list Z; db : list Z }.

(** flushDstSmallBuf (TextConverter.cpp:23-32) with [room] bytes free in dstBuf: what is left of [db], and what is copied. *)
Definition drain (db : list Z) (room : nat) : list Z * list Z := (skipn room db, firstn room db).

(** encodePoint to dstSmallBuf, which has 4 bytes (TextConverter.cpp:72-75 and 127-130). *)
Definition encodeSmall (p : Z) : option (list Z) :=
  let e := encode dst p in if (0 <? length e)%nat && (length e <=? 4)%nat then Some e else None.

Definition isTruncated (d : dres) : bool := match stat d with Truncated => true | _ => false end.
Definition consistent (d : dres) : bool := Bool.eqb (0 <=? point d) (0 <? nbytes d)%nat.

(** The outcome of a part of convert: [Done c s out]: convert returns here, with converter [c], source bytes [s] left and
    the bytes [out] written. [Go]: it goes on. *)
Inductive res := Done (c : conv) (s : list Z) (out : list Z) | Go (s : list Z) (room : nat) (out : list Z).

(** TextConverter.cpp:44-90. dstSmallBuf is empty when an iteration starts (line 45). The bytes appended to srcSmallBuf
    are dropped again (line 58), so they are only seen by decodePoint. [out]: the bytes written so far. *)
Fixpoint smallLoop (fuel : nat) (sb s : list Z) (room : nat) (flush : bool) (out : list Z) : option res :=
  match sb, fuel with
  | [], _ => Some (Go s room out)
  | _, O => None
  | _, S fuel =>
    let d := decode src (sb ++ firstn (4 - length sb) s) in
    if isTruncated d && negb ((length sb <? 4)%nat && consistent d) then None
    else if isTruncated d && negb (flush && (0 <=? point d)) then Some (Done (mkc sb []) s out)
    else if negb ((0 <=? point d) && (0 <? nbytes d)%nat) then None
    else
      match encodeSmall (point d) with
      | None => None
      | Some e =>
        let (db, w) := drain e room in
        let room := (room - length w)%nat in
        let (sb, s) :=
          if (nbytes d <? length sb)%nat then (skipn (nbytes d) sb, s) else ([], skipn (nbytes d - length sb) s) in
        if (room =? 0)%nat then Some (Done (mkc sb db) s (out ++ w))
        else match db with [] => smallLoop fuel sb s room flush (out ++ w) | _ => None end
      end
  end.

(** TextConverter.cpp:98-140. *)
Fixpoint directLoop (fuel : nat) (s : list Z) (room : nat) (flush : bool) (out : list Z) : option (conv * list Z * list Z) :=
  match s, fuel with
  | [], _ => Some (mkc [] [], [], out)
  | _, O => None
  | _, S fuel =>
    let d := decode src s in
    if isTruncated d && negb flush then
      if (length s <? 4)%nat then Some (mkc s [], [], out) else None
    else if isTruncated d && negb (consistent d) then None
    else if isTruncated d && (point d <? 0) then Some (mkc [] [], s, out)
    else if point d <? 0 then None
    else
      let s := skipn (nbytes d) s in
      if (4 <=? room)%nat then
        match encodeSmall (point d) with
        | Some e => directLoop fuel s (room - length e) flush (out ++ e)
        | None => None
        end
      else
        match encodeSmall (point d) with
        | None => None
        | Some e =>
          let (db, w) := drain e room in
          let room := (room - length w)%nat in
          if (room =? 0)%nat then Some (mkc [] db, s, out ++ w)
          else match db with [] => directLoop fuel s room flush (out ++ w) | _ => None end
        end
  end.

(** TextConverter::convert (TextConverter.cpp:19-141): the converter, the source bytes left and the bytes written to a
    destination of [room] bytes. It returns whether any were written. In the direct loop encodePoint writes to dstBuf
    itself when 4 bytes or more are free; no encoding writes more than 4. *)
Definition convert (c : conv) (s : list Z) (room : nat) (flush : bool) : option (conv * list Z * list Z) :=
  if (room =? 0)%nat then Some (c, s, [])
  else
    let (db, w) := drain (db c) room in
    let room := (room - length w)%nat in
    if (room =? 0)%nat then Some (mkc (sb c) db, s, w)
    else
      match db with
      | _ :: _ => None
      | [] =>
        match smallLoop (length (sb c)) (sb c) s room flush w with
        | None => None
        | Some (Done c s out) => Some (c, s, out)
        | Some (Go s room out) => directLoop (length s) s room flush out
        end
      end.

(** The output stream: the [k]-th call of tryMakeBytesAvailable makes [space k] bytes available, 0 if it fails. *)
Context (space : nat -> nat).

(** TextConverter::writeTo (TextConverter.cpp:143-158): also the number of calls made and the source bytes left. *)
Fixpoint writeTo (fuel : nat) (c : conv) (k : nat) (s : list Z) (flush : bool) : option (conv * nat * list Z * list Z) :=
  match fuel with
  | O => None
  | S fuel =>
    if (space k =? 0)%nat then Some (c, S k, s, [])
    else
      match convert c s (space k) flush with
      | None => None
      | Some (c, s, []) => Some (c, S k, s, [])
      | Some (c, s, out) =>
        match writeTo fuel c (S k) s flush with
        | Some (c, k, s, out') => Some (c, k, s, out ++ out')
        | None => None
        end
      end
  end.
Definition enough (c : conv) (s : list Z) : nat := S (S (length (db c) + 4 * (length (sb c) + length s))).

(** OutPipe_TextConverter (TextConverter.cpp:232-243): write and flush. What write does not consume is gone. *)
Inductive wop := Write (s : list Z) | Flush.
Definition pipeStep (c : conv) (k : nat) (o : wop) : option (conv * nat * list Z) :=
  let (s, flush) := match o with Write s => (s, false) | Flush => ([], true) end in
  match writeTo (enough c s) c k s flush with
  | Some (c, k, _, out) => Some (c, k, out)
  | None => None
  end.
Fixpoint pipeRun (c : conv) (k : nat) (os : list wop) : option (list Z) :=
  match os with
  | [] => Some []
  | o :: os =>
    match pipeStep c k o with
    | None => None
    | Some (c, k, out) => match pipeRun c k os with Some out' => Some (out ++ out') | None => None end
    end
  end.
(** Everything that a fresh OutPipe_TextConverter passes on. *)
Definition piped (os : list wop) : option (list Z) := pipeRun (mkc [] []) 0 os.

(** TextConverter::convertInternal (TextConverter.cpp:189-197). *)
Definition convertText (s : list Z) : option (list Z) :=
  match writeTo (enough (mkc [] []) s) (mkc [] []) 0 s true with
  | Some (_, _, _, out) => Some out
  | None => None
  end.

(** The input stream of readFrom: [todo], the bytes not yet taken. The [k]-th call of tryMakeBytesAvailable(4) makes
    [offer k] of them available, at least 4 if there are 4. [ViewIn]: a stream on a view, where all are available and the
    end is reported when none is left. [PipeIn]: a stream on a pipe, where the end is reported when fewer than 4 are left.
    (RT/io/InStream.cpp:51-120; the bytes lost at block ends, C24_request_refuted, are left out.) *)
Inductive input := ViewIn | PipeIn.
Context (inp : input) (offer : nat -> nat).
Definition offered (k : nat) (todo : list Z) : list Z :=
  match inp with ViewIn => todo | PipeIn => firstn (Nat.max 4 (offer k)) todo end.
Definition ended (todo : list Z) : bool := match inp with ViewIn => (length todo =? 0)%nat | PipeIn => (length todo <? 4)%nat end.

(** TextConverter::readFrom (TextConverter.cpp:160-187). *)
Fixpoint readFrom (fuel : nat) (c : conv) (k : nat) (todo : list Z) (room : nat) : option (conv * nat * list Z * list Z) :=
  match fuel with
  | O => None
  | S fuel =>
    let v := offered k todo in
    let flush := ended todo in
    match convert c v room flush with
    | None => None
    | Some (c, s, out) =>
      let todo' := s ++ skipn (length v) todo in
      match out with
      | _ :: _ => Some (c, S k, todo', out)
      | [] => if flush then if (length s =? 0)%nat then Some (c, S k, todo', []) else None else readFrom fuel c (S k) todo' room
      end
    end
  end.
(** InPipe_TextConverter_readSome called with buffers of the given sizes: what each call returns. *)
Fixpoint reads (c : conv) (k : nat) (todo : list Z) (rooms : list nat) : option (list (list Z)) :=
  match rooms with
  | [] => Some []
  | r :: rooms =>
    match readFrom (S (S (length todo))) c k todo r with
    | None => None
    | Some (c, k, todo, out) => match reads c k todo rooms with Some outs => Some (out :: outs) | None => None end
    end
  end.
Definition readAll (text : list Z) (rooms : list nat) : option (list (list Z)) := reads (mkc [] []) 0 text rooms.
End TextConverter.
