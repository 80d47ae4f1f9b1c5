(* Model of ply-runtime/io/OutStream.h and OutStream.cpp: output streams to a pipe, to memory and to a buffer.
   RT below is repos/plywood/src/runtime/ply-runtime. *)
From Verif Require Export SequenceModel.

(** OutStream::Type (RT/io/OutStream.h:42-46). *)
Inductive kind := View | Pipe | Mem.

Section OutStream.
(** OutPipe::write (RT/io/Pipe.h:98-140) is an oracle: the answer to the [k]-th call, given the bytes offered, is how
    many of them are taken and whether the call succeeds. [flushPipe] is the answer of OutPipe::flush. *)
Context (pipe : nat -> list Z -> nat * bool) (flushPipe : nat -> bool).
(** getBlockSize (OutStream.h:131-133). *)
Context (blk : Z).

(** A stream (OutStream.h:64-82). [prev]: the finished blocks of a memory stream, last first. [buf]: the bytes of the
    current block from its start to curByte. [size], [flushed] and [off]: its blockSize, numBytesUsed and fileOffset.
    [lim]: the position of endByte. A view has one block, its buffer. [received], [calls] and [flushes]: what the pipe
    has taken and how often it was called. *)
Record stream := mko { kd : kind; prev : @seqn Z; buf : list Z; size : Z; flushed : Z; off : Z; lim : Z; eof : bool;
                       received : list Z; calls : nat; flushes : nat }.

Definition cur (s : stream) : Z := zlen (buf s).
Definition avail (s : stream) : Z := lim s - cur s.

(** OutStream.cpp:13-18, 36-42 and 152-155. *)
Definition openBlock (k : kind) : option stream :=
  match @createBlock Z blk 0 with
  | Some b => Some (mko k [] [] (bsize b) 0 (boff b) (bsize b) false [] 0 0)
  | None => None
  end.
(** OutStream.h:349-354. *)
Definition openView (n : Z) : stream := mko View [] [] n 0 0 n false [] 0 0.

(** OutStream.cpp:58-78. *)
Definition flushInternal (s : stream) : option (stream * bool) :=
  match kd s with
  | View => Some (s, true)
  | _ =>
    if (lim s =? size s) && (flushed s <=? cur s) && (cur s <=? size s) then
      let s :=
        if flushed s <? cur s then
          let s :=
            match kd s, eof s with
            | Pipe, false =>
              let bs := skipn (Z.to_nat (flushed s)) (buf s) in
              let (n, ok) := pipe (calls s) bs in
              mko (kd s) (prev s) (buf s) (size s) (flushed s) (off s) (lim s) (negb ok) (received s ++ firstn n bs) (S (calls s)) (flushes s)
            | _, _ => s
            end in
          mko (kd s) (prev s) (buf s) (size s) (cur s) (off s) (lim s) (eof s) (received s) (calls s) (flushes s)
        else s in
      Some (s, negb (eof s))
    else None
  end.

(** OutStream.cpp:80-87. *)
Definition flush (s : stream) : option (stream * bool) :=
  match flushInternal s with
  | None => None
  | Some (s, _) =>
    match kd s with
    | Pipe => Some (mko (kd s) (prev s) (buf s) (size s) (flushed s) (off s) (lim s) (eof s) (received s) (calls s) (S (flushes s)), flushPipe (flushes s))
    | _ => Some (s, true)
    end
  end.

(** OutStream.cpp:89-95. *)
Definition getSeekPos (s : stream) : Z := match kd s with View => cur s | _ => u64 (off s + cur s) end.

(** BlockList.cpp:76-91 as used in OutStream.cpp:127-129. The current block of a memory stream is also referenced by
    the head or by the block before it, so it is kept; that of a pipe stream is reused or freed, which comes to the
    same. *)
Definition nextBlock (s : stream) (n : Z) : option stream :=
  match @createBlock Z n (u64 (off s + flushed s)) with
  | None => None
  | Some b =>
    let prev := match kd s with Mem => mkb (firstn (Z.to_nat (flushed s)) (buf s)) (size s) (off s) :: prev s | _ => prev s end in
    Some (mko (kd s) prev [] (bsize b) 0 (boff b) (bsize b) (eof s) (received s) (calls s) (flushes s))
  end.

(** OutStream.cpp:97-131. *)
Definition tryMakeInternal (s : stream) (n : Z) : option (stream * Z) :=
  if n =? 0 then None else
  match kd s with
  | View =>
    if 0 <? n then
      Some (mko (kd s) (prev s) (buf s) (size s) (flushed s) (off s) (lim s) (if avail s <? n then true else eof s) (received s) (calls s) (flushes s), avail s)
    else None
  | _ =>
    if eof s && (0 <? n) then Some (s, 0) else
    match flushInternal s with
    | None => None
    | Some (s, ok) =>
      if negb ok && (0 <? n) then
        Some (mko (kd s) (prev s) (buf s) (size s) (flushed s) (off s) (cur s) (eof s) (received s) (calls s) (flushes s), 0)
      else match nextBlock s (Z.max blk (Z.abs n)) with Some s => Some (s, size s) | None => None end
    end
  end.
(** OutStream.h:196-200. *)
Definition tryMake (s : stream) (n : Z) : option (stream * Z) := if avail s <? n then tryMakeInternal s n else Some (s, n).
(** OutStream.h:207-212. *)
Definition make (s : stream) (n : Z) : option stream :=
  if avail s <? n then match tryMakeInternal s (- n) with Some (s, _) => Some s | None => None end else Some s.

(** memcpy to curByte and curByte += n: out of bounds beyond endByte. *)
Definition put (s : stream) (bs : list Z) : option stream :=
  if zlen bs <=? avail s then
    Some (mko (kd s) (prev s) (buf s ++ bs) (size s) (flushed s) (off s) (lim s) (eof s) (received s) (calls s) (flushes s))
  else None.

(** OutStream.h:220-226. *)
Definition writeByte (s : stream) (b : Z) : option (stream * bool) :=
  match tryMake s 1 with
  | None => None
  | Some (s, n) => if n =? 0 then Some (s, false) else match put s [b] with Some s => Some (s, true) | None => None end
  end.

(** OutStream.cpp:137-146. Every turn copies a byte or more. *)
Fixpoint writeLoop (fuel : nat) (s : stream) (bs : list Z) : option (stream * bool) :=
  match bs, fuel with
  | [], _ => Some (s, true)
  | _, O => None
  | _, S fuel =>
    match tryMake s 1 with
    | None => None
    | Some (s, n) =>
      if n =? 0 then Some (s, false) else
      let k := Z.to_nat (Z.min (avail s) (zlen bs)) in
      match put s (firstn k bs) with
      | None => None
      | Some s => writeLoop fuel s (skipn k bs)
      end
    end
  end.
(** OutStream.cpp:133-147. *)
Definition writeSlowPath (s : stream) (bs : list Z) : option (stream * bool) :=
  if eof s then Some (s, false) else writeLoop (length bs) s bs.
(** OutStream.h:234-242. The length is compared as a signed number. *)
Definition write (s : stream) (bs : list Z) : option (stream * bool) :=
  if avail s <? s32 (zlen bs) then writeSlowPath s bs
  else match put s bs with Some s => Some (s, negb (eof s)) | None => None end.

(** OutStream.cpp:157-176, with BlockList::toString (RT/container/BlockList.cpp:111-141). *)
Definition moveToString (s : stream) : option (stream * list Z) :=
  match kd s with
  | Mem =>
    if (flushed s <=? cur s) && (cur s <=? size s) then
      match moveToArray 1 (mkb (buf s) (size s) (off s) :: prev s) with
      | Some l => Some (openView 0, l)
      | None => None
      end
    else None
  | _ => None
  end.

(** [Reserve n bs]: tryMakeBytesAvailable(n), then, if that succeeded, [bs] put at curByte. [Force n bs]: the same with
    makeBytesAvailable(n). *)
Inductive op := Write (bs : list Z) | WriteByte (b : Z) | Reserve (n : Z) (bs : list Z) | Force (n : Z) (bs : list Z)
              | Flush | SeekPos | AtEOF.
Inductive out := Flag (b : bool) | Num (n : Z).

Definition step (s : stream) (o : op) : option (stream * out) :=
  let flag r := match r with Some (s, b) => Some (s, Flag b) | None => None end in
  match o with
  | Write bs => flag (write s bs)
  | WriteByte b => flag (writeByte s b)
  | Reserve n bs =>
    match tryMake s n with
    | None => None
    | Some (s, m) => if m <? n then Some (s, Flag false) else flag (match put s bs with Some s => Some (s, true) | None => None end)
    end
  | Force n bs =>
    match make s n with
    | None => None
    | Some s => flag (match put s bs with Some s => Some (s, true) | None => None end)
    end
  | Flush => flag (flush s)
  | SeekPos => Some (s, Num (getSeekPos s))
  | AtEOF => Some (s, Flag (eof s))
  end.
Fixpoint run (s : stream) (os : list op) : option (stream * list out) :=
  match os with
  | [] => Some (s, [])
  | o :: os =>
    match step s o with
    | None => None
    | Some (s, y) => match run s os with Some (s, ys) => Some (s, y :: ys) | None => None end
    end
  end.

(** Uses of a stream on a pipe. At the end the stream is destroyed, which flushes it (OutStream.cpp:44-56). The
    results: the outputs, what the pipe has received, whether the stream was at the end of file. *)
Definition usesPipe (os : list op) : option (list out * list Z * bool) :=
  match openBlock Pipe with
  | None => None
  | Some s =>
    match run s os with
    | None => None
    | Some (s, ys) => match flush s with Some (s, _) => Some (ys, received s, eof s) | None => None end
    end
  end.
(** Uses of a memory stream, and the string it is moved to. *)
Definition usesMem (os : list op) : option (list out * list Z) :=
  match openBlock Mem with
  | None => None
  | Some s =>
    match run s os with
    | None => None
    | Some (s, ys) => match moveToString s with Some (_, l) => Some (ys, l) | None => None end
    end
  end.
(** Uses of a stream on a buffer of [n] bytes, and what is in the buffer. *)
Definition usesView (n : Z) (os : list op) : option (list out * list Z) :=
  match run (openView n) os with Some (s, ys) => Some (ys, buf s) | None => None end.
End OutStream.
