(* Model of ply-runtime/io/InStream.h and InStream.cpp: input streams from a pipe and from a view, with the parts of
   container/BlockList.cpp they use. RT below is repos/plywood/src/runtime/ply-runtime. [None] stands for a failed
   assertion or undefined behaviour. *)
From Verif Require Export SequenceModel.

Section InStream.
(** InPipe::readSome (RT/io/Pipe.h:58-65) reads some bytes, and 0 bytes only at the end of the source: how many bytes
    the [k]-th call wants to read is arbitrary. *)
Context (cut : nat -> nat).
(** getBlockSize (InStream.h:142-144). *)
Context (blk : Z).

(** A stream (InStream.h:62-87). [chain]: the blocks, oldest first, [cb] the index of the current one; earlier blocks
    stay in the list after they have been freed. [pos] and [lim]: curByte and endByte, as offsets in the current
    block. [gone]: the block pointer is null. [marks]: the BlockList::Ref objects the user holds, None once destroyed;
    a Ref is the index of a block and an offset. [src] and [calls]: what is left in the source and how often the pipe
    was called. *)
Record stream := mki { chain : list (@block Z); cb : nat; pos : Z; lim : Z; eof : bool; gone : bool; marks : list (option (nat * Z)); src : list Z; calls : nat }.

Definition usedOf (b : @block Z) : Z := zlen (bitems b).

(** InStream.cpp:27-37. *)
Definition open (source : list Z) : option stream :=
  match @createBlock Z blk 0 with Some b => Some (mki [b] 0 0 0 false false [] source 0) | None => None end.

Definition setPos (s : stream) (c : nat) (p l : Z) : stream := mki (chain s) c p l (eof s) (gone s) (marks s) (src s) (calls s).
Definition setMarks (s : stream) (m : list (option (nat * Z))) : stream := mki (chain s) (cb s) (pos s) (lim s) (eof s) (gone s) m (src s) (calls s).
Definition setEof (s : stream) (e : bool) : stream := mki (chain s) (cb s) (pos s) (lim s) e (gone s) (marks s) (src s) (calls s).

(** safeDemote<u32>. *)
Definition toU32 (x : Z) : option Z := if (0 <=? x) && (x <? 2 ^ 32) then Some x else None.

(** Whether the current block, the last one, is only referenced by the stream: there is no Ref to it, and no Ref to an
    earlier block, which would keep the whole list alive. *)
Definition onlyRef (s : stream) : bool :=
  forallb (fun m => match m with Some (i, _) => negb (i <=? cb s)%nat | None => true end) (marks s).
(** RT/container/BlockList.cpp:76-91, and InStream.cpp:112-114. *)
Definition appendWithRecycle (s : stream) (b : @block Z) (n : Z) : option stream :=
  let off := u64 (boff b + usedOf b) in
  if onlyRef s && (bsize b =? n) then
    Some (mki [mkb [] (bsize b) off] 0 0 0 (eof s) (gone s) (marks s) (src s) (calls s))
  else
    match @createBlock Z n off with
    | Some nb => Some (mki (chain s ++ [nb]) (S (cb s)) 0 0 (eof s) (gone s) (marks s) (src s) (calls s))
    | None => None
    end.

(** InStream.cpp:71-117. When the request starts in one block and goes on in another one that has been read before, a
    temporary block is created: for up to 100 bytes this is a failed assertion (BlockList.cpp:48), and otherwise the
    stream is left with pointers into that block, which is freed on return (InStream.cpp:69, 148-155); both are None.
    Every turn but the last one goes to the next block. *)
Fixpoint findRoom (fuel : nat) (s : stream) (n : Z) : option stream :=
  match fuel, nth_error (chain s) (cb s) with
  | S fuel, Some b =>
    if (0 <=? pos s) && (pos s <=? usedOf b) && (lim s =? usedOf b) then
      let unread := usedOf b - pos s in
      if n <=? unread then Some s else
      match nth_error (chain s) (S (cb s)) with
      | Some nb =>
        if 0 <? unread then None else
        match toU32 (u64 (boff nb - boff b)) with
        | None => None
        | Some d =>
          let offset := u32 (usedOf b - d) in
          if offset <=? usedOf nb then findRoom fuel (setPos s (S (cb s)) offset (usedOf nb)) n else None
        end
      | None => if bsize b - pos s <? n then appendWithRecycle s b (Z.max n blk) else Some s
      end
    else None
  | _, _ => None
  end.

(** Pipe.h:63-65 and InStream.cpp:133-139: put what was read in the current block. *)
Definition readSome (s : stream) (b : @block Z) : stream * nat :=
  let k := Nat.min (Nat.min (Nat.max 1 (cut (calls s))) (Z.to_nat (bsize b - usedOf b))) (length (src s)) in
  let got := firstn k (src s) in
  (mki (upd (chain s) (cb s) (mkb (bitems b ++ got) (bsize b) (boff b))) (cb s) (pos s) (lim s + zlen got) (eof s) (gone s) (marks s)
       (skipn k (src s)) (S (calls s)), k).
(** InStream.cpp:123-140. Every turn but the last reads a byte or more. *)
Fixpoint fill (fuel : nat) (s : stream) (n : Z) : option (stream * Z) :=
  match nth_error (chain s) (cb s) with
  | None => None
  | Some b =>
    let avail := usedOf b - pos s in
    if n <=? avail then Some (s, avail) else
    match fuel, nth_error (chain s) (S (cb s)) with
    | S fuel, None => let (s, k) := readSome s b in if (k =? 0)%nat then Some (setEof s true, avail) else fill fuel s n
    | _, _ => None
    end
  end.
(** InStream.cpp:49-158. *)
Definition tryMakeInternal (s : stream) (n : Z) : option (stream * Z) :=
  if n <=? 0 then None else
  if gone s then if eof s then Some (s, 0) else None else
  match findRoom (S (length (chain s))) s n with
  | None => None
  | Some s =>
    match nth_error (chain s) (cb s) with
    | Some b => if n <=? bsize b - pos s then fill (S (Z.to_nat n)) s n else None
    | None => None
    end
  end.
(** InStream.h:189-193. *)
Definition tryMake (s : stream) (n : Z) : option (stream * Z) :=
  if lim s - pos s <? n then tryMakeInternal s n else Some (s, n).

(** viewAvailable (InStream.h:158-160). Nothing is at a null pointer. *)
Definition view (s : stream) : list Z :=
  if gone s then [] else
  match nth_error (chain s) (cb s) with Some b => firstn (Z.to_nat (lim s - pos s)) (skipn (Z.to_nat (pos s)) (bitems b)) | None => [] end.
(** curByte += n, where n bytes are available. *)
Definition advance (s : stream) (n : Z) : stream := setPos s (cb s) (pos s + n) (lim s).

(** InStream.h:224-228. *)
Definition readByte (s : stream) : option (stream * Z) :=
  match tryMake s 1 with
  | None => None
  | Some (s, c) => if c =? 0 then Some (s, 0) else match view s with b :: _ => Some (advance s 1, b) | [] => None end
  end.

(** InStream.cpp:189-198. Every turn copies a byte or more. *)
Fixpoint readLoop (fuel : nat) (s : stream) (n : Z) : option (stream * list Z * bool) :=
  if n =? 0 then Some (s, [], true) else
  match fuel, tryMake s 1 with
  | S fuel, Some (s, c) =>
    if c =? 0 then Some (s, repeat 0 (Z.to_nat n), false) else
    let k := Z.min n (zlen (view s)) in
    match readLoop fuel (advance s k) (n - k) with
    | Some (s', l, ok) => Some (s', firstn (Z.to_nat k) (view s) ++ l, ok)
    | None => None
    end
  | _, _ => None
  end.
(** InStream.h:238-247 and InStream.cpp:185-201: reads to a buffer that contains [dst]. *)
Definition read (s : stream) (dst : list Z) : option (stream * list Z * bool) :=
  let n := zlen dst in
  if lim s - pos s <? n then
    if eof s then Some (s, dst, false) else readLoop (length dst) s n
  else Some (advance s n, firstn (length dst) (view s), negb (eof s)).

(** InStream.cpp:203-217. *)
Fixpoint skipLoop (fuel : nat) (s : stream) (n : Z) : option (stream * bool) :=
  if n =? 0 then Some (s, true) else
  match fuel, tryMake s 1 with
  | S fuel, Some (s, c) =>
    if c =? 0 then Some (s, false) else let k := Z.min n (zlen (view s)) in skipLoop fuel (advance s k) (n - k)
  | _, _ => None
  end.
(** InStream.h:257-263. *)
Definition skip (s : stream) (n : Z) : option (stream * bool) :=
  if lim s - pos s <? n then if eof s then Some (s, false) else skipLoop (Z.to_nat n) s n
  else Some (advance s n, negb (eof s)).

(** InStream.cpp:160-166. *)
Definition getSeekPos (s : stream) : option Z :=
  if gone s then None else match nth_error (chain s) (cb s) with Some b => Some (u64 (boff b + pos s)) | None => None end.
(** InStream.cpp:168-173. *)
Definition getBlockRef (s : stream) : option (nat * Z) :=
  if gone s then None else
  match nth_error (chain s) (cb s) with Some b => if (0 <=? pos s) && (pos s <=? usedOf b) then Some (cb s, pos s) else None | None => None end.
(** InStream.cpp:175-183. *)
Definition rewind (s : stream) (r : nat * Z) : option stream :=
  match nth_error (chain s) (fst r) with
  | None => None
  | Some b =>
    if (0 <=? snd r) && (snd r <=? usedOf b) then
      Some (mki (chain s) (fst r) (snd r) (usedOf b) false false (marks s) (src s) (calls s))
    else None
  end.

(** BlockList.h:142-167 and BlockList.cpp:32-42: the views from [start] to [stop], where a null [stop] is None. The loop
    ends when the position is [stop]. After the last block the position is null. *)
Fixpoint views (fuel : nat) (ch : list (@block Z)) (start stop : option (nat * Z)) : option (list (list Z)) :=
  match start, stop with
  | None, None => Some []
  | None, Some _ => None
  | Some (i, p), _ =>
    let same := match stop with Some (j, q) => (i =? j)%nat && (p =? q) | None => false end in
    if same then Some [] else
    match fuel, nth_error ch i with
    | S fuel, Some b =>
      let e := match stop with Some (j, q) => if (i =? j)%nat then q else usedOf b | None => usedOf b end in
      let v := firstn (Z.to_nat (e - p)) (skipn (Z.to_nat p) (bitems b)) in
      let next :=
        match nth_error ch (S i) with
        | None => Some None
        | Some nb =>
          match toU32 (boff nb - boff b) with
          | Some d => if (d <=? usedOf b) && (usedOf b - d <=? usedOf nb) then Some (Some (S i, usedOf b - d)) else None
          | None => None
          end
        end in
      match next with
      | None => None
      | Some next => match views fuel ch next stop with Some r => Some (v :: r) | None => None end
      end
    | _, _ => None
    end
  end.
(** BlockList.cpp:111-141. The shortcut for a single block, taken when the stream does not hold it any more and the
    start is its first byte, comes to the same as the loops with a null end. *)
Definition toString (ch : list (@block Z)) (start : nat * Z) (stop : option (nat * Z)) : option (list Z) :=
  match views (S (length ch)) ch (Some start) stop with
  | Some vs => if zlen (concat vs) <? 2 ^ 32 then Some (concat vs) else None
  | None => None
  end.

(** InStream.cpp:221-223. Every turn goes to the end of a block, and reads a byte or more if it is the last one. *)
Fixpoint readAll (fuel : nat) (s : stream) : option stream :=
  match tryMake s 1 with
  | None => None
  | Some (s, c) =>
    if c =? 0 then Some s else match fuel with S fuel => readAll fuel (setPos s (cb s) (lim s) (lim s)) | O => None end
  end.
(** InStream.cpp:219-229. The start position is a Ref while the loop is running. *)
Definition readRemaining (s : stream) : option (stream * list Z) :=
  match getBlockRef s with
  | None => None
  | Some start =>
    match readAll (S (length (src s) + length (chain s) + length (concat (map bitems (chain s))))) (setMarks s (Some start :: marks s)) with
    | None => None
    | Some s =>
      match eof s, marks s with
      | true, Some start :: m =>
        match toString (chain s) start None with
        | Some l => Some (mki (chain s) (cb s) 0 0 true true m (src s) (calls s), l)
        | None => None
        end
      | _, _ => None
      end
    end
  end.
(** readString (InStream.h:349-361) of the next [n] bytes, that is with a parser that skips them. *)
Definition readString (s : stream) (n : Z) : option (stream * list Z) :=
  match getBlockRef s with
  | None => None
  | Some start =>
    match skip (setMarks s (Some start :: marks s)) n with
    | None => None
    | Some (s, _) =>
      match marks s, getBlockRef s with
      | Some start :: m, Some stop => match toString (chain s) start (Some stop) with Some l => Some (setMarks s m, l) | None => None end
      | _, _ => None
      end
    end
  end.

(** [Take n f]: tryMakeBytesAvailable(n), then the first [f v] bytes of what is available are used, where [v] is what is
    available. [Save] and [Rewind k]: getBlockRef and rewind to the [k]-th saved position; [Drop k]: destroy it. *)
Inductive op := Byte | Read (dst : list Z) | Skip (n : Z) | Take (n : Z) (f : list Z -> nat) | Save | Rewind (k : nat) | Drop (k : nat)
              | SeekPos | AtEOF | Rest.
Inductive out := Nothing | Num (n : Z) | Flag (b : bool) | Bytes (l : list Z) (ok : bool) | Chunk (c : Z) (v : list Z) (k : nat).

Definition step (s : stream) (o : op) : option (stream * out) :=
  match o with
  | Byte => match readByte s with Some (s, b) => Some (s, Num b) | None => None end
  | Read dst => match read s dst with Some (s, l, ok) => Some (s, Bytes l ok) | None => None end
  | Skip n => match skip s n with Some (s, ok) => Some (s, Flag ok) | None => None end
  | Take n f =>
    match tryMake s n with
    | Some (s, c) => let k := Nat.min (f (view s)) (length (view s)) in Some (advance s (Z.of_nat k), Chunk c (view s) k)
    | None => None
    end
  | Save => match getBlockRef s with Some r => Some (setMarks s (marks s ++ [Some r]), Nothing) | None => None end
  | Rewind k => match nth_error (marks s) k with Some (Some r) => match rewind s r with Some s => Some (s, Nothing) | None => None end | _ => None end
  | Drop k => Some (setMarks s (upd (marks s) k None), Nothing)
  | SeekPos => match getSeekPos s with Some p => Some (s, Num p) | None => None end
  | AtEOF => Some (s, Flag (eof s))
  | Rest => match readRemaining s with Some (s, l) => Some (s, Bytes l true) | None => None end
  end.
Fixpoint run (s : stream) (os : list op) : option (stream * list out) :=
  match os with
  | [] => Some (s, [])
  | o :: os =>
    match step s o with
    | None => None
    | Some (s, y) => match run s os with Some (s, ys) => Some (s, y :: ys) | None => None end
    end
  end.
Definition uses (source : list Z) (os : list op) : option (list out) :=
  match open source with
  | None => None
  | Some s => match run s os with Some (_, ys) => Some ys | None => None end
  end.
End InStream.

(** ViewInStream (InStream.h:378-461): the pointers are offsets in the view. *)
Record vstream := mkv { vdata : list Z; vpos : Z; veof : bool; vmarks : list Z }.
Definition vavail (s : vstream) : Z := zlen (vdata s) - vpos s.
Definition vview (s : vstream) : list Z := skipn (Z.to_nat (vpos s)) (vdata s).
Definition vmove (s : vstream) (n : Z) : vstream := mkv (vdata s) (vpos s + n) (veof s) (vmarks s).
(** InStream.cpp:54-60 and InStream.h:189-193. *)
Definition vtryMake (s : vstream) (n : Z) : option (vstream * Z) :=
  if vavail s <? n then
    if n <=? 0 then None else Some (mkv (vdata s) (vpos s) (if vavail s =? 0 then true else veof s) (vmarks s), vavail s)
  else Some (s, n).
(** InStream.cpp:189-198. *)
Fixpoint vreadLoop (fuel : nat) (s : vstream) (n : Z) : option (vstream * list Z * bool) :=
  if n =? 0 then Some (s, [], true) else
  match fuel, vtryMake s 1 with
  | S fuel, Some (s, c) =>
    if c =? 0 then Some (s, repeat 0 (Z.to_nat n), false) else
    let k := Z.min n (vavail s) in
    match vreadLoop fuel (vmove s k) (n - k) with
    | Some (s', l, ok) => Some (s', firstn (Z.to_nat k) (vview s) ++ l, ok)
    | None => None
    end
  | _, _ => None
  end.
(** InStream.cpp:207-214. *)
Fixpoint vskipLoop (fuel : nat) (s : vstream) (n : Z) : option (vstream * bool) :=
  if n =? 0 then Some (s, true) else
  match fuel, vtryMake s 1 with
  | S fuel, Some (s, c) => if c =? 0 then Some (s, false) else let k := Z.min n (vavail s) in vskipLoop fuel (vmove s k) (n - k)
  | _, _ => None
  end.
(** [VSave], [VRestore k] and [VSince k]: savePoint, restore to the [k]-th save point, and getViewFrom it
    (InStream.h:402-424). *)
Inductive vop := VByte | VRead (dst : list Z) | VSkip (n : Z) | VTake (n : Z) (f : list Z -> nat) | VSave | VRestore (k : nat) | VSince (k : nat)
               | VSeekPos | VAtEOF.
Definition vstep (s : vstream) (o : vop) : option (vstream * out) :=
  match o with
  | VByte =>
    match vtryMake s 1 with
    | None => None
    | Some (s, c) => if c =? 0 then Some (s, Num 0) else match vview s with b :: _ => Some (vmove s 1, Num b) | [] => None end
    end
  | VRead dst =>
    if vavail s <? zlen dst then
      if veof s then Some (s, Bytes dst false)
      else match vreadLoop (S (length dst)) s (zlen dst) with Some (s, l, ok) => Some (s, Bytes l ok) | None => None end
    else Some (vmove s (zlen dst), Bytes (firstn (length dst) (vview s)) (negb (veof s)))
  | VSkip n =>
    if vavail s <? n then
      if veof s then Some (s, Flag false)
      else match vskipLoop (S (Z.to_nat n)) s n with Some (s, ok) => Some (s, Flag ok) | None => None end
    else Some (vmove s n, Flag (negb (veof s)))
  | VTake n f =>
    match vtryMake s n with
    | Some (s, c) => let k := Nat.min (f (vview s)) (length (vview s)) in Some (vmove s (Z.of_nat k), Chunk c (vview s) k)
    | None => None
    end
  | VSave => Some (mkv (vdata s) (vpos s) (veof s) (vmarks s ++ [vpos s]), Nothing)
  | VRestore k =>
    match nth_error (vmarks s) k with
    | Some p => if u64 (vpos s - p) <=? zlen (vdata s) then Some (mkv (vdata s) p (veof s) (vmarks s), Nothing) else None
    | None => None
    end
  | VSince k =>
    match nth_error (vmarks s) k with
    | Some p =>
      if u64 (vpos s - p) <=? zlen (vdata s) then
        Some (s, Bytes (firstn (Z.to_nat (vpos s - p)) (skipn (Z.to_nat p) (vdata s))) true)
      else None
    | None => None
    end
  | VSeekPos => Some (s, Num (vpos s))
  | VAtEOF => Some (s, Flag (veof s))
  end.
Fixpoint vrun (s : vstream) (os : list vop) : option (list out) :=
  match os with
  | [] => Some []
  | o :: os => match vstep s o with None => None | Some (s, y) => match vrun s os with Some ys => Some (y :: ys) | None => None end end
  end.
Definition usesView (data : list Z) (os : list vop) : option (list out) := vrun (mkv data 0 false []) os.
