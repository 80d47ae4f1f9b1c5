(* What an input stream must do, in terms of the source and a position in it. *)
From Verif Require Export InStreamModel.

(** What the user knows of a stream: the position, whether it reported the end of the file, the saved positions, and
    whether everything left was taken out of it. *)
Record user := mku { at_ : Z; ended : bool; saved : list (option Z); closed : bool }.
Definition start : user := mku 0 false [] false.

Definition rest (source : list Z) (p : Z) : list Z := skipn (Z.to_nat p) source.
Definition prefix (a b : list Z) : Prop := exists c, b = a ++ c.

(** The calls within the contract. A request for several bytes in one piece must not cross a multiple of the block size. *)
Definition allowed (blk : Z) (source : list Z) (u : user) (o : op) : Prop :=
  match o with
  | Skip n => 0 <= n < 2 ^ 32
  | Take n _ => 1 <= n /\ at_ u mod blk + n <= blk
  | Save | SeekPos => closed u = false
  | Rest => closed u = false /\ zlen (rest source (at_ u)) < 2 ^ 32
  | Rewind k => exists p, nth_error (saved u) k = Some (Some p)
  | _ => True
  end.

(** The answer [y] to a call, and what the user knows next. *)
Definition answers (source : list Z) (u : user) (o : op) (y : out) (u' : user) : Prop :=
  let left := rest source (at_ u) in
  let move n := mku (at_ u + n) (ended u) (saved u) (closed u) in
  let finish := mku (zlen source) true (saved u) (closed u) in
  match o with
  | Byte => match left with b :: _ => y = Num b /\ u' = move 1 | [] => y = Num 0 /\ u' = finish end
  | Read dst =>
    if zlen dst <=? zlen left then y = Bytes (firstn (length dst) left) (negb (ended u)) /\ u' = move (zlen dst)
    else if ended u then y = Bytes dst false /\ u' = u
    else y = Bytes (left ++ repeat 0 (length dst - length left)) false /\ u' = finish
  | Skip n =>
    if n <=? zlen left then y = Flag (negb (ended u)) /\ u' = move n
    else if ended u then y = Flag false /\ u' = u
    else y = Flag false /\ u' = finish
  | Take n f =>
    exists v c, let k := Nat.min (f v) (length v) in y = Chunk c v k /\ prefix v left /\
      (n <= c <= zlen v /\ u' = move (Z.of_nat k) \/
       c = zlen v /\ zlen v < n /\ v = left /\ u' = mku (at_ u + Z.of_nat k) true (saved u) (closed u))
  | Save => y = Nothing /\ u' = mku (at_ u) (ended u) (saved u ++ [Some (at_ u)]) (closed u)
  | Rewind k => exists p, nth_error (saved u) k = Some (Some p) /\ y = Nothing /\ u' = mku p false (saved u) false
  | Drop k => y = Nothing /\ u' = mku (at_ u) (ended u) (upd (saved u) k None) (closed u)
  | SeekPos => y = Num (at_ u) /\ u' = u
  | AtEOF => y = Flag (ended u) /\ u' = u
  | Rest => y = Bytes left true /\ u' = mku (zlen source) true (saved u) true
  end.

(** The answers to a list of calls are right up to the first call outside the contract; None, a failure, is never right
    before that. *)
Inductive right (blk : Z) (source : list Z) : user -> list op -> option (list out) -> Prop :=
| right_end u : right blk source u [] (Some [])
| right_outside u o os r : ~ allowed blk source u o -> right blk source u (o :: os) r
| right_call u o os y u' r : allowed blk source u o -> answers source u o y u' -> right blk source u' os r ->
    right blk source u (o :: os) (option_map (cons y) r).

(** A stream on a view: the answer to a call at position [p], when [e] says that the end was reported and [ms] are the
    saved positions; the next position; whether the end is reported now. None: outside the contract. *)
Definition vanswer (data : list Z) (p : Z) (e : bool) (ms : list Z) (o : vop) : option (out * Z * bool * list Z) :=
  let left := rest data p in
  let n := zlen left in
  match o with
  | VByte => Some (match left with b :: _ => (Num b, p + 1, e, ms) | [] => (Num 0, p, true, ms) end)
  | VRead dst =>
    Some (if zlen dst <=? n then (Bytes (firstn (length dst) left) (negb e), p + zlen dst, e, ms)
          else if e then (Bytes dst false, p, e, ms)
          else (Bytes (left ++ repeat 0 (length dst - length left)) false, p + n, true, ms))
  | VSkip k =>
    if (0 <=? k) && (k <? 2 ^ 32) then
      Some (if k <=? n then (Flag (negb e), p + k, e, ms) else if e then (Flag false, p, e, ms) else (Flag false, p + n, true, ms))
    else None
  | VTake k f =>
    if 1 <=? k then
      let j := Nat.min (f left) (length left) in
      Some (Chunk (Z.min k n) left j, p + Z.of_nat j, e || (n =? 0), ms)
    else None
  | VSave => Some (Nothing, p, e, ms ++ [p])
  | VRestore k => match nth_error ms k with Some q => if q <=? p then Some (Nothing, q, e, ms) else None | None => None end
  | VSince k =>
    match nth_error ms k with
    | Some q => if q <=? p then Some (Bytes (firstn (Z.to_nat (p - q)) (rest data q)) true, p, e, ms) else None
    | None => None
    end
  | VSeekPos => Some (Num p, p, e, ms)
  | VAtEOF => Some (Flag e, p, e, ms)
  end.
Fixpoint vanswers (data : list Z) (p : Z) (e : bool) (ms : list Z) (os : list vop) : option (list out) :=
  match os with
  | [] => Some []
  | o :: os =>
    match vanswer data p e ms o with
    | None => None
    | Some (y, p, e, ms) => match vanswers data p e ms os with Some ys => Some (y :: ys) | None => None end
    end
  end.
