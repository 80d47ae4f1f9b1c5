(* What an output stream must do, in terms of the pieces written to it. *)
From Verif Require Export OutStreamModel.

(** The bytes a call hands to the stream. *)
Definition piece (o : op) : list Z :=
  match o with Write bs => bs | WriteByte b => [b] | Reserve _ bs => bs | Force _ bs => bs | _ => [] end.
Definition written (os : list op) : list Z := flat_map piece os.

(** Calls within the contract: pieces under 2 GB, and no more put in the room asked for than was asked. *)
Definition allowed (o : op) : bool :=
  match o with
  | Write bs => zlen bs <? 2 ^ 31
  | Reserve n bs | Force n bs => (1 <=? n) && (n <? 2 ^ 31) && (zlen bs <=? n)
  | _ => true
  end.

(** The answers of a stream that accepts everything, [total] bytes having been written and the pipe flushed [k]
    times. *)
Fixpoint answers (flushPipe : nat -> bool) (total : Z) (k : nat) (os : list op) : list out :=
  match os with
  | [] => []
  | o :: os =>
    let y :=
      match o with
      | Flush => Flag (flushPipe k)
      | SeekPos => Num (total mod 2 ^ 64)
      | AtEOF => Flag false
      | _ => Flag true
      end in
    y :: answers flushPipe (total + zlen (piece o)) (match o with Flush => S k | _ => k end) os
  end.

(** A pipe that says it succeeded has taken everything. *)
Definition honest (pipe : nat -> list Z -> nat * bool) : Prop := forall k bs n, pipe k bs = (n, true) -> (length bs <= n)%nat.
Definition never_fails (pipe : nat -> list Z -> nat * bool) : Prop := forall k bs, snd (pipe k bs) = true.

Definition prefix (a b : list Z) : Prop := exists c, b = a ++ c.

(** Asking for room for one byte at a time. *)
Definition small_requests (o : op) : bool := match o with Reserve n _ => n =? 1 | _ => true end.

(** The answers of a stream on a buffer of [n] bytes. *)
Definition plain (o : op) : bool := match o with Write _ | WriteByte _ | SeekPos | AtEOF | Flush => true | _ => false end.
Fixpoint viewAnswers (n total : Z) (os : list op) : list out :=
  match os with
  | [] => []
  | o :: os =>
    let total' := total + zlen (piece o) in
    let y :=
      match o with
      | Flush => Flag true
      | SeekPos => Num (Z.min n total)
      | AtEOF => Flag (n <? total)
      | _ => Flag (total' <=? n)
      end in
    y :: viewAnswers n total' os
  end.
