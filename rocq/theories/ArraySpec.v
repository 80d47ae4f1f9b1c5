(* What the array operations mean on a mathematical list. *)
From Verif Require Export Base ArrayModel.

Section ASpec.
Context {A : Type}.
Variable dflt : A.
Definition limit : nat := Nat.pow 2 31.

(** The list after the operation. Only the [op] names are shared with the model. *)
Definition list_step (l : list A) (o : @op A) : list A :=
  match o with
  | Append x => l ++ [x]
  | Extend v => l ++ v
  | Resize n => firstn n l ++ repeat dflt (n - length l)
  | Pop n => firstn (length l - n) l
  | Insert p n => firstn p l ++ repeat dflt n ++ skipn p l
  | Erase p n => firstn p l ++ skipn (p + n) l
  | EraseQuick p =>          (* the last item takes the place of the erased one *)
      firstn (length l - 1) (firstn p l ++ skipn (length l - 1) l ++ skipn (p + 1) l)
  | EraseQuickN p n =>       (* the last [n] items take the place of the erased ones *)
      firstn (length l - n) (firstn p l ++ skipn (length l - n) l ++ skipn (p + n) l)
  | Truncate => l
  | Clear => []
  | Reserve _ => l
  | Assign i x => firstn i l ++ x :: skipn (i + 1) l
  end.

(** When the operation may be called; sizes stay within 2^31. *)
Definition allowed (l : list A) (o : @op A) : Prop :=
  match o with
  | Append _ => (length l + 1 <= limit)%nat
  | Extend v => (length l + length v <= limit)%nat
  | Resize n => (n <= limit)%nat
  | Pop n => (n <= length l)%nat
  | Insert p n => (p <= length l /\ length l + n <= limit)%nat
  | Erase p n => (p + n <= length l)%nat
  | EraseQuick p => (p < length l)%nat
  | EraseQuickN p n => (p + 2 * n <= length l \/ p + n = length l)%nat
  | Truncate | Clear => True
  | Reserve n => (n <= limit)%nat
  | Assign i _ => (i < length l)%nat
  end.
Fixpoint list_run (l : list A) (ops : list op) : list A :=
  match ops with [] => l | o :: r => list_run (list_step l o) r end.
Fixpoint all_allowed (l : list A) (ops : list op) : Prop :=
  match ops with [] => True | o :: r => allowed l o /\ all_allowed (list_step l o) r end.
End ASpec.
