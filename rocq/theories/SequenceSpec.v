(* What the uses of a sequence must return, in terms of a list and of the length it had at the mark. *)
From Verif Require Export SequenceModel.

Section SeqSpec.
Context {T : Type} (sz : Z).

(** The mark is lost as soon as the list becomes shorter than it. *)
Definition keep_mark (m : option nat) (l : list T) : option nat :=
  match m with Some p => if (p <=? length l)%nat then Some p else None | None => None end.

(** [None] is a use outside the contract: popping more than there is, reading an empty sequence, going past
    the end, using a lost mark, or 4 GB of items or more where the code counts bytes. *)
Definition spec_step (l : list T) (m : option nat) (o : op) : option (list T * option nat * out) :=
  let small := sz * zlen l <? 2 ^ 32 in
  let change l' := Some (l', keep_mark m l', Done) in
  match o with
  | Append x => change (l ++ [x])
  | AppendViews xs => change (l ++ xs)
  | Pop n => if (n <=? length l)%nat && small then change (firstn (length l - n) l) else None
  | Mark => Some (l, Some (length l), Done)
  | TruncateToMark => match m with Some p => change (firstn p l) | None => None end
  | TruncateAt j => if (j <=? length l)%nat then change (firstn j l) else None
  | Head => match l with x :: _ => Some (l, m, Item x) | [] => None end
  | Tail => match rev l with x :: _ => Some (l, m, Item x) | [] => None end
  | IsEmpty => Some (l, m, Flag (match l with [] => true | _ => false end))
  | Count => if small then Some (l, m, Num (zlen l)) else None
  | All => Some (l, m, Items l)
  | Backwards => Some (l, m, Items (rev l))
  | Views => Some (l, m, Items l)
  | MoveToArray => if small then Some ([], None, Moved l) else None
  | Clear => Some ([], None, Done)
  end.
Fixpoint spec_run (l : list T) (m : option nat) (os : list op) : option (list T * list out) :=
  match os with
  | [] => Some (l, [])
  | o :: os =>
    match spec_step l m o with
    | None => None
    | Some (l, m, y) => match spec_run l m os with Some (l, ys) => Some (l, y :: ys) | None => None end
    end
  end.

(** The items that went into the sequence, and those that were moved out to arrays. *)
Definition appended (os : list op) : list T :=
  flat_map (fun o => match o with Append x => [x] | AppendViews xs => xs | _ => [] end) os.
Definition moved (ys : list (@out T)) : list T := flat_map (fun y => match y with Moved l => l | _ => [] end) ys.
Definition truncates (o : @op T) : bool := match o with TruncateToMark | TruncateAt _ => true | _ => false end.
End SeqSpec.
