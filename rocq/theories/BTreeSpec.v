(* A sorted list of items, and what each use of the tree must do to it. *)
From Verif Require Export BTreeModel.

Section BSpec.
Context {Item Index : Type} (getIndex : Item -> Index) (less : Index -> Index -> bool).

(** [less] is a strict weak order. *)
Record strict_weak : Prop := {
  sw_irrefl : forall a, less a a = false;
  sw_trans : forall a b c, less a b = true -> less b c = true -> less a c = true;
  sw_neg : forall a b c, less a b = false -> less b c = false -> less a c = false }.

Definition not_after (x y : Item) : Prop := less (getIndex y) (getIndex x) = false.
Definition sorted (l : list Item) : Prop := StronglySorted not_after l.

(** The items less than [k], and the others. *)
Definition below (k : Index) (l : list Item) : list Item := filter (fun y => less (getIndex y) k) l.
Definition above (k : Index) (l : list Item) : list Item := filter (fun y => negb (less (getIndex y) k)) l.

Definition removal (l l' : list Item) (p : nat) : Prop := l' = firstn p l ++ skipn (S p) l.

Inductive spec_step (l : list Item) : @op Item Index -> @out Item -> list Item -> Prop :=
| sp_insert x a b : l = a ++ b -> sorted (a ++ x :: b) -> spec_step l (Insert x) Done (a ++ x :: b)
| sp_nth j l' : removal l l' j -> spec_step l (RemoveNth j) (Removed (nth_error l j)) l'
| sp_ge k l' : removal l l' (length (below k l)) -> spec_step l (RemoveGE k) (Removed (hd_error (above k l))) l'
| sp_pop x l' : l = x :: l' -> spec_step l PopFront (Removed (Some x)) l'
| sp_front x l' : l = x :: l' -> spec_step l Front (First x) l
| sp_empty : spec_step l IsEmpty (Empty (match l with [] => true | _ => false end)) l
| sp_clear : spec_step l Clear Done []
| sp_all : spec_step l All (Items l) l
| sp_from k : spec_step l (FromGE k) (Items (above k l)) l
| sp_below k : spec_step l (BelowBackwards k) (Items (rev (below k l))) l.

Inductive spec_run : list Item -> list (@op Item Index) -> list (@out Item) -> list Item -> Prop :=
| sr_nil l : spec_run l [] [] l
| sr_cons l o y l1 os ys l2 : spec_step l o y l1 -> spec_run l1 os ys l2 -> spec_run l (o :: os) (y :: ys) l2.

End BSpec.
