(* What the callbacks of an object with strong and weak references promise. *)
From Verif Require Export DualRefModel.
Open Scope nat_scope.

(** Strong references are made of strong ones only, and weak ones of strong ones only. *)
Definition proper (l : list (nat * wmove)) : Prop := forall t m, In (t, m) l -> m <> Upgrade /\ m <> CopyWeak.
Definition no_strong (s : wst) : Prop := forall t th, nth_error (wths s) t = Some th -> strong th = 0.
Definition no_weak (s : wst) : Prop := forall t th, nth_error (wths s) t = Some th -> weak th = 0.
Definition in_partial (s : wst) : Prop := exists t th b, nth_error (wths s) t = Some th /\ inpart th = Some b.
(** No weak reference is dropped while the partial callback runs. *)
Definition calm (n : nat) (l : list (nat * wmove)) : Prop :=
  forall l1 t l2 s, l = l1 ++ (t, DecWeak) :: l2 -> wrun (winit n) l1 = WMoved s -> ~ in_partial s.
(** How often and in which order the callbacks were called. *)
Definition times (e : event) (l : list event) : nat :=
  length (filter (fun x => match x, e with PartialBegins, PartialBegins | PartialEnds, PartialEnds | Full, Full => true | _, _ => false end) l).
