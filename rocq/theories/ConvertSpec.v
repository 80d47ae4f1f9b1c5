(* What the conversion of a struct means. *)
From Verif Require Import Base ConvertModel.
Local Open Scope list_scope.
Local Open Scope Z_scope.

(** The float at offset [o] in a value of the first type belongs to the one at [o'] in the second: items of
    fixed arrays belong together by their indices, as far as both arrays go. *)
Inductive corresponds : ty -> ty -> Z -> Z -> Prop :=
| corresponds_float : corresponds TFloat TFloat 0 0
| corresponds_item ti n st ui m su i o o' : 0 <= i < n -> i < m -> corresponds ti ui o o' ->
    corresponds (TFixed ti n st) (TFixed ui m su) (i * st + o) (i * su + o').

(** Types without arrays on the heap. *)
Fixpoint flat (t : ty) : Prop := match t with TFloat | TOther => True | TFixed ti _ _ => flat ti | TArr _ _ => False end.

(** The first member of that name in the first source that has one. *)
Definition first_source (srcs : list (list member)) (x : list Z) (s : nat) (sm : member) : Prop :=
  exists before after, nth_error srcs s = Some (before ++ sm :: after) /\ mname sm = x /\
  (forall m, In m before -> mname m <> x) /\
  (forall s' st m, (s' < s)%nat -> nth_error srcs s' = Some st -> In m st -> mname m <> x).

(** The float at address [x] is to come from address [y]. *)
Definition moved (dstS : list member) (srcs : list (list member)) (dst : Z) (ptrs : list Z) (x y : Z) : Prop :=
  exists dm s sm p o o', In dm dstS /\ first_source srcs (mname dm) s sm /\ nth_error ptrs s = Some p /\
  corresponds (mtype dm) (mtype sm) o o' /\ x = dst + offset dm + o /\ y = p + offset sm + o'.

(** Two floats at these addresses do not overlap. *)
Definition apart (a b : Z) : Prop := a + 4 <= b \/ b + 4 <= a.

(** Offsets and counts that fit into 16 bits, and types that go together. *)
Inductive fits : ty -> ty -> Z -> Z -> Prop :=
| fits_float d s : d <= 65535 -> s <= 65535 -> fits TFloat TFloat d s
| fits_floats n m d s : d <= 65535 -> s <= 65535 -> Z.min n m <= 65535 -> fits (TFixed TFloat n 4) (TFixed TFloat m 4) d s
| fits_items ti n st ui m su d s : ~ (ti = TFloat /\ ui = TFloat /\ st = 4 /\ su = 4) ->
    (forall i, 0 <= i < n -> i < m -> fits ti ui (d + i * st) (s + i * su)) -> fits (TFixed ti n st) (TFixed ui m su) d s
| fits_heap ti n st ui size d s : d <= 65535 -> s <= 65535 -> st <= 65535 -> size <= 65535 -> n <= 65535 ->
    fits ti ui 0 0 -> fits (TFixed ti n st) (TArr ui size) d s.
