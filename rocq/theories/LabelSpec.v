(* What interning must answer: a table of (string, label) pairs, extended by a fresh valid label whenever
   a string is interned for the first time. *)
From Verif Require Export LabelModel.

Definition known (m : list (list Z * Z)) (s : list Z) : Prop := exists l, In (s, l) m.

Inductive lspec (m : list (list Z * Z)) (ys : list lout) : lop -> lout -> list (list Z * Z) -> Prop :=
| ls_old s l : In (s, l) m -> lspec m ys (Intern s) (Lab l) m
| ls_new s l : ~ known m s -> 0 < l < 2 ^ 32 -> ~ In l (map snd m) -> lspec m ys (Intern s) (Lab l) ((s, l) :: m)
| ls_found s l : In (s, l) m -> lspec m ys (Query s) (Lab l) m
| ls_unknown s : ~ known m s -> lspec m ys (Query s) (Lab 0) m
| ls_view j s : In (s, answered ys j) m -> lspec m ys (ViewOf j) (Str s) m
| ls_view_invalid j : answered ys j = 0 -> lspec m ys (ViewOf j) (Str []) m.

Inductive lspec_run : list (list Z * Z) -> list lout -> list lop -> list lout -> Prop :=
| lr_nil m ys : lspec_run m ys [] ys
| lr_cons m ys o y m' os zs : lspec m ys o y m' -> lspec_run m' (ys ++ [y]) os zs -> lspec_run m ys (o :: os) zs.

Definition interned (os : list lop) : list (list Z) :=
  nodup (list_eq_dec Z.eq_dec) (flat_map (fun o => match o with Intern s => [s] | _ => [] end) os).

(** The string handed to a call; a string view counts its bytes in 32 bits. *)
Definition op_string (o : lop) : list Z := match o with Intern s | Query s => s | ViewOf _ => [] end.
Definition strings_ok (os : list lop) : Prop := Forall (fun o => zlen (op_string o) < 2 ^ 32) os.

(** The same, without the table: [os] are the calls in order and [ys] their answers. *)
Record history (os : list lop) (ys : list lout) : Prop := {
  h_len : length ys = length os;
  h_intern : forall i a, nth_error os i = Some (Intern a) -> exists l, nth_error ys i = Some (Lab l) /\ l <> 0;
  h_same : forall i j a b l l', nth_error os i = Some (Intern a) -> nth_error os j = Some (Intern b) ->
    nth_error ys i = Some (Lab l) -> nth_error ys j = Some (Lab l') -> (l = l' <-> a = b);
  h_query : forall j a, nth_error os j = Some (Query a) -> exists l, nth_error ys j = Some (Lab l) /\
    ((l = 0 /\ forall i, (i < j)%nat -> nth_error os i <> Some (Intern a)) \/
     exists i, (i < j)%nat /\ nth_error os i = Some (Intern a) /\ nth_error ys i = Some (Lab l));
  h_view : forall i j a, nth_error os i = Some (Intern a) -> nth_error os j = Some (ViewOf i) -> (i < j)%nat ->
    nth_error ys j = Some (Str a) }.
