(* Properties C18 and C19: hash maps. *)
From Verif Require Import HashMapModel HashMapSpec HashMapProofs.

(** C18. Whatever the hash function, any sequence of calls on a map constructed with 4 to 128 cells (the
    default is 8) during which it holds at most 64 keys runs to the end, without a failed assertion and
    with at most one rehash per call, and every answer is the one of the finite map. *)
Theorem C18_small_maps : forall (K V : Type) (eqb : K -> K -> bool) (hash : K -> Z) (dflt : V),
  (forall a b, eqb a b = true <-> a = b) -> (forall k, 0 <= hash k < 2 ^ 32) ->
  forall (rounds : nat) (e : Z) (os : list op),
  2 <= e <= 7 -> (2 <= rounds)%nat -> at_most eqb dflt 64 [] os ->
  exists m0 m ys s, create (2 ^ e) = Some m0 /\ run eqb hash dflt rounds m0 os = Some (m, ys) /\
                    spec_run eqb dflt [] os ys s.
Proof. exact @small_map. Qed.
Print Assumptions C18_small_maps.

Example C18_ex :
  option_map snd (match create 8 with Some m => prun 2 m [Touch (0, 0); Assign (8, 0) 7; Assign (0, 1) 5; Find (8, 0); Erase (0, 0);
     Find (0, 0); Find (0, 1); Touch (0, 1); Touch (1, 0); Count; Iterate] | None => None end) =
  Some [Item false 0; Item false 7; Item false 5; Lookup (Some 7); Erased true; Lookup None; Lookup (Some 5); Item true 5;
        Item false 0; Num 3; Items [((8, 0), 7); ((0, 1), 5); ((1, 0), 0)]].
Proof. vm_compute. reflexivity. Qed.

(** C18, for maps of any size below 2^30 keys: if the calls return at all, and no erase stored 255 as a
    link between two cells, every answer is the one of the finite map. What is missing is that the calls
    return, which is false (see the two theorems below). *)
Theorem C18_any_size_partial : forall (K V : Type) (eqb : K -> K -> bool) (hash : K -> Z) (dflt : V),
  (forall a b, eqb a b = true <-> a = b) -> (forall k, 0 <= hash k < 2 ^ 32) ->
  forall (rounds : nat) (e : Z) (os : list op) m0 m ys,
  2 <= e <= 31 -> at_most eqb dflt (2 ^ 30 - 1) [] os ->
  create (2 ^ e) = Some m0 -> run eqb hash dflt rounds m0 os = Some (m, ys) -> clob m = false ->
  exists s, spec_run eqb dflt [] os ys s.
Proof. exact @large_map. Qed.
Print Assumptions C18_any_size_partial.

Example C18_any_size_ex :
  match create 512 with
  | Some m0 => match prun 2 m0 (long_chain ++ [Find (0, 3); Erase (0, 1); Find (0, 3)]) with
               | Some (m, ys) => clob m = false /\ skipn 257 ys = [Lookup (Some 0); Erased true; Lookup (Some 0)]
               | None => False end
  | None => False end.
Proof. vm_compute. split; reflexivity. Qed.

(** Keys (h, _) hash to h. 129 keys in consecutive cells, then a key with the hash of the first one: the
    insertion rehashes into the same table for ever. *)
Theorem C18_insert_hangs_refuted : exists m0, create 512 = Some m0 /\
  (exists r, prun 1 m0 (touches 0 129) = Some r) /\
  forall rounds, prun rounds m0 (touches 0 129 ++ [Touch (0, 1)]) = None.
Proof. exact hangs. Qed.
Print Assumptions C18_insert_hangs_refuted.

(** With keys of hash 0 at distances 1, 128 and 256 from their cell, erasing the middle one stores 255 as
    the link of the first: that key is lost while the count still includes it. *)
Theorem C18_erase_loses_refuted : exists m0 m ys, create 512 = Some m0 /\
  prun 1 m0 (long_chain ++ [Erase (0, 2); Iterate; Count]) = Some (m, ys) /\
  ~ exists s, spec_run peqb 0 [] (long_chain ++ [Erase (0, 2); Iterate; Count]) ys s.
Proof. exact loses. Qed.
Print Assumptions C18_erase_loses_refuted.

(** At distances 1, 129 and 257 the erase reads the next item at a wrong address. *)
Theorem C18_erase_wrong_memory_refuted : exists m0 m ys, create 512 = Some m0 /\
  prun 1 m0 longer_chain = Some (m, ys) /\
  forall rounds, prun rounds m0 (longer_chain ++ [Erase (0, 2)]) = None.
Proof. exact wrong_memory. Qed.
Print Assumptions C18_erase_wrong_memory_refuted.

(** C19. After any such sequence of calls, iterating visits every item of the finite map exactly once. *)
Theorem C19_iterate_small_maps : forall (K V : Type) (eqb : K -> K -> bool) (hash : K -> Z) (dflt : V),
  (forall a b, eqb a b = true <-> a = b) -> (forall k, 0 <= hash k < 2 ^ 32) ->
  forall (rounds : nat) (e : Z) (os : list op),
  2 <= e <= 7 -> (2 <= rounds)%nat -> at_most eqb dflt 64 [] os ->
  exists m0 m ys s l, create (2 ^ e) = Some m0 /\ run eqb hash dflt rounds m0 os = Some (m, ys) /\
    spec_run eqb dflt [] os ys s /\ step eqb hash dflt rounds m Iterate = Some (m, Items l) /\
    NoDup (map fst l) /\ forall k v, In (k, v) l <-> lookup eqb s k = Some v.
Proof. exact @small_iter. Qed.
Print Assumptions C19_iterate_small_maps.

(** C19 for maps of any size below 2^30 keys, under the conditions of [C18_any_size_partial]. *)
Theorem C19_iterate_any_size_partial : forall (K V : Type) (eqb : K -> K -> bool) (hash : K -> Z) (dflt : V),
  (forall a b, eqb a b = true <-> a = b) -> (forall k, 0 <= hash k < 2 ^ 32) ->
  forall (rounds : nat) (e : Z) (os : list op) m0 m ys,
  2 <= e <= 31 -> at_most eqb dflt (2 ^ 30 - 1) [] os ->
  create (2 ^ e) = Some m0 -> run eqb hash dflt rounds m0 os = Some (m, ys) -> clob m = false ->
  exists s l, spec_run eqb dflt [] os ys s /\
    step eqb hash dflt rounds m Iterate = Some (m, Items l) /\ NoDup (map fst l) /\
    forall k v, In (k, v) l <-> lookup eqb s k = Some v.
Proof. exact @large_iter. Qed.
Print Assumptions C19_iterate_any_size_partial.

Example C19_ex :
  option_map snd (match create 4 with Some m => prun 2 m (touches 0 6 ++ [Erase (3, 0); Iterate]) | None => None end) =
  Some (repeat (Item false 0) 6 ++ [Erased true; Items [((0, 0), 0); ((1, 0), 0); ((2, 0), 0); ((4, 0), 0); ((5, 0), 0)]]).
Proof. vm_compute. reflexivity. Qed.
