(* The theorems of C39, from the lemmas of PylonNodeProofs and PylonNodeHistory. *)
From Coq Require Import Lia ZifyBool ZifyNat Sorting.Permutation String.
From Verif Require Import Txt ListUpd PylonNodeSpec PylonNodeProofs PylonNodeHistory.

Lemma nspec_len {A} (l l' : list (list Z * A)) o y : nspec l o y l' -> zlen l' <= zlen l + 1.
Proof. intros S. destruct S; unfold zlen; rewrite ?app_length; cbn [List.length]; rewrite ?app_length; lia. Qed.
Lemma run_len {A} (l l' : list (list Z * A)) os ys : nspec_run l os ys l' -> zlen l' <= zlen l + zlen os.
Proof. induction 1 as [|l o y l1 os ys l2 S R IH]; [unfold zlen; cbn [List.length]; lia|]. apply nspec_len in S. unfold zlen in *. cbn [List.length]. lia. Qed.
Lemma few_calls {A} (os : list (nop A)) : zlen os <= 64 -> never_more 64 [] os.
Proof. intros H before later ys l -> R. apply run_len in R. unfold zlen in *. rewrite app_length in H. cbn [List.length] in *. lia. Qed.

Theorem history_small : forall (A : Type) hash rounds (ops : list (nop A)),
  (forall s, 0 <= hash s < 2 ^ 32) -> (2 <= rounds)%nat -> keys_ok ops -> never_more 64 [] ops ->
  exists o ys, object_run hash rounds ops = Some (o, ys) /\ nhistory ops ys /\ describes ops (oitems o).
Proof.
  intros A hash rounds ops Hh Hr Ho Hb. destruct (object_small hash Hh rounds ops Hr Ho Hb) as (o & ys & E & R & _).
  exists o, ys. split; [exact E|]. apply run_history. exact R.
Qed.
Theorem history_large : forall (A : Type) hash rounds (ops : list (nop A)) o ys,
  (forall s, 0 <= hash s < 2 ^ 32) -> keys_ok ops -> never_more (2 ^ 30 - 1) [] ops ->
  object_run hash rounds ops = Some (o, ys) -> HashMapModel.clob (index o) = false ->
  nhistory ops ys /\ describes ops (oitems o).
Proof. intros A hash rounds ops o ys Hh Ho Hb E Hc. apply run_history. exact (object_large hash Hh rounds ops o ys Ho Hb E Hc). Qed.

Theorem copy_or_crash : forall (A : Type) hash rounds (ops : list (nop A)) o ys,
  (forall s, 0 <= hash s < 2 ^ 32) -> (2 <= rounds)%nat -> keys_ok ops -> never_more 64 [] ops ->
  object_run hash rounds ops = Some (o, ys) ->
  (NoDup (map hash (map fst (oitems o))) ->
   exists c, copy hash rounds o = Some c /\ oitems c = oitems o /\
   forall more, keys_ok more -> never_more 64 (oitems o) more ->
   exists c' ys', nrun hash rounds c more = Some (c', ys') /\ nspec_run (oitems o) more ys' (oitems c')) /\
  (~ NoDup (map hash (map fst (oitems o))) -> copy hash rounds o = None).
Proof.
  intros A hash rounds ops o ys Hh Hr Ho Hb E. destruct (object_small hash Hh rounds ops Hr Ho Hb) as (o' & ys' & E' & R & I).
  rewrite E in E'. injection E' as <- <-.
  assert (L : zlen (oitems o) <= 64) by (apply (Hb ops [] ys); [symmetry; apply app_nil_r|exact R]). split.
  - intros N. destruct (copy_ok hash Hh rounds true o I N L Hr) as (c & E1 & E2 & I'). exists c. split; [exact E1|]. split; [exact E2|].
    intros more Hm Hb'. rewrite <- E2 in Hb' |- *. destruct (nrun_total hash Hh rounds more Hr c I' Hb' Hm) as (c' & ys' & F1 & F2 & _). eauto.
  - intros N. exact (copy_crash hash Hh rounds true o I N L).
Qed.

Theorem copy_refuted : forall hash rounds, (forall s, 0 <= hash s < 2 ^ 32) -> (2 <= rounds)%nat ->
  exists k k', bytes_ok k /\ bytes_ok k' /\ List.length k = 5%nat /\ List.length k' = 5%nat /\
  exists o, object_run hash rounds [Set_ k 1; Set_ k' 2] = Some (o, [Done; Done]) /\ oitems o = [(k, 1); (k', 2)] /\ copy hash rounds o = None.
Proof.
  intros hash rounds Hh Hr. destruct (two_keys hash Hh) as (k & k' & Hn & E & L & L' & B & B'). exists k, k'. repeat (split; [assumption|]).
  assert (Ho : keys_ok [Set_ k 1; Set_ k' 2]) by (constructor; [|constructor; [|constructor]]; cbn [op_key]; unfold zlen; lia).
  assert (Hb : never_more 64 [] [Set_ k 1; Set_ k' 2]) by (apply few_calls; cbn; lia).
  destruct (object_small hash Hh rounds _ Hr Ho Hb) as (o & ys & E1 & R & I).
  assert (Q : ys = [Done; Done] /\ oitems o = [(k, 1); (k', 2)]).
  { inversion R as [|? ? ? ? ? ? ? S1 R1]; subst. inversion R1 as [|? ? ? ? ? ? ? S2 R2]; subst. inversion R2; subst.
    inversion S1; subst; [destruct l1; discriminate|]. cbn [app] in S2. inversion S2; subst.
    - match goal with Q : _ = [(k, 1)] |- _ => destruct l1 as [|? [|? ?]]; cbn [app] in Q; inversion Q; subst end. congruence.
    - split; reflexivity. }
  destruct Q as (-> & Q). exists o. split; [exact E1|]. split; [exact Q|]. apply (copy_crash hash Hh rounds true o I).
  - rewrite Q. cbn [map fst]. rewrite E. intros N. inversion N as [|? ? N1 _]; subst. apply N1. left. reflexivity.
  - rewrite Q. cbn. lia.
Qed.

Theorem history_rejects :
  ~ nhistory [Set_ (txt "a") 1; Get (txt "a")] [Done; Got (Some 2)] /\
  ~ nhistory [Set_ (txt "a") 1; Set_ (txt "b") 2; List] [Done; Done; Listing [(txt "b", 2); (txt "a", 1)]].
Proof.
  split; intros (_ & H).
  - destruct (H 1%nat _ _ eq_refl eq_refl) as (r & E & G). injection E as <-. destruct (proj1 (G 2) eq_refl) as ([|i] & E & _); [discriminate|]. destruct i; discriminate.
  - destruct (H 2%nat _ _ eq_refl eq_refl) as (l & E & _ & a & G1 & G2). injection E as <-.
    cbn [map fst] in G2. inversion G2 as [|? ? _ G3]; subst. inversion G3 as [|? ? G4 _]; subst.
    destruct (G1 (txt "a")) as ((v & F) & _ & _); [exists 1; right; left; reflexivity|].
    destruct (G1 (txt "b")) as ((v' & F') & _ & _); [exists 2; left; reflexivity|]. cbn [firstn] in F, F'.
    destruct (a (txt "a")) as [|[|n]] eqn:Ea, (a (txt "b")) as [|[|n']] eqn:Eb; cbn in F, F'; first [discriminate|lia|destruct n; discriminate|destruct n'; discriminate].
Qed.
