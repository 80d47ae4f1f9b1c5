(* From the items to the history of calls, for C39; and strings that share a hash. *)
From Coq Require Import Lia ZifyBool ZifyNat Sorting.Permutation.
From Verif Require Import ListUpd LabelProofs PylonNodeSpec PylonNodeProofs.

Section History.
Context {A : Type}.
Notation items_t := (list (list Z * A)).
Definition keyeq := list_eq_dec Z.eq_dec.

Lemma last_set_snoc (pre : list (nop A)) o k v : last_set (pre ++ [o]) k v <->
  o = Set_ k v \/ (o <> Remove k /\ (forall v', o <> Set_ k v') /\ last_set pre k v).
Proof.
  split.
  - intros (i & Hi & Hl). apply nth_snoc in Hi. destruct Hi as [Hi|[Hi E]]; [|left; assumption]. right.
    assert (L : (i < length pre)%nat) by (apply nth_error_Some; congruence).
    destruct (Hl (length pre) o L) as (H1 & H2); [apply nth_snoc; auto|]. split; [exact H1|]. split; [exact H2|].
    exists i. split; [exact Hi|]. intros j o' Hj Ho. apply (Hl j o' Hj). apply nth_snoc. auto.
  - intros [->|(H1 & H2 & i & Hi & Hl)].
    + exists (length pre). split; [apply nth_snoc; auto|]. intros j o Hj Ho. exfalso.
      apply nth_snoc in Ho. destruct Ho as [Ho|[Ho _]]; [|lia].
      assert (j < length pre)%nat by (apply nth_error_Some; congruence). lia.
    + exists i. split; [apply nth_snoc; auto|]. intros j o' Hj Ho. apply nth_snoc in Ho. destruct Ho as [Ho|[_ <-]]; [eauto|auto].
Qed.

Lemma set_removed (pre : list (nop A)) k : (forall v, ~ last_set pre k v) -> forall j v, nth_error pre j = Some (Set_ k v) ->
  exists m, (j < m < length pre)%nat /\ nth_error pre m = Some (Remove k).
Proof.
  induction pre as [|o pre IH] using rev_ind; intros N j v Hj; [destruct j; discriminate|].
  assert (S : forall v', o <> Set_ k v') by (intros v' ->; apply (N v'), last_set_snoc; auto).
  apply nth_snoc in Hj. destruct Hj as [Hj|[_ Hj]]; [|destruct (S _ Hj)]. rewrite app_length. cbn [length].
  assert (L : (j < length pre)%nat) by (apply nth_error_Some; congruence).
  assert (D : o = Remove k \/ o <> Remove k).
  { destruct o as [k'|k' v'|k'|]; try (right; discriminate). destruct (keyeq k' k) as [->|Hn]; [auto|right; congruence]. }
  destruct D as [->|D].
  - exists (length pre). split; [lia|]. apply nth_snoc. auto.
  - destruct (IH (fun v' Hv => N v' (proj2 (last_set_snoc pre o k v') (or_intror (conj D (conj S Hv))))) j v Hj) as (m & Hm & E).
    exists m. split; [lia|]. apply nth_snoc. auto.
Qed.
Lemma first_keep (pre : list (nop A)) o k i : first_set pre k i -> o <> Remove k -> first_set (pre ++ [o]) k i.
Proof.
  intros ((v & H1) & H2 & H3) D. assert (L : (i < length pre)%nat) by (apply nth_error_Some; congruence).
  split; [exists v; apply nth_snoc; auto|]. split.
  - intros j Hj E. apply nth_snoc in E. destruct E as [E|[_ E]]; [exact (H2 j Hj E)|auto].
  - intros j v' Hj E. apply nth_snoc in E. destruct E as [E|[E _]]; [|lia]. destruct (H3 j v' Hj E) as (m & Hm & E'). exists m. split; [exact Hm|]. apply nth_snoc. auto.
Qed.
Lemma first_new (pre : list (nop A)) k v : (forall v, ~ last_set pre k v) -> first_set (pre ++ [Set_ k v]) k (length pre).
Proof.
  intros N. split; [exists v; apply nth_snoc; auto|]. split.
  - intros j Hj E. apply nth_snoc in E. destruct E as [E|[E _]]; [|lia]. assert (j < length pre)%nat by (apply nth_error_Some; congruence). lia.
  - intros j v' Hj E. apply nth_snoc in E. destruct E as [E|[E _]]; [|lia]. destruct (set_removed pre k N j v' E) as (m & Hm & E').
    exists m. split; [exact Hm|]. apply nth_snoc. auto.
Qed.

Lemma ss_mid {B} (R : B -> B -> Prop) a x b : StronglySorted R (a ++ x :: b) ->
  StronglySorted R (a ++ b) /\ (forall y, In y a -> R y x) /\ (forall y, In y b -> R x y).
Proof.
  induction a as [|z a IH]; cbn [app]; intros H; inversion H as [|? ? H1 H2]; subst.
  - split; [exact H1|]. split; [intros ? []|]. intros y Hy. rewrite Forall_forall in H2. auto.
  - destruct (IH H1) as (I1 & I2 & I3). rewrite Forall_forall in H2. split; [|split].
    + constructor; [exact I1|]. rewrite Forall_forall. intros y Hy. apply H2. apply in_app_iff in Hy. apply in_app_iff. destruct Hy; [auto|right; right; auto].
    + intros y [<-|Hy]; [apply H2, in_app_iff; right; left; reflexivity|auto].
    + exact I3.
Qed.
Lemma ss_snoc {B} (R : B -> B -> Prop) a x : StronglySorted R a -> (forall y, In y a -> R y x) -> StronglySorted R (a ++ [x]).
Proof.
  induction 1 as [|z a H1 IH H2]; cbn [app]; intros Hx; [constructor; constructor|]. constructor.
  - apply IH. intros y Hy. apply Hx. right. exact Hy.
  - rewrite Forall_forall in *. intros y Hy. apply in_app_iff in Hy. destruct Hy as [Hy|[<-|[]]]; [auto|]. apply Hx. left. reflexivity.
Qed.
Lemma ss_ext {B} (R R' : B -> B -> Prop) a : (forall x y, In x a -> In y a -> R x y -> R' x y) -> StronglySorted R a -> StronglySorted R' a.
Proof.
  induction a as [|x a IH]; intros H S; [constructor|]. inversion S as [|? ? S1 S2]; subst. constructor.
  - apply IH; [|exact S1]. intros y z Hy Hz. apply H; right; assumption.
  - rewrite Forall_forall in *. intros y Hy. apply H; [left; reflexivity|right; exact Hy|auto].
Qed.

Lemma in_has (l : items_t) k : In k (map fst l) <-> has l k.
Proof.
  unfold has. rewrite in_map_iff. split; [intros ([k' v] & E & H); cbn in E; subst; eauto|intros (v & H); exists (k, v); auto].
Qed.

Lemma has_mid (l1 : items_t) k v l2 x : has (l1 ++ (k, v) :: l2) x <-> x = k \/ has l1 x \/ has l2 x.
Proof. rewrite <- !in_has, map_app, in_app_iff. cbn [map fst In]. split; intros H; [destruct H as [?|[?|?]]|destruct H as [?|[?|?]]]; auto. Qed.

Lemma plain_op pre (l : items_t) o : (forall k, o <> Remove k) -> (forall k v, o <> Set_ k v) -> describes pre l -> describes (pre ++ [o]) l.
Proof.
  intros N1 N2 (D1 & at_ & D2 & D3). split.
  - intros k v. rewrite last_set_snoc, D1. split; [intros H; right; auto|intros [H|(_ & _ & H)]; [destruct (N2 _ _ H)|exact H]].
  - exists at_. split; [|exact D3]. intros k H. apply first_keep; auto.
Qed.

Lemma step_describes pre (l : items_t) o y l' : describes pre l -> nspec l o y l' -> describes (pre ++ [o]) l' /\ answer_ok pre o y.
Proof.
  intros D S. pose proof D as (D1 & at_ & D2 & D3). inversion S; subst; clear S; cbn [answer_ok].
  - split; [apply plain_op; [discriminate|discriminate|exact D]|]. exists (Some v). split; [reflexivity|]. intros v'. rewrite <- D1.
    split; [intros E; injection E as <-; assumption|]. intros H'. f_equal.
    apply in_split in H. destruct H as (a & b & ->). rewrite map_app in D3. cbn [map fst] in D3. apply ss_mid in D3. destruct D3 as (_ & E1 & E2).
    apply in_app_iff in H'. destruct H' as [H'|[H'|H']]; [|congruence|].
    + specialize (E1 k (in_map fst _ _ H')). lia.
    + specialize (E2 k (in_map fst _ _ H')). lia.
  - split; [apply plain_op; [discriminate|discriminate|exact D]|]. exists None. split; [reflexivity|]. intros v'. rewrite <- D1.
    split; [discriminate|]. intros H'. destruct H. exists v'. exact H'.
  - split; [|reflexivity]. pose proof D3 as D3'. rewrite map_app in D3. cbn [map fst] in D3. apply ss_mid in D3. destruct D3 as (_ & E1 & E2).
    assert (N1 : forall v', ~ In (k, v') l1) by (intros v' Hv; specialize (E1 k (in_map fst _ _ Hv)); lia).
    assert (N2 : forall v', ~ In (k, v') l2) by (intros v' Hv; specialize (E2 k (in_map fst _ _ Hv)); lia).
    split.
    + intros k' v'. rewrite last_set_snoc. split.
      * intros H. destruct (keyeq k' k) as [->|Hn].
        -- apply in_app_iff in H. destruct H as [H|[H|H]]; [destruct (N1 _ H)|left; congruence|destruct (N2 _ H)].
        -- right. split; [discriminate|]. split; [intros v''; congruence|]. apply D1. apply in_app_iff in H. apply in_app_iff.
           destruct H as [H|[H|H]]; [auto|congruence|right; right; auto].
      * intros [E|(_ & E & H)].
        -- injection E as <- <-. apply in_app_iff. right. left. reflexivity.
        -- apply D1 in H. apply in_app_iff in H. apply in_app_iff. destruct H as [H|[H|H]]; [auto| |right; right; auto].
           injection H as <- <-. destruct (E v). reflexivity.
    + exists at_. split; [|rewrite map_app in *; exact D3']. intros k' H. apply first_keep; [|discriminate]. apply D2. rewrite has_mid in *. exact H.
  - split; [|reflexivity].
    assert (N : forall v', ~ last_set pre k v') by (intros v' Hv; apply H; exists v'; apply D1; exact Hv). split.
    + intros k' v'. rewrite last_set_snoc, in_app_iff. cbn [In]. split.
      * intros [H'|[H'|[]]]; [|left; congruence]. right. split; [discriminate|]. split; [|apply D1; exact H'].
        intros v'' E. injection E as <- _. apply H. exists v'. exact H'.
      * intros [E|(_ & _ & E)]; [injection E as <- <-; auto|]. left. apply D1. exact E.
    + exists (fun k' => if keyeq k' k then length pre else at_ k'). split.
      * intros k' H'. destruct (keyeq k' k) as [->|Hn]; [apply first_new; exact N|]. apply first_keep; [|discriminate]. apply D2.
        destruct H' as (v' & H'). apply in_app_iff in H'. destruct H' as [H'|[H'|[]]]; [exists v'; exact H'|congruence].
      * rewrite map_app. cbn [map fst]. apply ss_snoc.
        -- apply (ss_ext (fun a b => (at_ a < at_ b)%nat)); [|exact D3]. intros a b Ha Hb Hab. apply in_has in Ha, Hb.
           destruct (keyeq a k); [subst; contradiction|]. destruct (keyeq b k); [subst; contradiction|]. exact Hab.
        -- intros a Ha. apply in_has in Ha. destruct (keyeq a k); [subst; contradiction|]. destruct (keyeq k k); [|congruence].
           destruct (D2 a Ha) as ((va & Hva) & _). apply nth_error_Some. congruence.
  - rewrite map_app in D3. cbn [map fst] in D3. apply ss_mid in D3. destruct D3 as (E0 & E1 & E2).
    assert (N1 : forall v', ~ In (k, v') l1) by (intros v' Hv; specialize (E1 k (in_map fst _ _ Hv)); lia).
    assert (N2 : forall v', ~ In (k, v') l2) by (intros v' Hv; specialize (E2 k (in_map fst _ _ Hv)); lia).
    split; [split|].
    + intros k' v'. rewrite last_set_snoc. split.
      * intros H. right. split; [|split; [discriminate|]].
        -- intros E. injection E as <-. apply in_app_iff in H. destruct H as [H|H]; [destruct (N1 _ H)|destruct (N2 _ H)].
        -- apply D1. apply in_app_iff in H. apply in_app_iff. destruct H; [auto|right; right; auto].
      * intros [E|(E & _ & H)]; [discriminate|]. apply D1 in H. apply in_app_iff in H. apply in_app_iff. destruct H as [H|[H|H]]; auto.
        injection H as <- <-. destruct E. reflexivity.
    + exists at_. split; [|rewrite map_app; exact E0]. intros k' H. apply first_keep; [apply D2, has_mid; destruct H as (v' & H); apply in_app_iff in H; right; destruct H; [left|right]; exists v'; assumption|].
      intros E. injection E as <-. destruct H as (v' & H). apply in_app_iff in H. destruct H as [H|H]; [destruct (N1 _ H)|destruct (N2 _ H)].
    + exists (Some v). split; [reflexivity|]. intros v'. rewrite <- D1. split; [intros E; injection E as <-; apply in_app_iff; right; left; reflexivity|].
      intros H. apply in_app_iff in H. destruct H as [H|[H|H]]; [destruct (N1 _ H)|congruence|destruct (N2 _ H)].
  - split; [split|].
    + intros k' v'. rewrite last_set_snoc, D1. split; [|intros [E|(_ & _ & E)]; [discriminate|exact E]].
      intros E. right. split; [|split; [discriminate|exact E]]. intros Q. injection Q as <-. apply H. exists v'. apply D1. exact E.
    + exists at_. split; [|exact D3]. intros k' H'. apply first_keep; [auto|]. intros Q. injection Q as <-. contradiction.
    + exists None. split; [reflexivity|]. intros v'. rewrite <- D1. split; [discriminate|]. intros H'. destruct H. exists v'. exact H'.
  - split; [apply plain_op; [discriminate|discriminate|exact D]|]. exists l'. split; [reflexivity|exact D].
Qed.

Lemma run_answers (l l' : items_t) os ys : nspec_run l os ys l' -> forall pre, describes pre l ->
  length ys = length os /\ describes (pre ++ os) l' /\
  forall i o y, nth_error os i = Some o -> nth_error ys i = Some y -> answer_ok (pre ++ firstn i os) o y.
Proof.
  induction 1 as [l|l o y l1 os ys l2 S R IH]; intros pre D.
  - rewrite app_nil_r. split; [reflexivity|]. split; [exact D|]. intros [|i] ? ?; discriminate.
  - destruct (step_describes pre l o y l1 D S) as (D' & Ay). destruct (IH _ D') as (I1 & I2 & I3). rewrite <- app_assoc in I2.
    split; [cbn [length]; congruence|]. split; [exact I2|]. intros [|i] o' y' Ho Hy; cbn [nth_error firstn] in *.
    + injection Ho as <-. injection Hy as <-. rewrite app_nil_r. exact Ay.
    + specialize (I3 i o' y' Ho Hy). rewrite <- app_assoc in I3. exact I3.
Qed.
Lemma describes_nil : describes (A := A) [] [].
Proof. split; [intros k v; split; [intros []|intros ([|i] & E & _); discriminate]|]. exists (fun _ => O). split; [intros k (v & [])|constructor]. Qed.
Theorem run_history os ys (l : items_t) : nspec_run [] os ys l -> nhistory os ys /\ describes os l.
Proof.
  intros R. destruct (run_answers _ _ _ _ R [] describes_nil) as (H1 & H2 & H3). split; [split; [exact H1|exact H3]|exact H2].
Qed.
End History.

(* ---- two strings with the same hash ---- *)
Lemma pigeon (n : nat) (f : nat -> nat) : (forall i, (i <= n)%nat -> (f i < n)%nat) -> exists i j, (i < j <= n)%nat /\ f i = f j.
Proof.
  intros H. assert (D : NoDup (map f (seq 0 (S n))) \/ ~ NoDup (map f (seq 0 (S n)))).
  { destruct (ListDec.NoDup_dec Nat.eq_dec (map f (seq 0 (S n)))); auto. }
  destruct D as [D|D].
  - exfalso. assert (L : (length (map f (seq 0 (S n))) <= length (seq 0 n))%nat).
    { apply NoDup_incl_length; [exact D|]. intros x Hx. apply in_map_iff in Hx. destruct Hx as (i & <- & Hi). apply in_seq in Hi. apply in_seq. specialize (H i). lia. }
    rewrite map_length, !seq_length in L. lia.
  - assert (G : forall m, ~ NoDup (map f (seq 0 m)) -> exists i j, (i < j < m)%nat /\ f i = f j).
    { induction m as [|m IH]; [intros Q; destruct Q; constructor|]. rewrite seq_S, map_app. cbn [map app plus].
      destruct (ListDec.NoDup_dec Nat.eq_dec (map f (seq 0 m))) as [Nd|Nd].
      - intros Q. destruct (in_dec Nat.eq_dec (f m) (map f (seq 0 m))) as [I|I].
        + apply in_map_iff in I. destruct I as (i & E & I). apply in_seq in I. exists i, m. split; [lia|exact E].
        + destruct Q. apply (Permutation_NoDup (l := f m :: map f (seq 0 m))); [apply Permutation_cons_append|constructor; assumption].
      - intros _. destruct (IH Nd) as (i & j & Hij & E). exists i, j. split; [lia|exact E]. }
    destruct (G _ D) as (i & j & Hij & E). exists i, j. split; [lia|exact E].
Qed.

Definition digits (x : Z) : list Z := [x mod 256; x / 256 mod 256; x / 65536 mod 256; x / 16777216 mod 256; x / 4294967296 mod 256].
Lemma digits_inj x y : 0 <= x <= 2 ^ 32 -> 0 <= y <= 2 ^ 32 -> digits x = digits y -> x = y.
Proof.
  intros Hx Hy E. injection E as E0 E1 E2 E3 E4.
  rewrite (Z.mod_small (x / 4294967296)), (Z.mod_small (y / 4294967296)) in E4 by (split; [apply Z.div_pos; lia|apply Z.div_lt_upper_bound; lia]).
  assert (S : forall z, z = 256 * (z / 256) + z mod 256) by (intros z; apply Z.div_mod; lia).
  assert (D : forall z, z / 65536 = z / 256 / 256 /\ z / 16777216 = z / 256 / 256 / 256 /\ z / 4294967296 = z / 256 / 256 / 256 / 256)
    by (intros z; rewrite !Z.div_div by lia; auto).
  destruct (D x) as (X1 & X2 & X3), (D y) as (Y1 & Y2 & Y3). rewrite X1, Y1 in E2. rewrite X2, Y2 in E3. rewrite X3, Y3 in E4.
  rewrite (S x), (S y), E0, (S (x / 256)), (S (y / 256)), E1, (S (x / 256 / 256)), (S (y / 256 / 256)), E2,
    (S (x / 256 / 256 / 256)), (S (y / 256 / 256 / 256)), E3, E4. reflexivity.
Qed.
Lemma two_keys (hash : list Z -> Z) : (forall s, 0 <= hash s < 2 ^ 32) ->
  exists k k', k <> k' /\ hash k = hash k' /\ length k = 5%nat /\ length k' = 5%nat /\ bytes_ok k /\ bytes_ok k'.
Proof.
  intros Hh. destruct (pigeon (Z.to_nat (2 ^ 32)) (fun i => Z.to_nat (hash (digits (Z.of_nat i))))) as (i & j & Hij & E).
  { intros i _. pose proof (Hh (digits (Z.of_nat i))). lia. }
  exists (digits (Z.of_nat i)), (digits (Z.of_nat j)). split; [|split; [|split; [reflexivity|split; [reflexivity|]]]].
  - intros Q. apply digits_inj in Q; lia.
  - pose proof (Hh (digits (Z.of_nat i))). pose proof (Hh (digits (Z.of_nat j))). lia.
  - assert (M : forall x, bytes_ok (digits x)).
    { intros x. unfold bytes_ok, digits, is_byte. repeat (constructor; [apply Z.mod_pos_bound; lia|]). constructor. }
    split; apply M.
Qed.
