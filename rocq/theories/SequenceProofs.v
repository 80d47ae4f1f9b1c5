(* Proofs about the model of Sequence. *)
From Verif Require Import SequenceModel SequenceSpec.
From Coq Require Import ZifyBool ZifyNat.
Ltac Zify.zify_post_hook ::= Z.div_mod_to_equations.

Lemma suffix_split {A} (a : list A) : forall a0 x y, a ++ x = a0 ++ y -> (length y <= length x)%nat -> exists d, x = d ++ y /\ a0 = a ++ d.
Proof.
  induction a as [|h a IH]; intros a0 x y E L.
  - exists a0. split; [exact E|reflexivity].
  - destruct a0 as [|h0 a0]; cbn [app] in E.
    + subst y. cbn [length] in L. rewrite app_length in L. lia.
    + injection E as <- E. destruct (IH _ _ _ E L) as (d & -> & ->). exists d. split; reflexivity.
Qed.
Lemma nth_at_app {A} (l r : list A) x : nth_error (l ++ x :: r) (length l) = Some x.
Proof. rewrite nth_error_app2, Nat.sub_diag by lia. reflexivity. Qed.

Section Proofs.
Context {T : Type} (sz blk : Z) (Hsz : 1 <= sz) (Hle : sz <= blk) (Hblk : 100 < blk).
Notation block := (@block T).
Notation seqn := (@seqn T).
Notation used := (used sz).
Notation unused := (unused sz).

Definition contents (q : seqn) : list T := destruct_ q.
Lemma contents_cons b c : contents (b :: c) = contents c ++ bitems b.
Proof. unfold contents, destruct_, fwd. cbn [rev]. rewrite map_app, concat_app. cbn [map concat]. rewrite app_nil_r. reflexivity. Qed.
Lemma contents_app a c : contents (a ++ c) = contents c ++ contents a.
Proof.
  induction a as [|b a IH]; cbn [app].
  - change (contents []) with (@nil T). rewrite app_nil_r. reflexivity.
  - rewrite !contents_cons, IH, app_assoc. reflexivity.
Qed.
Lemma used_nonneg (b : block) : 0 <= used b.
Proof. unfold SequenceModel.used, zlen. nia. Qed.
Definition usedsum (q : seqn) : Z := sz * zlen (contents q).
Lemma zlen_app {A} (a b : list A) : zlen (a ++ b) = zlen a + zlen b.
Proof. unfold zlen. rewrite app_length. lia. Qed.
Lemma usedsum_cons b c : usedsum (b :: c) = usedsum c + used b.
Proof. unfold usedsum, SequenceModel.used. rewrite contents_cons, zlen_app. ring. Qed.

Fixpoint binv (q : seqn) : Prop :=
  match q with
  | [] => True
  | b :: c => used b <= bsize b /\ sz <= bsize b /\ boff b = u64 (usedsum c) /\ binv c
  end.
Definition ne (b : block) : Prop := bitems b <> [].
Definition inv (q : seqn) : Prop := q <> [] /\ binv q /\ (length q = 1%nat \/ Forall ne q).

Lemma binv_app a c : binv (a ++ c) -> binv c.
Proof. induction a as [|b a IH]; [auto|]. cbn [app binv]. tauto. Qed.
Lemma ne_used b : ne b -> sz <= used b.
Proof. unfold ne, SequenceModel.used, zlen. destruct (bitems b); [congruence|]. cbn [length]. nia. Qed.

Lemma create_ok : exists q, create blk = Some q /\ inv q /\ contents q = [].
Proof.
  unfold create, createBlock. replace (100 <? blk) with true by lia. eexists. split; [reflexivity|]. split; [|reflexivity].
  split; [discriminate|]. split; [|left; reflexivity]. cbn [binv SequenceModel.used bitems bsize boff zlen length]. unfold SequenceModel.used, zlen, usedsum.
  cbn [bitems length]. change (contents []) with (@nil T). unfold zlen. cbn [length]. change (Z.of_nat 0) with 0. rewrite Z.mul_0_r. split; [lia|]. split; [lia|]. split; [reflexivity|exact I].
Qed.

(* ---- writing ---- *)
Lemma beginWrite_ok q : inv q -> exists t c, beginWrite sz blk q = Some (t :: c) /\ binv (t :: c) /\ sz <= unused t /\
  contents (t :: c) = contents q /\ Forall ne c /\ (t :: c = q \/ c = q /\ bitems t = []).
Proof.
  intros (Hn & Hb & Hne). destruct q as [|t c]; [congruence|]. unfold beginWrite. destruct (Z.ltb_spec (unused t) sz) as [H|H].
  - unfold appendBlock, createBlock. replace (100 <? Z.max blk sz) with true by lia.
    eexists _, (t :: c). split; [reflexivity|]. pose proof Hb as Hb0. destruct Hb as (H1 & H2 & H3 & H4).
    assert (Eo : boff t + used t = boff t + used t) by reflexivity.
    split. { cbn [binv bitems bsize boff]. unfold SequenceModel.used at 1. cbn [bitems]. unfold zlen. cbn [length]. split; [lia|]. split; [lia|]. split; [|exact Hb0].
             rewrite usedsum_cons, H3. unfold u64. rewrite Zplus_mod_idemp_l. reflexivity. }
    split. { unfold SequenceModel.unused, SequenceModel.used. cbn [bitems bsize]. unfold zlen. cbn [length]. lia. }
    split. { rewrite contents_cons. cbn [bitems]. apply app_nil_r. }
    split; [|right; auto].
    destruct Hne as [Hne|Hne]; [|exact Hne]. destruct c; [|discriminate]. constructor; [|constructor]. unfold ne. intros Q.
    unfold SequenceModel.unused, SequenceModel.used in H. rewrite Q in H. unfold zlen in H. cbn [length] in H. lia.
  - exists t, c. split; [reflexivity|]. split; [exact Hb|]. split; [exact H|]. split; [reflexivity|]. split; [|left; reflexivity].
    destruct Hne as [Hne|Hne]; [destruct c; [constructor|discriminate]|]. inversion Hne; assumption.
Qed.
(** [q'] is [q] with items added at the end. *)
Definition grown (q q' : seqn) : Prop :=
  exists t c xs, q = t :: c /\ (exists d, q' = d ++ mkb (bitems t ++ xs) (bsize t) (boff t) :: c).
Lemma endWrite_ok t c xs : binv (t :: c) -> Forall ne c -> xs <> [] -> sz * zlen xs <= unused t ->
  exists q', endWrite sz (t :: c) xs = Some q' /\ inv q' /\ contents q' = contents (t :: c) ++ xs /\
    q' = mkb (bitems t ++ xs) (bsize t) (boff t) :: c.
Proof.
  intros Hb Hne Hx H. unfold endWrite. replace (sz * zlen xs <=? unused t) with true by lia. eexists. split; [reflexivity|].
  destruct Hb as (H1 & H2 & H3 & H4). split; [|split; [|reflexivity]].
  - split; [discriminate|]. split.
    + cbn [binv bsize boff]. unfold SequenceModel.unused, SequenceModel.used in *. cbn [bitems]. rewrite zlen_app. split; [lia|]. auto.
    + right. constructor; [|exact Hne]. unfold ne. cbn [bitems]. destruct (bitems t); [exact Hx|discriminate].
  - rewrite !contents_cons. cbn [bitems]. rewrite app_assoc. reflexivity.
Qed.
Lemma eta_b (b : block) : mkb (bitems b ++ []) (bsize b) (boff b) = b.
Proof. destruct b as [x1 x2 x3]. cbn [bitems bsize boff]. rewrite app_nil_r. reflexivity. Qed.
Lemma grown_write q t c xs : q <> [] -> (t :: c = q \/ c = q /\ bitems t = []) -> grown q (mkb (bitems t ++ xs) (bsize t) (boff t) :: c).
Proof.
  intros Hn [<-|(-> & E)].
  - exists t, c, xs. split; [reflexivity|]. exists []. reflexivity.
  - destruct q as [|t0 c0]; [congruence|]. exists t0, c0, []. split; [reflexivity|]. rewrite eta_b. eexists [_]. reflexivity.
Qed.
Lemma append_ok q x : inv q -> exists q', append sz blk q x = Some q' /\ inv q' /\ contents q' = contents q ++ [x] /\ grown q q'.
Proof.
  intros Hi. destruct (beginWrite_ok q Hi) as (t & c & Eb & Hb & Hu & Hc & Hne & Hq). unfold append. rewrite Eb.
  destruct (endWrite_ok t c [x] Hb Hne ltac:(discriminate)) as (q' & -> & H1 & H2 & H3).
  { unfold zlen. cbn [length]. lia. }
  exists q'. split; [reflexivity|]. split; [exact H1|]. split; [rewrite H2, Hc; reflexivity|]. subst q'. apply grown_write; [exact (proj1 Hi)|exact Hq].
Qed.
Lemma grown_refl q : q <> [] -> grown q q.
Proof. intros H. destruct q as [|t c]; [congruence|]. exists t, c, []. split; [reflexivity|]. exists []. rewrite eta_b. reflexivity. Qed.
Lemma grown_trans q1 q2 q3 : grown q1 q2 -> grown q2 q3 -> grown q1 q3.
Proof.
  intros (t & c & xs & -> & d & ->) (t2 & c2 & xs2 & E & d2 & ->). destruct d as [|d0 d].
  - cbn [app] in E. injection E as <- <-. exists t, c, (xs ++ xs2). split; [reflexivity|]. exists d2. cbn [bitems bsize boff]. rewrite app_assoc. reflexivity.
  - cbn [app] in E. injection E as -> <-. exists t, c, xs. split; [reflexivity|]. eexists (d2 ++ _ :: d). rewrite <- app_assoc. reflexivity.
Qed.
Lemma appendViews_ok : forall fuel xs q, (length xs <= fuel)%nat -> inv q ->
  exists q', appendViews sz blk fuel q xs = Some q' /\ inv q' /\ contents q' = contents q ++ xs /\ grown q q'.
Proof.
  induction fuel as [|fuel IH]; intros xs q Hf Hi; (destruct xs as [|x xs]; [exists q; rewrite app_nil_r; auto using grown_refl, (proj1 Hi)|]).
  - cbn [length] in Hf. lia.
  - cbn [appendViews]. destruct (beginWrite_ok q Hi) as (t & c & -> & Hb & Hu & Hc & Hne & Hq). cbv zeta.
    set (k := Z.to_nat (unused t / sz)). assert (Hk : (1 <= k)%nat) by (subst k; nia).
    destruct (endWrite_ok t c (firstn k (x :: xs)) Hb Hne) as (q' & -> & H1 & H2 & H3).
    { destruct k; [lia|discriminate]. }
    { assert (zlen (firstn k (x :: xs)) <= Z.of_nat k) by (unfold zlen; rewrite firstn_length; lia).
      assert (sz * Z.of_nat k <= unused t) by (subst k; rewrite Z2Nat.id by (apply Z.div_pos; lia); apply Z.mul_div_le; lia). nia. }
    destruct (IH (skipn k (x :: xs)) q') as (q2 & -> & G1 & G2 & G3); [rewrite skipn_length; cbn [length] in *; lia|exact H1|].
    exists q2. split; [reflexivity|]. split; [exact G1|]. split; [rewrite G2, H2, Hc, <- app_assoc, firstn_skipn; reflexivity|].
    apply (grown_trans q q'); [|exact G3]. subst q'. apply grown_write; [exact (proj1 Hi)|exact Hq].
Qed.

(* ---- cutting ---- *)
Definition cut (q q' : seqn) : Prop := exists a b c k, q = a ++ b :: c /\ q' = mkb (firstn k (bitems b)) (bsize b) (boff b) :: c /\
  (k <= length (bitems b))%nat /\ ((0 < k)%nat \/ c = []).
Lemma eta_f (b : block) : mkb (firstn (length (bitems b)) (bitems b)) (bsize b) (boff b) = b.
Proof. destruct b as [x1 x2 x3]. cbn [bitems bsize boff]. rewrite firstn_all. reflexivity. Qed.
Lemma cut_inv q q' : inv q -> cut q q' -> inv q'.
Proof.
  intros (Hn & Hb & Hne) (a & b & c & k & -> & -> & Hk & Hc). split; [discriminate|]. split.
  - apply binv_app in Hb. destruct Hb as (H1 & H2 & H3 & H4). cbn [binv bsize boff]. split; [|auto].
    unfold SequenceModel.used in *. cbn [bitems]. unfold zlen in *. rewrite firstn_length. nia.
  - destruct c as [|c0 c]; [left; reflexivity|]. right. destruct Hc as [Hc|Hc]; [|discriminate]. destruct Hne as [Hne|Hne].
    + rewrite app_length in Hne. cbn [length] in Hne. lia.
    + apply Forall_app in Hne. destruct Hne as (_ & Hne). inversion Hne as [|? ? Hb0 Hc0]; subst. constructor; [|exact Hc0].
      unfold ne in *. cbn [bitems]. destruct (bitems b); [congruence|]. destruct k; [lia|discriminate].
Qed.
Lemma cut_contents q q' : cut q q' -> contents q' = firstn (length (contents q')) (contents q).
Proof.
  intros (a & b & c & k & -> & -> & Hk & _). rewrite contents_app, !contents_cons. cbn [bitems]. rewrite app_length, firstn_length_le by lia.
  rewrite <- app_assoc, firstn_app_2. f_equal. rewrite firstn_app. replace (k - length (bitems b))%nat with 0%nat by lia. cbn [firstn]. rewrite app_nil_r. reflexivity.
Qed.
Lemma cut_refl q : inv q -> cut q q.
Proof.
  intros (Hn & _ & Hne). destruct q as [|b c]; [congruence|]. exists [], b, c, (length (bitems b)). rewrite eta_f. split; [reflexivity|]. split; [reflexivity|]. split; [lia|].
  destruct Hne as [Hne|Hne]; [right; destruct c; [reflexivity|discriminate]|left]. inversion Hne as [|? ? H _]; subst. unfold ne in H. destruct (bitems b); [congruence|cbn [length]; lia].
Qed.
Lemma cut_cons b q q' : cut q q' -> cut (b :: q) q'.
Proof. intros (a & b0 & c & k & -> & -> & H). exists (b :: a), b0, c, k. split; [reflexivity|]. split; [reflexivity|exact H]. Qed.
Lemma inv_tail b b0 c : inv (b :: b0 :: c) -> inv (b0 :: c).
Proof.
  intros (_ & Hb & Hne). split; [discriminate|]. split; [destruct Hb as (_ & _ & _ & Hb); exact Hb|].
  destruct Hne as [Hne|Hne]; [discriminate|]. right. inversion Hne; assumption.
Qed.

Lemma popLoop_ok : forall q k, inv q -> (k <= length (contents q))%nat -> exists q' d, popLoop sz q (sz * Z.of_nat k) = Some (q', d) /\
  cut q q' /\ length (contents q') = (length (contents q) - k)%nat /\ Permutation (contents q) (contents q' ++ d).
Proof.
  induction q as [|t c IH]; intros k Hi Hk; [destruct (proj1 Hi); reflexivity|]. cbn [popLoop].
  destruct k as [|k].
  { replace (0 <? sz * Z.of_nat 0) with false by lia. do 2 eexists. split; [reflexivity|]. split; [apply cut_refl; exact Hi|].
    split; [lia|]. rewrite app_nil_r. apply Permutation_refl. }
  replace (0 <? sz * Z.of_nat (S k)) with true by nia. cbv zeta.
  assert (Ht : used t = sz * Z.of_nat (length (bitems t))) by reflexivity.
  assert (Hpos : (0 < length (bitems t))%nat).
  { destruct Hi as (_ & _ & [Hne|Hne]).
    - destruct c; [|discriminate]. rewrite contents_cons in Hk. change (contents []) with (@nil T) in Hk. cbn [app] in Hk. lia.
    - inversion Hne as [|? ? H _]; subst. unfold ne in H. destruct (bitems t); [congruence|cbn [length]; lia]. }
  rewrite Ht. replace (Z.min (sz * Z.of_nat (S k)) (sz * Z.of_nat (length (bitems t)))) with (sz * Z.of_nat (Nat.min (S k) (length (bitems t)))) by nia.
  set (m := Nat.min (S k) (length (bitems t))). assert (Hm : (1 <= m <= length (bitems t) /\ m <= S k)%nat) by (subst m; lia).
  replace (0 <? sz * Z.of_nat m) with true by nia.
  replace ((sz * Z.of_nat (length (bitems t)) - sz * Z.of_nat m) / sz) with (Z.of_nat (length (bitems t) - m)).
  2:{ rewrite <- Z.mul_sub_distr_l, Z.mul_comm, Z.div_mul by lia. lia. }
  rewrite Nat2Z.id. set (keep := (length (bitems t) - m)%nat).
  assert (Hu : used (mkb (firstn keep (bitems t)) (bsize t) (boff t)) = sz * Z.of_nat keep).
  { unfold SequenceModel.used, zlen. cbn [bitems]. rewrite firstn_length_le by (subst keep; lia). reflexivity. }
  rewrite Hu. pose proof (firstn_skipn keep (bitems t)) as Hsp.
  assert (Lk : length (firstn keep (bitems t)) = keep) by (apply firstn_length_le; subst keep; lia).
  destruct (Z.ltb_spec 0 (sz * Z.of_nat keep)) as [H0|H0].
  - assert (m = S k) by (subst m keep; nia). replace (sz * Z.of_nat (S k) - sz * Z.of_nat m =? 0) with true by (subst m; lia).
    do 2 eexists. split; [reflexivity|]. split; [exists [], t, c, keep; split; [reflexivity|]; split; [reflexivity|]; split; [subst keep; lia|left; lia]|].
    rewrite !contents_cons. cbn [bitems]. split; [rewrite !app_length, Lk; subst keep; lia|]. rewrite <- app_assoc, Hsp. apply Permutation_refl.
  - assert (K0 : (length (bitems t) - m)%nat = 0%nat) by (subst keep; nia). subst keep. rewrite K0 in *. cbn [firstn skipn] in *.
    destruct c as [|b0 c].
    + do 2 eexists. split; [reflexivity|]. rewrite contents_cons in *. change (contents []) with (@nil T) in *. cbn [app] in *.
      split; [exists [], t, [], 0%nat; split; [reflexivity|]; split; [reflexivity|]; split; [lia|right; reflexivity]|].
      rewrite contents_cons. change (contents []) with (@nil T). cbn [app bitems length]. split; [lia|apply Permutation_refl].
    + assert (Em : m = length (bitems t)) by lia. rewrite contents_cons, app_length in Hk.
      replace (sz * Z.of_nat (S k) - sz * Z.of_nat m) with (sz * Z.of_nat (S k - m)) by nia.
      destruct (IH (S k - m)%nat (inv_tail _ _ _ Hi)) as (q' & d & -> & C & L & P); [lia|].
      do 2 eexists. split; [reflexivity|]. split; [apply cut_cons; exact C|]. rewrite contents_cons, app_length. split; [lia|].
      rewrite P, <- app_assoc. apply Permutation_app_head. apply Permutation_app_comm.
Qed.

(* ---- references ---- *)
Definition refers (q : seqn) (r : wref) (p : nat) (a : seqn) (b : block) (c : seqn) : Prop :=
  wowner r = wblock r /\ q = a ++ b :: c /\ length c = wblock r /\ (wpos r <= length (bitems b))%nat /\ p = (length (contents c) + wpos r)%nat.
Definition can q r p := exists a b c, refers q r p a b c /\ ((wpos r < length (bitems b))%nat \/ a = []).
Definition mvalid q r p := exists a b c, refers q r p a b c /\ ((0 < wpos r)%nat \/ wblock r = 0%nat).

Lemma blockAt_ok (a : seqn) b c : blockAt (a ++ b :: c) (length c) = Some b.
Proof. unfold blockAt, fwd. rewrite rev_app_distr. cbn [rev]. rewrite <- app_assoc. cbn [app]. rewrite <- (rev_length c). apply nth_at_app. Qed.
Lemma blockAt_next (a : seqn) b c : blockAt (a ++ b :: c) (S (length c)) = hd_error (rev a).
Proof.
  unfold blockAt, fwd. rewrite rev_app_distr. cbn [rev]. rewrite <- app_assoc. cbn [app]. rewrite nth_error_app2 by (rewrite rev_length; lia).
  rewrite rev_length. replace (S (length c) - length c)%nat with 1%nat by lia. destruct (rev a); reflexivity.
Qed.
Lemma blockAt_ok' (q a : seqn) b c : q = a ++ b :: c -> blockAt q (length c) = Some b.
Proof. intros ->. apply blockAt_ok. Qed.
Lemma blockAt_next' (q a : seqn) b c : q = a ++ b :: c -> blockAt q (S (length c)) = hd_error (rev a).
Proof. intros ->. apply blockAt_next. Qed.
Lemma deref_ok q r p a b c : refers q r p a b c -> (wpos r < length (bitems b))%nat -> deref q r = nth_error (contents q) p /\ (p < length (contents q))%nat.
Proof.
  intros (Ho & -> & Hl & Hp & ->) H. unfold deref. rewrite Ho, Nat.eqb_refl, <- Hl, blockAt_ok. rewrite contents_app, contents_cons, !app_length. split; [|lia].
  rewrite <- app_assoc, nth_error_app2 by lia. rewrite nth_error_app1 by lia. f_equal. lia.
Qed.
Lemma can_lt q r p : can q r p -> (p < length (contents q))%nat -> exists a b c, refers q r p a b c /\ (wpos r < length (bitems b))%nat.
Proof.
  intros (a & b & c & R & [H| ->]) Hp; [exists a, b, c; auto|]. exists [], b, c. split; [exact R|]. destruct R as (_ & -> & _ & _ & ->). cbn [app] in Hp.
  rewrite contents_cons, app_length in Hp. lia.
Qed.
Lemma begin_ok q : inv q -> can q (begin q) 0.
Proof.
  intros (Hn & _ & Hne). destruct q as [|b0 c0] using rev_ind; [congruence|]. clear IHc0. exists c0, b0, [].
  split; [split; [reflexivity|]; split; [reflexivity|]; split; [reflexivity|]; split; [cbn [begin wpos]; lia|reflexivity]|]. cbn [begin wpos].
  destruct Hne as [Hne|Hne].
  - right. destruct c0; [reflexivity|]. rewrite app_length in Hne. cbn [length] in Hne. lia.
  - left. apply Forall_app in Hne. destruct Hne as (_ & Hne). inversion Hne as [|? ? H _]; subst. unfold ne in H. destruct (bitems b0); [congruence|cbn [length]; lia].
Qed.
Lemma end_ok q : q <> [] -> exists b c, q = b :: c /\ refers q (end_ q) (length (contents q)) [] b c /\ wpos (end_ q) = length (bitems b).
Proof.
  intros Hn. destruct q as [|b c]; [congruence|]. exists b, c. split; [reflexivity|]. split; [|reflexivity].
  unfold end_. cbn [length]. split; [reflexivity|]. split; [reflexivity|]. cbn [wblock wpos]. split; [lia|]. split; [lia|]. rewrite contents_cons, app_length. reflexivity.
Qed.
Lemma same_block (a : seqn) b c a' b' c' : a ++ b :: c = a' ++ b' :: c' -> length c = length c' -> a = a' /\ b = b' /\ c = c' :> seqn.
Proof.
  intros E L. destruct (suffix_split (A := block) a a' (b :: c) (b' :: c') E ltac:(cbn [length]; lia)) as (d & E1 & E2).
  destruct d as [|d0 d]; [|apply (f_equal (@length _)) in E1; cbn [app length] in E1; rewrite app_length in E1; cbn [length] in E1; lia].
  cbn [app] in E1. injection E1 as -> ->. rewrite app_nil_r in E2. auto.
Qed.
Lemma differs_end q r p : inv q -> can q r p -> differs r (end_ q) = negb (p =? length (contents q))%nat.
Proof.
  intros (Hn & _ & _) (a & b & c & R & Hc). destruct (end_ok q Hn) as (b1 & c1 & Eq & R1 & W). unfold differs. f_equal.
  destruct R as (Ho & E & Hl & Hp & Ep). destruct R1 as (Ho1 & _ & Hl1 & _ & Ep1). cbn [app] in *.
  destruct (Nat.eqb_spec p (length (contents q))) as [Hq|Hq].
  - assert (a = []) as ->.
    { destruct Hc as [Hc|Hc]; [|exact Hc]. rewrite E, contents_app, contents_cons, !app_length in Hq. lia. }
    cbn [app] in E. rewrite E in Eq. injection Eq as -> ->. rewrite Ho, Ho1, <- Hl, <- Hl1, Nat.eqb_refl. cbn [andb]. apply Nat.eqb_eq. lia.
  - destruct (Nat.eqb_spec (wowner r) (wowner (end_ q))) as [E1|E1]; [|reflexivity]. cbn [andb]. apply Nat.eqb_neq. intros E2. apply Hq.
    assert (c = c1). { rewrite E in Eq. change (b1 :: c1) with ([] ++ b1 :: c1) in Eq. apply same_block in Eq; [tauto|]. lia. } subst c1. lia.
Qed.
Lemma incr_ok q r p : inv q -> can q r p -> (p < length (contents q))%nat -> exists r', incr q r = Some r' /\ can q r' (S p).
Proof.
  intros Hi Hc Hp. destruct (can_lt q r p Hc Hp) as (a & b & c & R & H). destruct R as (Ho & E & Hl & _ & Ep). unfold incr.
  rewrite Ho, Nat.eqb_refl, <- Hl. rewrite (blockAt_ok' _ _ _ _ E). replace (wpos r <? length (bitems b))%nat with true by lia. cbv zeta. eexists. split; [reflexivity|].
  destruct (Nat.eqb_spec (S (wpos r)) (length (bitems b))) as [E1|E1].
  - unfold jumpToNext. cbn [wblock]. rewrite (blockAt_next' _ _ _ _ E). destruct a as [|b' a' _] using rev_ind.
    + cbn [rev hd_error]. exists [], b, c. split; [|right; reflexivity]. split; [reflexivity|]. split; [exact E|]. cbn [wblock wpos]. lia.
    + rewrite rev_app_distr. cbn [rev app hd_error]. exists a', b', (b :: c). rewrite <- app_assoc in E. cbn [app] in E.
      split; [split; [reflexivity|]; split; [exact E|]; cbn [wblock wpos length]; rewrite contents_cons, app_length; lia|]. cbn [wpos]. left.
      destruct Hi as (_ & _ & [Hne|Hne]); [subst q; rewrite app_length in Hne; cbn [length] in Hne; lia|]. subst q. apply Forall_app in Hne. destruct Hne as (_ & Hne).
      inversion Hne as [|? ? Hb _]; subst. unfold ne in Hb. destruct (bitems b'); [congruence|cbn [length]; lia].
  - exists a, b, c. split; [|left; cbn [wpos]; lia]. split; [reflexivity|]. split; [exact E|]. cbn [wblock wpos]. lia.
Qed.

Lemma skipn_nth {A} (l : list A) p y : nth_error l p = Some y -> skipn p l = y :: skipn (S p) l.
Proof.
  revert p. induction l as [|x l IH]; intros [|p] E; cbn [nth_error] in E; try discriminate.
  - injection E as ->. reflexivity.
  - cbn [skipn]. apply IH. exact E.
Qed.
Lemma firstn_nth {A} (l : list A) p y : nth_error l p = Some y -> firstn (S p) l = firstn p l ++ [y].
Proof.
  revert p. induction l as [|x l IH]; intros [|p] E; cbn [nth_error] in E; try discriminate.
  - injection E as ->. reflexivity.
  - cbn [firstn app]. f_equal. apply IH. exact E.
Qed.
Lemma iter_ok q : inv q -> forall fuel r p, can q r p -> (p <= length (contents q))%nat -> (length (contents q) - p <= fuel)%nat ->
  iter fuel q r = Some (skipn p (contents q)).
Proof.
  intros Hi. induction fuel as [|fuel IH]; intros r p Hc Hp Hf; cbn [iter]; rewrite (differs_end q r p Hi Hc).
  - replace p with (length (contents q)) by lia. rewrite Nat.eqb_refl, skipn_all. reflexivity.
  - destruct (Nat.eqb_spec p (length (contents q))) as [->|Hn]; cbn [negb]; [rewrite skipn_all; reflexivity|].
    destruct (can_lt q r p Hc ltac:(lia)) as (a & b & c & R & H). destruct (deref_ok _ _ _ _ _ _ R H) as (-> & _).
    destruct (nth_ex (contents q) p ltac:(lia)) as (x & E). rewrite E. destruct (incr_ok q r p Hi Hc ltac:(lia)) as (r' & -> & Hc').
    rewrite (IH r' (S p) Hc') by lia. cbn [option_map]. rewrite (skipn_nth _ _ _ E). reflexivity.
Qed.
Lemma advance_ok q : inv q -> forall j r p, can q r p -> (p + j <= length (contents q))%nat -> exists r', advance j q r = Some r' /\ can q r' (p + j).
Proof.
  intros Hi. induction j as [|j IH]; intros r p Hc Hp; cbn [advance].
  - exists r. rewrite Nat.add_0_r. auto.
  - destruct (incr_ok q r p Hi Hc ltac:(lia)) as (r' & -> & Hc'). destruct (IH r' (S p) Hc' ltac:(lia)) as (r2 & -> & H2). exists r2.
    replace (p + S j)%nat with (S p + j)%nat by lia. auto.
Qed.

Lemma differs_begin q r p a b c : inv q -> refers q r p a b c -> differs r (begin q) = negb (p =? 0)%nat.
Proof.
  intros (_ & _ & Hne) (Ho & E & Hl & _ & Ep). unfold differs. f_equal. rewrite Ho. cbn [begin wowner wpos].
  destruct (Nat.eqb_spec (wblock r) 0) as [E0|E0]; cbn [andb].
  - destruct c; [|cbn [length] in Hl; lia]. change (length (contents [])) with 0%nat in Ep. subst p. reflexivity.
  - symmetry. apply Nat.eqb_neq. destruct c as [|c0 c]; [cbn [length] in Hl; lia|]. destruct Hne as [Hne|Hne].
    { subst q. rewrite app_length in Hne. cbn [length] in Hne. lia. }
    subst q. apply Forall_app in Hne. destruct Hne as (_ & Hne). inversion Hne as [|? ? _ Hne']; subst. inversion Hne' as [|? ? Hb _]; subst.
    rewrite contents_cons, app_length. unfold ne in Hb. destruct (bitems c0); [congruence|]. cbn [length]. lia.
Qed.
Lemma decr_ok q r p a b c : inv q -> refers q r p a b c -> (0 < p)%nat -> exists r' a' b' c', decr q r = Some r' /\ refers q r' (p - 1) a' b' c' /\ (wpos r' < length (bitems b'))%nat.
Proof.
  intros Hi (Ho & E & Hl & Hw & Ep) Hp. unfold decr. rewrite Ho, Nat.eqb_refl. destruct (wpos r) as [|w] eqn:Ew.
  - destruct c as [|c0 c]; [change (length (contents [])) with 0%nat in Ep; lia|]. rewrite <- Hl. cbn [length].
    replace (a ++ b :: c0 :: c) with ((a ++ [b]) ++ c0 :: c) in E by (rewrite <- app_assoc; reflexivity). rewrite (blockAt_ok' _ _ _ _ E).
    destruct Hi as (_ & _ & [Hne|Hne]); [rewrite E, !app_length in Hne; cbn [length] in Hne; lia|]. pose proof Hne as Hne0. rewrite E in Hne. apply Forall_app in Hne. destruct Hne as (_ & Hne).
    inversion Hne as [|? ? Hb _]; subst. unfold ne in Hb. destruct (length (bitems c0)) as [|n] eqn:En; [apply length_zero_iff_nil in En; congruence|].
    eexists _, (a ++ [b]), c0, c. split; [reflexivity|]. split; [|cbn [wpos]; lia]. split; [reflexivity|]. split; [reflexivity|]. cbn [wblock wpos].
    rewrite contents_cons, app_length, En. lia.
  - eexists _, a, b, c. split; [reflexivity|]. split; [|cbn [wpos]; lia]. split; [reflexivity|]. split; [exact E|]. cbn [wblock wpos]. lia.
Qed.
Lemma iterBack_ok q : inv q -> forall fuel r p a b c, refers q r p a b c -> (p <= fuel)%nat -> iterBack fuel q r = Some (rev (firstn p (contents q))).
Proof.
  intros Hi. induction fuel as [|fuel IH]; intros r p a b c R Hf; cbn [iterBack]; rewrite (differs_begin q r p a b c Hi R).
  - replace p with 0%nat by lia. reflexivity.
  - destruct (Nat.eqb_spec p 0) as [->|Hn]; cbn [negb]; [reflexivity|]. destruct (decr_ok q r p a b c Hi R ltac:(lia)) as (r' & a' & b' & c' & -> & R' & H').
    destruct (deref_ok _ _ _ _ _ _ R' H') as (-> & Hlt). destruct (nth_ex (contents q) (p - 1) Hlt) as (x & E). rewrite E.
    rewrite (IH r' (p - 1)%nat a' b' c' R') by lia. cbn [option_map]. destruct p as [|p]; [lia|]. cbn [Nat.sub] in *. rewrite Nat.sub_0_r in *.
    rewrite (firstn_nth _ _ _ E), rev_app_distr. reflexivity.
Qed.

Lemma readViews_end q : inv q -> forall n a b c fuel r p, length a = n -> refers q r p a b c -> wpos r = length (bitems b) -> (n < fuel)%nat ->
  readViews fuel q r = Some (contents a).
Proof.
  intros Hi. induction n as [|n IH]; intros a b c fuel r p Ha (Ho & E & Hl & Hw & Ep) Hend Hf; (destruct fuel as [|fuel]; [lia|]); cbn [readViews].
  - destruct a; [|discriminate]. cbn [app] in E. rewrite <- Hl. rewrite (blockAt_ok' _ [] b c E). cbv zeta. rewrite Hend, Nat.sub_diag. cbn [Nat.eqb].
    unfold jumpToNext. rewrite <- Hl. rewrite (blockAt_next' _ [] b c E). cbn [rev hd_error]. rewrite <- Hl. rewrite (blockAt_ok' _ [] b c E).
    rewrite Hend, skipn_all. reflexivity.
  - destruct a as [|b' a' _] using rev_ind; [discriminate|]. rewrite app_length in Ha. cbn [length] in Ha.
    rewrite <- Hl. rewrite (blockAt_ok' _ _ _ _ E). cbv zeta. rewrite Hend, Nat.sub_diag. cbn [Nat.eqb].
    unfold jumpToNext. rewrite <- Hl. rewrite (blockAt_next' _ _ _ _ E). rewrite rev_app_distr. cbn [rev app hd_error wblock wpos wowner].
    rewrite <- app_assoc in E. cbn [app] in E. change (S (length c)) with (length (b :: c)). rewrite (blockAt_ok' _ _ _ _ E). cbn [skipn].
    assert (Hb : ne b').
    { destruct Hi as (_ & _ & [Hne|Hne]); [rewrite E, !app_length in Hne; cbn [length] in Hne; lia|]. rewrite E in Hne. apply Forall_app in Hne. destruct Hne as (_ & Hne). inversion Hne; assumption. }
    unfold ne in Hb. destruct (bitems b') as [|x v] eqn:Ev; [congruence|]. rewrite <- Ev in *.
    rewrite (IH a' b' (b :: c) fuel _ (length (contents (b :: c)) + length (bitems b'))%nat); [|lia| |reflexivity|lia].
    + cbn [option_map]. rewrite contents_app, contents_cons. change (contents []) with (@nil T). rewrite Ev. reflexivity.
    + split; [reflexivity|]. split; [exact E|]. cbn [wblock wpos Nat.add]. split; [reflexivity|]. lia.
Qed.
Lemma readViews_ok q : inv q -> readViews (S (length q)) q (begin q) = Some (contents q).
Proof.
  intros Hi. pose proof Hi as (Hn & _ & Hne). destruct q as [|b0 a _] using rev_ind; [congruence|].
  destruct (bitems b0) as [|x v] eqn:Eb.
  - rewrite (readViews_end _ Hi (length a) a b0 [] _ _ 0); [|reflexivity| |cbn [begin wpos]; rewrite Eb; reflexivity|rewrite app_length; cbn [length]; lia].
    + rewrite contents_app, contents_cons. change (contents []) with (@nil T). rewrite Eb. reflexivity.
    + split; [reflexivity|]. split; [reflexivity|]. cbn [begin wblock wpos length]. split; [reflexivity|]. split; [lia|reflexivity].
  - pose proof (blockAt_ok a b0 []) as B0. cbn [length] in B0. cbn [readViews]. change (begin (a ++ [b0])) with (mkw 0 0 0). cbn [wblock wpos wowner]. rewrite B0.
    cbv zeta. rewrite Eb. change (length (x :: v) - 0 =? 0)%nat with false. cbv iota. cbn [wblock wpos wowner]. rewrite B0, Eb. cbn [skipn Nat.add].
    rewrite (readViews_end _ Hi (length a) a b0 [] _ _ (length (bitems b0))); [|reflexivity| |cbn [wpos]; rewrite Eb; reflexivity|rewrite app_length; cbn [length]; lia].
    + cbn [option_map]. rewrite contents_app, contents_cons. change (contents []) with (@nil T). rewrite Eb. reflexivity.
    + split; [reflexivity|]. split; [reflexivity|]. cbn [wblock wpos length]. split; [reflexivity|]. rewrite Eb. split; [cbn [length]; lia|reflexivity].
Qed.

Lemma truncate_ok q r p a b c : inv q -> refers q r p a b c -> exists q', truncate q r = Some q' /\ cut q q' /\ length (contents q') = p.
Proof.
  intros Hi (Ho & E & Hl & Hw & Ep). unfold truncate. rewrite Ho, Nat.eqb_refl. assert (Hlen : length q = (length a + S (length c))%nat) by (rewrite E, app_length; reflexivity).
  replace (wblock r <? length q)%nat with true by lia. cbn [andb]. replace (length q - 1 - wblock r)%nat with (length a) by lia.
  assert (Sk : skipn (length a) q = b :: c) by (rewrite E, skipn_app, skipn_all, Nat.sub_diag; reflexivity). rewrite Sk.
  assert (Keep : (0 < wpos r)%nat \/ c = [] -> exists q', (if (wpos r <=? length (bitems b))%nat then Some (mkb (firstn (wpos r) (bitems b)) (bsize b) (boff b) :: c) else None) = Some q' /\ cut q q' /\ length (contents q') = p).
  { intros Hk. replace (wpos r <=? length (bitems b))%nat with true by lia. eexists. split; [reflexivity|]. split; [exists a, b, c, (wpos r); auto|].
    rewrite contents_cons, app_length. cbn [bitems]. rewrite firstn_length_le by lia. lia. }
  destruct (Nat.eqb_spec (wpos r) 0) as [E0|E0]; cbn [andb]; [|apply Keep; left; lia].
  destruct c as [|b0 c]; cbn [negb]; [apply Keep; right; reflexivity|].
  exists (b0 :: c). split; [reflexivity|]. split; [|lia].
  assert (Hi2 : inv (b0 :: c)).
  { split; [discriminate|]. destruct Hi as (_ & Hb & Hne). replace (a ++ b :: b0 :: c) with ((a ++ [b]) ++ b0 :: c) in E by (rewrite <- app_assoc; reflexivity). rewrite E in Hb, Hne. apply binv_app in Hb. split; [exact Hb|].
    destruct Hne as [Hne|Hne]; [rewrite !app_length in Hne; cbn [length] in Hne; lia|]. right. apply Forall_app in Hne. tauto. }
  destruct (cut_refl _ Hi2) as (a2 & b2 & c2 & k & E2 & E3 & H2). exists (a ++ b :: a2), b2, c2, k. split; [|auto]. rewrite E, E2, <- app_assoc. reflexivity.
Qed.

(* ---- the mark ---- *)
Lemma mark_cut q q' r p : mvalid q r p -> cut q q' -> (p <= length (contents q'))%nat -> mvalid q' r p.
Proof.
  intros (a & b & c & (Ho & E & Hl & Hw & Ep) & Hm) (a0 & b0 & c0 & k & E0 & -> & Hk & _) Hp.
  rewrite contents_cons, app_length in Hp. cbn [bitems] in Hp. rewrite firstn_length_le in Hp by lia.
  destruct (Nat.lt_total (length c) (length c0)) as [Hlt|[Heq|Hgt]].
  - destruct (suffix_split (A := block) (a0 ++ [b0]) a c0 (b :: c)) as (d & E1 & _).
    { rewrite <- app_assoc. cbn [app]. congruence. } { cbn [length]. lia. }
    exists (mkb (firstn k (bitems b0)) (bsize b0) (boff b0) :: d), b, c. split; [|exact Hm]. split; [exact Ho|]. split; [rewrite E1; reflexivity|]. auto.
  - rewrite E in E0. apply same_block in E0; [|exact Heq]. destruct E0 as (-> & -> & ->). exists [], (mkb (firstn k (bitems b0)) (bsize b0) (boff b0)), c0.
    split; [|exact Hm]. split; [exact Ho|]. split; [reflexivity|]. split; [exact Hl|]. cbn [bitems]. rewrite firstn_length_le by lia. lia.
  - exfalso. destruct (suffix_split (A := block) (a ++ [b]) a0 c (b0 :: c0)) as (d & E1 & _).
    { rewrite <- app_assoc. cbn [app]. congruence. } { cbn [length]. lia. }
    destruct Hm as [Hm|Hm]; [|lia]. rewrite E1, contents_app, contents_cons, !app_length in Ep. lia.
Qed.
Lemma mark_grown q q' r p : mvalid q r p -> grown q q' -> mvalid q' r p.
Proof.
  intros (a & b & c & (Ho & E & Hl & Hw & Ep) & Hm) (t & c0 & xs & E0 & d & ->). rewrite E in E0. destruct a as [|a0 a].
  - cbn [app] in E0. injection E0 as <- <-. eexists d, _, c. split; [|exact Hm]. split; [exact Ho|]. split; [reflexivity|]. split; [exact Hl|]. cbn [bitems]. rewrite app_length. lia.
  - cbn [app] in E0. injection E0 as <- <-. eexists (d ++ _ :: a), b, c. split; [|exact Hm]. split; [exact Ho|]. split; [rewrite <- app_assoc; reflexivity|]. auto.
Qed.

(* ---- the rest ---- *)
Lemma total_ok q : totalBytes sz q = u32 (usedsum q).
Proof.
  unfold totalBytes, usedsum, contents, destruct_. generalize (fwd q). intros l. replace (u32 (sz * zlen (concat (map bitems l)))) with (u32 (0 + sz * zlen (concat (map bitems l)))) by (f_equal; lia).
  assert (G : forall n, n = u32 n -> fold_left (fun n b => u32 (n + used b)) l n = u32 (n + sz * zlen (concat (map bitems l)))).
  { induction l as [|b l IH]; intros n Hn; cbn [fold_left map concat].
    - unfold zlen. cbn [length]. rewrite Hn at 1. f_equal. lia.
    - rewrite IH by (unfold u32; rewrite Z.mod_mod by lia; reflexivity). rewrite zlen_app. unfold SequenceModel.used, u32.
      rewrite Zplus_mod_idemp_l. f_equal. ring. }
  apply G. reflexivity.
Qed.
Lemma views_ok : forall a b c, binv (a ++ b :: c) -> usedsum (a ++ b :: c) < 2 ^ 32 ->
  exists vs, views sz b 0 (rev a) = Some vs /\ concat vs = bitems b ++ contents a.
Proof.
  intros a. induction a as [|b' a IH] using rev_ind; intros b c Hb Hu.
  - cbn [rev views]. eexists. split; [reflexivity|]. cbn [concat skipn]. rewrite app_nil_r. change (contents []) with (@nil T). rewrite app_nil_r. reflexivity.
  - rewrite <- app_assoc in Hb, Hu. cbn [app] in Hb, Hu. rewrite rev_app_distr. cbn [rev app views].
    pose proof (binv_app _ _ Hb) as Hb1. destruct Hb1 as (_ & _ & O1 & (_ & _ & O2 & _)).
    assert (U : 0 <= usedsum c /\ usedsum (b :: c) <= usedsum (a ++ b' :: b :: c)).
    { unfold usedsum. rewrite contents_app, !contents_cons, !zlen_app. unfold zlen. nia. }
    rewrite usedsum_cons in *. pose proof (used_nonneg b).
    assert (N : nextStart sz b b' = Some 0%nat).
    { unfold nextStart. rewrite O1, O2. unfold u64. rewrite !Z.mod_small by lia. cbv zeta.
      replace (usedsum c + used b - usedsum c) with (used b) by lia. rewrite Z.sub_diag, Z.div_0_l by lia.
      replace ((0 <=? used b) && (used b <? 2 ^ 32) && (used b <=? used b)) with true by lia. reflexivity. }
    rewrite N. destruct (IH b' (b :: c) Hb Hu) as (vs & -> & E). eexists. split; [reflexivity|]. cbn [concat skipn]. rewrite E, contents_app, contents_cons.
    change (contents []) with (@nil T). reflexivity.
Qed.
Lemma moveToArray_ok q : q <> [] -> binv q -> usedsum q < 2 ^ 32 -> moveToArray sz q = Some (contents q).
Proof.
  intros Hn Hb Hu. destruct q as [|b0 a _] using rev_ind; [congruence|]. unfold moveToArray, fwd. rewrite rev_app_distr. cbn [rev app].
  destruct (views_ok a b0 [] Hb Hu) as (vs & Ev & Ec). rewrite contents_app, contents_cons. change (contents []) with (@nil T). cbn [app].
  destruct (rev a) as [|b1 ra] eqn:Ea.
  - apply (f_equal (@rev _)) in Ea. rewrite rev_involutive in Ea. cbn [rev] in Ea. subst a. change (contents []) with (@nil T). rewrite app_nil_r. reflexivity.
  - rewrite Ev, Ec. replace (sz * zlen (bitems b0 ++ contents a) <? 2 ^ 32) with true; [reflexivity|].
    unfold usedsum in Hu. rewrite contents_app, contents_cons in Hu. change (contents []) with (@nil T) in Hu. cbn [app] in Hu. lia.
Qed.
Lemma isEmpty_ok q : inv q -> isEmpty sz q = Some (match contents q with [] => true | _ => false end).
Proof.
  intros (Hn & _ & Hne). destruct q as [|b0 a _] using rev_ind; [congruence|]. unfold isEmpty, fwd. rewrite rev_app_distr. cbn [rev app]. f_equal.
  rewrite contents_app, contents_cons. change (contents []) with (@nil T). cbn [app]. unfold SequenceModel.used, zlen.
  destruct (bitems b0) eqn:E; [|cbn [length app]; apply Z.eqb_neq; nia]. cbn [app length]. rewrite Z.mul_0_r. cbn [Z.eqb].
  destruct Hne as [Hne|Hne].
  - rewrite app_length in Hne. cbn [length] in Hne. destruct a; [reflexivity|cbn [length] in Hne; lia].
  - exfalso. apply Forall_app in Hne. destruct Hne as (_ & Hne). inversion Hne as [|? ? H _]; subst. exact (H E).
Qed.
Lemma head_ok q : inv q -> head q = hd_error (contents q).
Proof.
  intros (Hn & _ & Hne). destruct q as [|b0 a _] using rev_ind; [congruence|]. unfold head, fwd. rewrite rev_app_distr. cbn [rev app].
  rewrite contents_app, contents_cons. change (contents []) with (@nil T). cbn [app].
  destruct (bitems b0) eqn:E; [|reflexivity]. destruct Hne as [Hne|Hne].
  - rewrite app_length in Hne. cbn [length] in Hne. destruct a; [reflexivity|cbn [length] in Hne; lia].
  - exfalso. apply Forall_app in Hne. destruct Hne as (_ & Hne). inversion Hne as [|? ? H _]; subst. exact (H E).
Qed.
Lemma tail_ok q : inv q -> tail q = hd_error (rev (contents q)).
Proof.
  intros (Hn & _ & Hne). destruct q as [|t c]; [congruence|]. unfold tail. rewrite contents_cons, rev_app_distr.
  destruct (rev (bitems t)) eqn:E; [|reflexivity]. destruct Hne as [Hne|Hne].
  - destruct c; [reflexivity|discriminate].
  - exfalso. inversion Hne as [|? ? H _]; subst. apply H. apply (f_equal (@rev _)) in E. rewrite rev_involutive in E. exact E.
Qed.

(* ---- runs ---- *)
Definition sim (st : state) (l : list T) (m : option nat) : Prop :=
  inv (blocks st) /\ contents (blocks st) = l /\ match m with Some p => exists r, mark st = Some r /\ mvalid (blocks st) r p | None => True end.
Definition ledger (o : op) (y : out) (d : list T) (l l' : list T) : Prop :=
  truncates o = false -> Permutation (l ++ appended [o]) (d ++ l' ++ moved [y]).

Lemma mvalid_le q r p : mvalid q r p -> (p <= length (contents q))%nat.
Proof. intros (a & b & c & (_ & -> & _ & Hw & ->) & _). rewrite contents_app, contents_cons, !app_length. lia. Qed.
Lemma end_mvalid q : inv q -> mvalid q (end_ q) (length (contents q)).
Proof.
  intros (Hn & _ & Hne). destruct (end_ok q Hn) as (b & c & E & R & W). exists [], b, c. split; [exact R|]. rewrite W.
  destruct Hne as [Hne|Hne].
  - right. destruct R as (_ & _ & Hl & _). subst q. cbn [length] in Hne. lia.
  - left. subst q. inversion Hne as [|? ? H _]; subst. unfold ne in H. destruct (bitems b); [congruence|cbn [length]; lia].
Qed.

Lemma sim_grown st q' l m xs : sim st l m -> inv q' -> contents q' = l ++ xs -> grown (blocks st) q' ->
  sim (mks q' (mark st) (gone st)) (l ++ xs) (keep_mark m (l ++ xs)).
Proof.
  intros (Hi & Hc & Hm) Hi' Hc' Hg. split; [exact Hi'|]. split; [exact Hc'|]. cbn [mark blocks]. destruct m as [p|]; cbn [keep_mark]; [|exact I].
  destruct Hm as (r & Er & Hr). destruct (p <=? length (l ++ xs))%nat; [|exact I]. exists r. split; [exact Er|]. exact (mark_grown _ _ _ _ Hr Hg).
Qed.
Lemma sim_cut st q' l m d : sim st l m -> cut (blocks st) q' ->
  sim (mks q' (mark st) d) (firstn (length (contents q')) l) (keep_mark m (firstn (length (contents q')) l)).
Proof.
  intros (Hi & Hc & Hm) Hg. subst l. rewrite <- (cut_contents _ _ Hg). split; [exact (cut_inv _ _ Hi Hg)|]. split; [reflexivity|]. cbn [mark blocks].
  destruct m as [p|]; cbn [keep_mark]; [|exact I]. destruct Hm as (r & Er & Hr). destruct (Nat.leb_spec p (length (contents q'))) as [H|H]; [|exact I].
  exists r. split; [exact Er|]. exact (mark_cut _ _ _ _ Hr Hg H).
Qed.

Lemma step_ok st l m o l' m' y : sim st l m -> spec_step sz l m o = Some (l', m', y) ->
  exists st' d, step sz blk st o = Some (st', y) /\ sim st' l' m' /\ gone st' = gone st ++ d /\ ledger o y d l l'.
Proof.
  intros Hs H. pose proof Hs as (Hi & Hc & Hm). unfold step, ledger. cbv zeta.
  destruct o as [x|xs|n| | |j| | | | | | | | |]; cbn [spec_step truncates] in H |- *; cbv zeta in H.
  - injection H as <- <- <-. destruct (append_ok (blocks st) x Hi) as (q' & -> & G1 & G2 & G3). exists (mks q' (mark st) (gone st)), [].
    split; [reflexivity|]. rewrite Hc in G2. split; [apply sim_grown; assumption|]. split; [cbn [gone]; rewrite app_nil_r; reflexivity|].
    intros _. cbn [appended flat_map moved app]. rewrite app_nil_r. apply Permutation_refl.
  - injection H as <- <- <-. destruct (appendViews_ok (length xs) xs (blocks st) (Nat.le_refl _) Hi) as (q' & -> & G1 & G2 & G3). exists (mks q' (mark st) (gone st)), [].
    split; [reflexivity|]. rewrite Hc in G2. split; [apply sim_grown; assumption|]. split; [cbn [gone]; rewrite app_nil_r; reflexivity|].
    intros _. cbn [appended flat_map moved app]. rewrite !app_nil_r. apply Permutation_refl.
  - destruct (Nat.leb_spec n (length l)) as [Hn|]; [|discriminate]. destruct (Z.ltb_spec (sz * zlen l) (2 ^ 32)) as [Hsm|]; [|discriminate]. cbn [andb] in H. injection H as <- <- <-.
    unfold popTail. replace (u32 (Z.of_nat n * sz)) with (sz * Z.of_nat n) by (unfold u32, zlen in *; rewrite Z.mod_small by nia; ring).
    rewrite <- Hc in Hn. destruct (popLoop_ok (blocks st) n Hi Hn) as (q' & d & -> & C & L & P). exists (mks q' (mark st) (gone st ++ d)), d.
    split; [reflexivity|]. pose proof (sim_cut st q' l m (gone st ++ d) Hs C) as S'. rewrite L, Hc in S'. split; [exact S'|]. split; [reflexivity|].
    intros _. cbn [appended flat_map moved app]. rewrite !app_nil_r. destruct S' as (_ & <- & _). cbn [blocks]. rewrite <- Hc. rewrite P. apply Permutation_app_comm.
  - injection H as <- <- <-. eexists _, []. split; [reflexivity|]. split; [|split; [cbn [gone]; rewrite app_nil_r; reflexivity|]].
    + split; [exact Hi|]. split; [exact Hc|]. exists (end_ (blocks st)). split; [reflexivity|]. rewrite <- Hc. apply end_mvalid. exact Hi.
    + intros _. apply Permutation_refl.
  - destruct m as [p|]; [|discriminate]. injection H as <- <- <-. destruct Hm as (r & Er & Hr). rewrite Er. pose proof (mvalid_le _ _ _ Hr) as Hp.
    destruct Hr as (a & b & c & R & _). destruct (truncate_ok _ _ _ _ _ _ Hi R) as (q' & -> & C & L). eexists _, []. split; [reflexivity|].
    pose proof (sim_cut st q' l (Some p) (gone st) Hs C) as S'. rewrite L, Er in S'. split; [exact S'|]. split; [cbn [gone]; rewrite app_nil_r; reflexivity|]. discriminate.
  - destruct (Nat.leb_spec j (length l)) as [Hj|]; [|discriminate]. injection H as <- <- <-. rewrite <- Hc in Hj.
    destruct (advance_ok (blocks st) Hi j (begin (blocks st)) 0 (begin_ok _ Hi) Hj) as (r & -> & (a & b & c & R & _)). cbn [Nat.add] in R.
    destruct (truncate_ok _ _ _ _ _ _ Hi R) as (q' & -> & C & L). eexists _, []. split; [reflexivity|].
    pose proof (sim_cut st q' l m (gone st) Hs C) as S'. rewrite L in S'. split; [exact S'|]. split; [cbn [gone]; rewrite app_nil_r; reflexivity|]. discriminate.
  - rewrite head_ok, Hc by exact Hi. destruct l as [|x l]; [discriminate|]. injection H as <- <- <-. eexists _, []. split; [reflexivity|]. split; [exact Hs|].
    split; [rewrite app_nil_r; reflexivity|]. intros _. apply Permutation_refl.
  - rewrite tail_ok, Hc by exact Hi. destruct (rev l) as [|x rl]; [discriminate|]. injection H as <- <- <-. eexists _, []. split; [reflexivity|]. split; [exact Hs|].
    split; [rewrite app_nil_r; reflexivity|]. intros _. apply Permutation_refl.
  - rewrite isEmpty_ok, Hc by exact Hi. injection H as <- <- <-. eexists _, []. split; [reflexivity|]. split; [exact Hs|].
    split; [rewrite app_nil_r; reflexivity|]. intros _. apply Permutation_refl.
  - destruct (Z.ltb_spec (sz * zlen l) (2 ^ 32)) as [Hsm|]; [|discriminate]. injection H as <- <- <-. eexists _, [].
    split. { unfold numItems. rewrite total_ok. unfold usedsum, u32. rewrite Hc, Z.mod_small by (unfold zlen in *; nia). rewrite Z.mul_comm, Z.div_mul by lia. reflexivity. }
    split; [exact Hs|]. split; [rewrite app_nil_r; reflexivity|]. intros _. apply Permutation_refl.
  - injection H as <- <- <-. rewrite (iter_ok _ Hi _ _ 0 (begin_ok _ Hi)) by (unfold items; fold (contents (blocks st)); lia). cbn [skipn]. rewrite Hc.
    eexists _, []. split; [reflexivity|]. split; [exact Hs|]. split; [rewrite app_nil_r; reflexivity|]. intros _. apply Permutation_refl.
  - injection H as <- <- <-. destruct (end_ok (blocks st) (proj1 Hi)) as (b & c & _ & R & _). rewrite (iterBack_ok _ Hi _ _ _ _ _ _ R) by (unfold items; fold (contents (blocks st)); lia).
    rewrite firstn_all, Hc. eexists _, []. split; [reflexivity|]. split; [exact Hs|]. split; [rewrite app_nil_r; reflexivity|]. intros _. apply Permutation_refl.
  - injection H as <- <- <-. rewrite (readViews_ok _ Hi), Hc. eexists _, []. split; [reflexivity|]. split; [exact Hs|]. split; [rewrite app_nil_r; reflexivity|]. intros _. apply Permutation_refl.
  - destruct (Z.ltb_spec (sz * zlen l) (2 ^ 32)) as [Hsm|]; [|discriminate]. injection H as <- <- <-. rewrite moveToArray_ok; [|exact (proj1 Hi)|exact (proj1 (proj2 Hi))|unfold usedsum; rewrite Hc; exact Hsm].
    destruct create_ok as (q0 & -> & I0 & C0). rewrite Hc. eexists _, []. split; [reflexivity|]. split; [split; [exact I0|]; split; [exact C0|exact I]|].
    split; [cbn [gone]; rewrite app_nil_r; reflexivity|]. intros _. cbn [appended moved flat_map app]. apply Permutation_refl.
  - injection H as <- <- <-. destruct create_ok as (q0 & -> & I0 & C0). eexists _, l. split; [reflexivity|]. split; [split; [exact I0|]; split; [exact C0|exact I]|].
    split; [cbn [gone]; fold (contents (blocks st)); rewrite Hc; reflexivity|]. intros _. cbn [appended moved flat_map app]. rewrite !app_nil_r. apply Permutation_refl.
Qed.

Lemma run_ok os : forall st l m l' ys, sim st l m -> spec_run sz l m os = Some (l', ys) ->
  exists st' d, run sz blk st os = Some (st', ys) /\ contents (blocks st') = l' /\ gone st' = gone st ++ d /\
    (existsb truncates os = false -> Permutation (l ++ appended os) (d ++ l' ++ moved ys)).
Proof.
  induction os as [|o os IH]; intros st l m l' ys Hs H; cbn [spec_run] in H; cbn [run].
  - injection H as <- <-. exists st, []. split; [reflexivity|]. split; [exact (proj1 (proj2 Hs))|]. split; [rewrite app_nil_r; reflexivity|]. intros _. apply Permutation_refl.
  - destruct (spec_step sz l m o) as [((l1 & m1) & y)|] eqn:E1; [|discriminate]. destruct (spec_run sz l1 m1 os) as [(l2 & ys2)|] eqn:E2; [|discriminate]. injection H as <- <-.
    destruct (step_ok st l m o l1 m1 y Hs E1) as (st1 & d1 & -> & S1 & G1 & P1). destruct (IH st1 l1 m1 l2 ys2 S1 E2) as (st2 & d2 & -> & S2 & G2 & P2).
    exists st2, (d1 ++ d2). split; [reflexivity|]. split; [exact S2|]. split; [rewrite G2, G1, app_assoc; reflexivity|].
    cbn [existsb]. intros Q. apply orb_false_iff in Q. destruct Q as (Q1 & Q2). specialize (P1 Q1). specialize (P2 Q2).
    assert (A : appended (o :: os) = appended [o] ++ appended os) by (unfold appended; cbn [flat_map]; rewrite app_nil_r; reflexivity).
    assert (M : moved (y :: ys2) = moved [y] ++ moved ys2) by (unfold moved; cbn [flat_map]; rewrite app_nil_r; reflexivity).
    rewrite A, M. transitivity (d1 ++ (l1 ++ appended os) ++ moved [y]).
    + rewrite app_assoc, P1, <- !app_assoc. apply Permutation_app_head. apply Permutation_app_head. apply Permutation_app_comm.
    + rewrite P2, <- !app_assoc. apply Permutation_app_head. apply Permutation_app_head. apply Permutation_app_head. apply Permutation_app_comm.
Qed.

Lemma start_sim : exists st, start blk = Some st /\ sim st [] None /\ gone st = [].
Proof. destruct create_ok as (q & E & H & C). unfold start. rewrite E. eexists. split; [reflexivity|]. split; [split; [exact H|]; split; [exact C|exact I]|reflexivity]. Qed.

Theorem sequence (os : list (@op T)) l ys : spec_run sz [] None os = Some (l, ys) -> exists d, uses sz blk os = Some (ys, d).
Proof.
  intros H. destruct start_sim as (st & E & S & G). unfold uses. rewrite E. destruct (run_ok os st [] None l ys S H) as (st' & d & -> & _ & _ & _).
  eexists. reflexivity.
Qed.
Lemma spec_run_app (a : list (@op T)) : forall l m b l1 ys1, spec_run sz l m (a ++ b) = Some (l1, ys1) ->
  exists l0 m0 ys0 ys2, spec_run sz l m a = Some (l0, ys0) /\ spec_run sz l0 m0 b = Some (l1, ys2) /\ ys1 = ys0 ++ ys2.
Proof.
  induction a as [|o a IH]; intros l m b l1 ys1 H; cbn [app spec_run] in *.
  - exists l, m, [], ys1. auto.
  - destruct (spec_step sz l m o) as [((l2 & m2) & y)|]; [|discriminate]. destruct (spec_run sz l2 m2 (a ++ b)) as [(l3 & ys3)|] eqn:E; [|discriminate].
    injection H as -> <-. destruct (IH _ _ _ _ _ E) as (l0 & m0 & ys0 & ys2 & -> & H2 & ->). exists l0, m0, (y :: ys0), ys2. auto.
Qed.
Theorem lifetimes (os : list (@op T)) l ys d : spec_run sz [] None (os ++ [Clear]) = Some (l, ys) -> existsb truncates os = false ->
  uses sz blk (os ++ [Clear]) = Some (ys, d) -> Permutation (appended os) (d ++ moved ys).
Proof.
  intros H Q U. destruct start_sim as (st & E & S & G). unfold uses in U. rewrite E in U. destruct (run_ok _ st [] None l ys S H) as (st' & d' & R & C & Gd & P).
  rewrite R in U. injection U as <-. rewrite existsb_app, Q in P. specialize (P eq_refl). rewrite G in Gd. cbn [app] in Gd. subst d'.
  assert (l = []) as ->.
  { destruct (spec_run_app _ _ _ _ _ _ H) as (l0 & m0 & ys0 & ys2 & _ & H2 & _). cbn in H2. congruence. }
  cbn [app] in P. unfold appended in P at 1. rewrite flat_map_app in P. cbn [flat_map] in P. rewrite !app_nil_r in P. exact P.
Qed.
End Proofs.

(** Items larger than a block. *)
Theorem big_items_refuted {T} sz blk (x : T) : 100 < blk -> blk < sz ->
  uses sz blk [Append x; IsEmpty] = Some ([Done; Flag true], []) /\ uses sz blk [Append x; All] = None.
Proof.
  intros H1 H2. unfold uses, start, create, createBlock. replace (100 <? blk) with true by lia. cbn [run step blocks]. unfold append, beginWrite, unused, used. cbn [bitems bsize zlen length].
  unfold zlen at 1 2. cbn [length]. change (Z.of_nat 0) with 0. rewrite !Z.mul_0_r, !Z.sub_0_r. replace (blk <? sz) with true by lia.
  unfold appendBlock, createBlock. replace (100 <? Z.max blk sz) with true by lia. unfold endWrite, unused, used. cbn [bitems bsize]. unfold zlen. cbn [length].
  change (Z.of_nat 0) with 0. rewrite !Z.mul_0_r, !Z.sub_0_r. change (Z.of_nat 1) with 1. replace (sz * 1 <=? Z.max blk sz) with true by lia. cbn [app blocks mark gone].
  unfold isEmpty, fwd. cbn [rev app used]. unfold used, zlen. cbn [bitems length]. change (Z.of_nat 0) with 0. rewrite Z.mul_0_r. split; reflexivity.
Qed.

(** The count is taken from a 32-bit number of bytes. *)
Theorem count_wraps {T} sz blk (xs : list T) : 1 <= sz -> sz <= blk -> 100 < blk ->
  uses sz blk [AppendViews xs; Count] = Some ([Done; Num (sz * zlen xs mod 2 ^ 32 / sz)], []).
Proof.
  intros H1 H2 H3. unfold uses, start. assert (X : exists q, @create T blk = Some q /\ inv sz q /\ contents q = []) by (apply create_ok; assumption). destruct X as (q & -> & I & C). cbn [run step blocks].
  assert (X : exists q', appendViews sz blk (length xs) q xs = Some q' /\ inv sz q' /\ contents q' = contents q ++ xs /\ grown q q') by (apply appendViews_ok; auto).
  destruct X as (q' & -> & _ & C' & _). cbn [blocks mark gone].
  unfold numItems. rewrite total_ok by assumption. unfold usedsum. rewrite C', C. reflexivity.
Qed.
