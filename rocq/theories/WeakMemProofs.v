(* Lemmas about the release/acquire memory. *)
From Coq Require Import Lia Arith.
From Verif Require Export WeakMemModel.
Open Scope nat_scope.

Definition wfm (m : mem) : Prop := forall l, 1 <= length (m l).
Definition vle (v : view) (m : mem) : Prop := forall l, v l <= latest m l.
Definition tle (t : tview) (m : mem) : Prop := vle (vcur t) m /\ vle (vrel t) m /\ vle (vacq t) m.
Definition mle (m : mem) : Prop := forall l x, In x (m l) -> vle (mview x) m.
Definition last_msg (m : mem) (l : nat) : option msg := nth_error (m l) (latest m l).

Lemma vle_zero m : vle vzero m.
Proof. intros l. unfold vzero. lia. Qed.
Lemma vle_join v w m : vle v m -> vle w m -> vle (vjoin v w) m.
Proof. intros A B l. specialize (A l). specialize (B l). unfold vjoin. lia. Qed.
Lemma vle_set v m l ts : vle v m -> ts <= latest m l -> vle (vset v l ts) m.
Proof. intros A B x. unfold vset. specialize (A x). destruct (Nat.eqb_spec x l); subst; lia. Qed.
Lemma madd_same m l x : madd m l x l = m l ++ [x].
Proof. unfold madd. rewrite Nat.eqb_refl. reflexivity. Qed.
Lemma madd_other m l l' x : l' <> l -> madd m l x l' = m l'.
Proof. intros H. unfold madd. destruct (Nat.eqb_spec l' l); [contradiction|reflexivity]. Qed.
Lemma latest_same m l x : wfm m -> latest (madd m l x) l = S (latest m l).
Proof. intros W. specialize (W l). unfold latest. rewrite madd_same, app_length. cbn [length]. lia. Qed.
Lemma latest_len m l : wfm m -> length (m l) = S (latest m l).
Proof. intros W. specialize (W l). unfold latest. lia. Qed.
Lemma latest_other m l l' x : l' <> l -> latest (madd m l x) l' = latest m l'.
Proof. intros H. unfold latest. rewrite madd_other by assumption. reflexivity. Qed.
Lemma latest_madd m l l' x : latest m l' <= latest (madd m l x) l'.
Proof. unfold latest, madd. destruct (l' =? l); rewrite ?app_length; lia. Qed.
Lemma vle_madd v m l x : vle v m -> vle v (madd m l x).
Proof. intros A y. pose proof (A y). pose proof (latest_madd m l y x). lia. Qed.
Lemma tle_madd t m l x : tle t m -> tle t (madd m l x).
Proof. intros (A & B & C). split; [|split]; apply vle_madd; assumption. Qed.
Lemma wfm_madd m l x : wfm m -> wfm (madd m l x).
Proof. intros W y. specialize (W y). unfold madd. destruct (y =? l); rewrite ?app_length; lia. Qed.
Lemma mle_madd m l x : mle m -> vle (mview x) (madd m l x) -> mle (madd m l x).
Proof.
  intros M V y z. unfold madd at 1. destruct (Nat.eqb_spec y l) as [->|H].
  - intros Hz. apply in_app_iff in Hz. destruct Hz as [Hz|[<-|[]]]; [apply vle_madd; exact (M _ _ Hz)|exact V].
  - intros Hz. apply vle_madd. exact (M _ _ Hz).
Qed.
Lemma last_same m l x : wfm m -> last_msg (madd m l x) l = Some x.
Proof.
  intros W. unfold last_msg. rewrite latest_same by assumption. rewrite madd_same.
  rewrite nth_error_app2 by (rewrite latest_len; auto). rewrite latest_len by assumption. rewrite Nat.sub_diag. reflexivity.
Qed.
Lemma last_other m l l' x : l' <> l -> last_msg (madd m l x) l' = last_msg m l'.
Proof. intros H. unfold last_msg. rewrite latest_other, madd_other by assumption. reflexivity. Qed.
Lemma last_some m l : wfm m -> exists x, last_msg m l = Some x /\ In x (m l).
Proof.
  intros W. unfold last_msg. destruct (nth_error (m l) (latest m l)) as [x|] eqn:E.
  - exists x. split; [reflexivity|]. apply nth_error_In in E. exact E.
  - apply nth_error_None in E. rewrite latest_len in E by assumption. lia.
Qed.
Lemma wfm0 : wfm mem0.
Proof. intros l. cbn. lia. Qed.
Lemma mle0 : mle mem0.
Proof. intros l x [<-|[]]. apply vle_zero. Qed.
Lemma tle0 m : tle tv0 m.
Proof. split; [|split]; apply vle_zero. Qed.

Lemma seen_le o t m l ts x : tle t m -> mle m -> nth_error (m l) ts = Some x -> tle (seen o t l ts x) m.
Proof.
  intros (A & B & C) M E. assert (L : ts <= latest m l) by (unfold latest; assert (ts < length (m l)) by (apply nth_error_Some; congruence); lia).
  pose proof (M l x (nth_error_In _ _ E)) as V. unfold seen. split; [|split]; cbn [vcur vrel vacq].
  - destruct (is_acquire o); [apply vle_join; [apply vle_set; assumption|exact V]|apply vle_set; assumption].
  - exact B.
  - apply vle_join; [apply vle_set; assumption|exact V].
Qed.
(** Views only grow. *)
Lemma seen_grows o t l ts x l' : vcur t l' <= vcur (seen o t l ts x) l'.
Proof. unfold seen. cbn [vcur]. destruct (is_acquire o); unfold vjoin, vset; destruct (l' =? l); lia. Qed.
Lemma seen_at o t l ts x : ts <= vcur (seen o t l ts x) l.
Proof. unfold seen. cbn [vcur]. destruct (is_acquire o); unfold vjoin, vset; rewrite Nat.eqb_refl; lia. Qed.
Lemma seen_msg t l ts x l' : mview x l' <= vcur (seen Acquire t l ts x) l'.
Proof. unfold seen. cbn [vcur is_acquire]. unfold vjoin. lia. Qed.
Lemma wrote_grows t l ts l' : vcur t l' <= vcur (wrote t l ts) l'.
Proof. unfold wrote, vset. cbn [vcur]. destruct (l' =? l); lia. Qed.
Lemma wrote_at t l ts : ts <= vcur (wrote t l ts) l.
Proof. unfold wrote, vset. cbn [vcur]. rewrite Nat.eqb_refl. lia. Qed.
Lemma wrote_le t m l x : wfm m -> tle t m -> tle (wrote t l (length (m l))) (madd m l x).
Proof.
  intros W (A & B & C). split; [|split]; cbn [wrote vcur vrel vacq].
  - apply vle_set; [apply vle_madd; exact A|]. rewrite latest_same, latest_len by assumption. lia.
  - apply vle_madd. exact B.
  - apply vle_set; [apply vle_madd; exact C|]. rewrite latest_same, latest_len by assumption. lia.
Qed.
Lemma publish_le o t m l x : wfm m -> tle t m -> vle (publish o t l (length (m l))) (madd m l x).
Proof.
  intros W (A & B & C). unfold publish. apply vle_set; [|rewrite latest_same, latest_len by assumption; lia].
  apply vle_madd. destruct (is_release o); assumption.
Qed.
Lemma publish_release t l ts l' : vcur t l' <= publish Release t l ts l'.
Proof. unfold publish, vset. cbn [is_release]. destruct (l' =? l); lia. Qed.

(** One lemma per kind of access. *)
Lemma load_inv o m t l ts v t' : load o m t l ts = Some (v, t') -> tle t m -> mle m ->
  exists x, nth_error (m l) ts = Some x /\ v = val x /\ t' = seen o t l ts x /\ vcur t l <= ts /\ tle t' m /\ (forall l', vcur t l' <= vcur t' l').
Proof.
  unfold load. destruct (Nat.ltb_spec ts (vcur t l)); [discriminate|]. destruct (nth_error (m l) ts) as [x|] eqn:E; [|discriminate].
  intros Q T M. injection Q as <- <-. exists x. do 4 (split; [auto|]). split; [apply (seen_le o t m l ts x T M E)|]. intros l'. apply seen_grows.
Qed.
Lemma store_inv o m t l v m' t' : store o m t l v = (m', t') -> wfm m -> tle t m -> mle m ->
  m' = madd m l (mkmsg v (publish o t l (length (m l)))) /\ t' = wrote t l (length (m l)) /\ wfm m' /\ mle m' /\ tle t' m' /\
  (forall l', vcur t l' <= vcur t' l') /\ vcur t' l = latest m' l.
Proof.
  unfold store. cbv zeta. intros Q W T M. injection Q as <- <-. repeat (split; [reflexivity|]).
  split; [apply wfm_madd; exact W|]. split; [apply mle_madd; [exact M|cbn [mview]; apply publish_le; assumption]|].
  pose proof (wrote_le t m l (mkmsg v (publish o t l (length (m l)))) W T) as (L1 & L2 & L3). split; [split; [|split]; assumption|].
  split; [intros l'; apply wrote_grows|]. apply Nat.le_antisymm; [apply L1|]. rewrite latest_same, <- latest_len by assumption. apply wrote_at.
Qed.
Lemma rmw_inv o m t l f v m' t' : rmw o m t l f = Some (v, m', t') -> wfm m -> tle t m -> mle m ->
  exists x, last_msg m l = Some x /\ v = val x /\
  m' = madd m l (mkmsg (f v) (vjoin (mview x) (publish o (seen o t l (latest m l) x) l (length (m l))))) /\
  wfm m' /\ mle m' /\ tle t' m' /\ (forall l', vcur t l' <= vcur t' l') /\ (o = Acquire -> forall l', mview x l' <= vcur t' l') /\ vcur t' l = latest m' l.
Proof.
  unfold rmw. intros Q W T M. fold (last_msg m l) in Q. destruct (last_msg m l) as [x|] eqn:E; [|discriminate]. cbv zeta in Q. injection Q as <- <- <-.
  exists x. repeat (split; [reflexivity|]). pose proof (seen_le o t m l (latest m l) x T M E) as T1.
  assert (V : vle (mview x) m) by (apply (M l); apply nth_error_In in E; exact E).
  split; [apply wfm_madd; exact W|]. split; [apply mle_madd; [exact M|]; cbn [mview]; apply vle_join; [apply vle_madd; exact V|apply publish_le; assumption]|].
  match goal with |- tle _ (madd m l ?y) /\ _ => pose proof (wrote_le (seen o t l (latest m l) x) m l y W T1) as (L1 & L2 & L3) end.
  split; [split; [|split]; assumption|]. split.
  - intros l'. eapply Nat.le_trans; [apply (seen_grows o t l (latest m l) x)|apply wrote_grows].
  - split; [|apply Nat.le_antisymm; [apply L1|]; rewrite latest_same, <- latest_len by assumption; apply wrote_at].
    intros -> l'. eapply Nat.le_trans; [apply (seen_msg t l (latest m l) x)|apply wrote_grows].
Qed.
Lemma touch_inv m t l f v m' t' : touch m t l f = Some (v, m', t') -> wfm m -> tle t m -> mle m ->
  exists x, last_msg m l = Some x /\ v = val x /\ vcur t l = latest m l /\ m' = madd m l (mkmsg (f v) vzero) /\ wfm m' /\ mle m' /\ tle t' m' /\
  (forall l', vcur t l' <= vcur t' l') /\ vcur t' l = latest m' l.
Proof.
  unfold touch. fold (last_msg m l). intros Q W T M. destruct (Nat.eqb_spec (vcur t l) (latest m l)) as [El|]; [|discriminate].
  destruct (last_msg m l) as [x|] eqn:E; [|discriminate]. injection Q as <- <- <-. exists x. do 4 (split; [auto|]).
  split; [apply wfm_madd; exact W|]. split; [apply mle_madd; [exact M|apply vle_zero]|].
  pose proof (wrote_le t m l (mkmsg (f (val x)) vzero) W T) as (L1 & L2 & L3).
  split; [split; [|split]; assumption|]. split; [intros l'; apply wrote_grows|].
  apply Nat.le_antisymm; [apply L1|]. rewrite latest_same, <- latest_len by assumption. apply wrote_at.
Qed.
Lemma touch_some m t l f : wfm m -> vcur t l = latest m l -> exists v m' t', touch m t l f = Some (v, m', t').
Proof.
  intros W E. unfold touch. rewrite E, Nat.eqb_refl. fold (last_msg m l). destruct (last_some m l W) as (x & -> & _). eauto.
Qed.
