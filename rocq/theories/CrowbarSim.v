(* The simulation, continued: statements, loops, calls and whole scripts. *)
From Coq Require Import Lia ZifyBool ZifyNat.
From Verif Require Import CrowbarModel CrowbarSpec CrowbarProofs CrowbarRun.
Local Open Scope nat_scope.

(** The objects of a frame stay where they are; new ones come on top. *)
Definition keeps (n0 : nat) (F F' : list (nat * value)) : Prop :=
  exists L G, F' = L ++ G /\ map fst G = map fst F /\ Forall (fun o => n0 <= fst o) L.

Lemma keeps_refl n0 F : keeps n0 F F.
Proof. exists [], F. auto. Qed.
Lemma ids_split (G L M : list (nat * value)) a b : map fst G = a ++ b -> exists G1 G2, G = G1 ++ G2 /\ map fst G1 = a /\ map fst G2 = b.
Proof.
  revert G. induction a as [|x a IH]; intros G H; cbn in H.
  - exists [], G. auto.
  - destruct G as [|g G]; [discriminate|]. cbn in H. injection H as Hx H.
    apply IH in H. destruct H as (G1 & G2 & -> & <- & <-). exists (g :: G1), G2. cbn. subst x. auto.
Qed.
Lemma keeps_trans n0 n1 F F' F'' : keeps n0 F F' -> keeps n1 F' F'' -> n0 <= n1 -> keeps n0 F F''.
Proof.
  intros (L & G & -> & E & A) (L2 & G2 & -> & E2 & A2) Le. rewrite map_app in E2.
  destruct (ids_split G2 [] [] _ _ E2) as (H1 & H2 & -> & E3 & E4).
  exists (L2 ++ H1), H2. rewrite <- app_assoc. repeat split; auto; [congruence|].
  apply Forall_app. split.
  - eapply Forall_impl; [|exact A2]. cbn. intros. lia.
  - rewrite Forall_forall in A |- *. intros o I. apply (in_map fst) in I. rewrite E3 in I.
    apply in_map_iff in I. destruct I as (o' & Eo & I). apply A in I. congruence.
Qed.
Lemma keeps_length n0 F F' : keeps n0 F F' -> length F <= length F'.
Proof.
  intros (L & G & -> & E & _). rewrite app_length. apply (f_equal (@length nat)) in E.
  rewrite !map_length in E. lia.
Qed.

Lemma ids_length (G F : list (nat * value)) : map fst G = map fst F -> length G = length F.
Proof. intros E. apply (f_equal (@length nat)) in E. rewrite !map_length in E. exact E. Qed.

(** ** Variables *)
Lemma reserved_ne x n : reserved x = false -> reserved n = true -> bytes_eqb x n = false.
Proof. intros A B. apply bytes_eqb_false. congruence. Qed.

Lemma inv_new s fr st x v id : Inv s fr st -> reserved x = false -> vok v ->
  (forall n, findVar n fr <> Some (RObj id)) -> findObj id (stk st) = Some v ->
  Inv (assign x v s) (setVar x (RObj id) fr) st.
Proof.
  intros (A & B & C) R V N F. repeat split.
  - intros n. unfold assign. rewrite findVar_setVar. destruct (bytes_eqb x n).
    + split; auto. exists id. auto.
    + apply A.
  - intros n m i. rewrite !findVar_setVar.
    destruct (bytes_eqb x n) eqn:E1, (bytes_eqb x m) eqn:E2; intros H K.
    + apply bytes_eqb_true in E1, E2. congruence.
    + injection H as <-. exfalso. apply (N m). exact K.
    + injection K as <-. exfalso. apply (N n). exact H.
    + eapply B; eauto.
  - intros n H. unfold assign. rewrite (reserved_ne x n R H). auto.
Qed.

Lemma inF_new fr F x id : inF fr F -> In id (map fst F) -> inF (setVar x (RObj id) fr) F.
Proof.
  intros A B n i. rewrite findVar_setVar. destruct (bytes_eqb x n); [|apply A].
  intros H. injection H as <-. exact B.
Qed.

Lemma inv_params ps : forall vs ids s fr st F, Inv s fr st -> inF fr F -> length ids = length vs -> NoDup ids -> Forall vok vs ->
  (forall i v, nth_error vs i = Some v -> exists id, nth_error ids i = Some id /\ findObj id (stk st) = Some v) ->
  (forall id, In id ids -> In id (map fst F)) -> (forall id n, In id ids -> findVar n fr <> Some (RObj id)) ->
  forallb (fun p => negb (reserved p)) ps = true ->
  Inv (bound ps vs s) (bindParams ps ids fr) st /\ inF (bindParams ps ids fr) F.
Proof.
  induction ps as [|p ps IH]; intros vs ids s fr st F V IF L ND OK N IN NI P; [destruct vs; destruct ids; auto|].
  destruct vs as [|v vs], ids as [|id ids]; try discriminate; [auto|].
  cbn [bound bindParams]. cbn [forallb] in P. apply andb_true_iff in P. destruct P as [Pp P].
  apply negb_true_iff in Pp. inversion ND as [|? ? Nin ND']; subst. inversion OK as [|? ? Ov OK']; subst.
  destruct (N 0 v eq_refl) as (id' & E & Fv). cbn in E. injection E as <-.
  apply IH; auto.
  - apply inv_new; auto. intros n. apply NI. cbn; auto.
  - apply inF_new; auto. apply IN. cbn. auto.
  - intros i w H. apply (N (S i) w). exact H.
  - intros i H. apply IN. cbn. auto.
  - intros i n H. rewrite findVar_setVar. destruct (bytes_eqb p n).
    + intros C. injection C as ->. contradiction.
    + apply NI. cbn. auto.
Qed.

(** ** Leaving a function *)
Lemma leave_next n0 F F' B st : keeps n0 F F' -> stk st = F' ++ B -> ret st = None ->
  exists G, leaveFunction (length (F ++ B)) st = Done (St (G ++ B) (nxt st) (out st) None) /\ map fst G = map fst F.
Proof.
  intros (L & G & -> & E & _) S R. exists G. split; auto.
  unfold leaveFunction, onTop. rewrite R. rewrite andb_comm.
  assert (D : deleteAll (length (F ++ B)) st = Done (St (G ++ B) (nxt st) (out st) None)).
  { rewrite (deleteAll_app _ st L (G ++ B)).
    - rewrite R. reflexivity.
    - rewrite S, app_assoc. reflexivity.
    - rewrite !app_length, (ids_length _ _ E). reflexivity. }
  destruct (stk st) as [|[i w] rest]; exact D.
Qed.

Lemma leave_returned fns n0 F F' B st T m : keeps n0 F F' -> stk st = T ++ F' ++ B -> wf st -> n0 <= nxt st ->
  Forall (fun o => n0 <= fst o) T -> stands fns st (ret st) m -> handed (ret st) T ->
  exists G T2 st2, leaveFunction (length (F ++ B)) st = Done st2 /\ map fst G = map fst F /\
    stk st2 = T2 ++ G ++ B /\ Forall (fun o => n0 <= fst o) T2 /\ wf st2 /\ nxt st <= nxt st2 /\
    out st2 = out st /\ stands fns st2 (ret st2) m /\ handed (ret st2) (T2 ++ G).
Proof.
  intros (L & G & -> & E & A) S W N0 AT Sd H.
  assert (LG : length (G ++ B) = length (F ++ B)) by (rewrite !app_length, (ids_length _ _ E); reflexivity).
  assert (K : (forall id, ret st <> Some (RObj id)) -> leaveFunction (length (F ++ B)) st =
      Done (St (G ++ B) (nxt st) (out st) (ret st)) /\
    stands fns (St (G ++ B) (nxt st) (out st) (ret st)) (ret st) m /\ wf (St (G ++ B) (nxt st) (out st) (ret st)) /\
    handed (ret st) ([] ++ G)).
  { intros NR.
    assert (D : deleteAll (length (F ++ B)) st = Done (St (G ++ B) (nxt st) (out st) (ret st))).
    { apply (deleteAll_app _ st (T ++ L) (G ++ B)); auto. rewrite S, <- !app_assoc. reflexivity. }
    split; [|split; [|split]].
    - unfold leaveFunction. assert (OT : onTop st = false).
      { unfold onTop. destruct (stk st) as [|[i w] rest]; auto. destruct (ret st) as [[j| | | |]|]; auto.
        exfalso. apply (NR j). reflexivity. }
      rewrite OT, andb_comm. exact D.
    - destruct m as [w|f| |]; auto. destruct Sd as (x & Ex & Vx & Ok). exists x. split; auto. split; auto.
      destruct x; auto. exfalso. eapply NR. exact Ex.
    - unfold wf in *. cbn. rewrite S in W. apply Forall_app in W. destruct W as [_ W]. rewrite <- app_assoc in W.
      apply Forall_app in W. apply W.
    - destruct (ret st) as [[j| | | |]|]; cbn; auto. exfalso. apply (NR j). reflexivity. }
  exists G.
  destruct (ret st) as [[id|v|b|f|]|] eqn:R.
  - destruct H as (v & T' & ->).
    assert (S' : stk st = (id, v) :: (T' ++ L) ++ G ++ B) by (rewrite S, <- !app_assoc; reflexivity).
    assert (OT : onTop st = true) by (unfold onTop; rewrite S', R; apply Nat.eqb_refl).
    unfold leaveFunction. rewrite OT.
    assert (NE : (length (F ++ B) =? length (stk st)) = false).
    { apply Nat.eqb_neq. rewrite S', <- LG. cbn. rewrite (app_length (T' ++ L)). lia. }
    rewrite NE. cbn [negb andb].
    destruct (deleteBelowTop_app (length (F ++ B)) st id v (T' ++ L) (G ++ B) S' LG) as (id' & m' & -> & Le & C).
    cbn [bind stk]. exists [(id', v)]. eexists. split; [reflexivity|]. split; auto.
    assert (W' : Forall (fun o => fst o < nxt st) ((id, v) :: G ++ B)).
    { unfold wf in W. rewrite S' in W. inversion W as [|? ? W1 W2]; subst. constructor; auto.
      apply Forall_app in W2. apply W2. }
    cbn. split; [reflexivity|]. split.
    { constructor; auto. cbn. inversion AT; subst. cbn in *. destruct C as [[-> ->]|[-> ->]]; lia. }
    split.
    { unfold wf. cbn. inversion W' as [|? ? W1 W2]; subst. cbn in W1.
      constructor; cbn; [destruct C as [[-> ->]|[-> ->]]; lia|].
      eapply Forall_impl; [|exact W2]. cbn. intros. lia. }
    split; [exact Le|]. split; [reflexivity|]. split; [|exists v, G; reflexivity].
    destruct m as [w|f| |]; cbn in Sd |- *; try discriminate Sd.
    + destruct Sd as (x & Ex & Vx & Ok). injection Ex as <-. exists (RObj id'). split; auto. split; auto.
      cbn in Vx |- *. rewrite S' in Vx. cbn in Vx. rewrite Nat.eqb_refl in Vx. rewrite Nat.eqb_refl. exact Vx.
    + destruct Sd as [C0 _]. discriminate.
  - destruct K as (K1 & K2 & K3 & K4); [intros id C; discriminate|].
    exists [], (St (G ++ B) (nxt st) (out st) (Some (RLit v))). cbn [nxt out stk ret]. repeat split; auto.
  - destruct K as (K1 & K2 & K3 & K4); [intros id C; discriminate|].
    exists [], (St (G ++ B) (nxt st) (out st) (Some (RConst b))). cbn [nxt out stk ret]. repeat split; auto.
  - destruct K as (K1 & K2 & K3 & K4); [intros id C; discriminate|].
    exists [], (St (G ++ B) (nxt st) (out st) (Some (RFn f))). cbn [nxt out stk ret]. repeat split; auto.
  - destruct K as (K1 & K2 & K3 & K4); [intros id C; discriminate|].
    exists [], (St (G ++ B) (nxt st) (out st) (Some RPrint)). cbn [nxt out stk ret]. repeat split; auto.
  - destruct K as (K1 & K2 & K3 & K4); [intros id C; discriminate|].
    exists [], (St (G ++ B) (nxt st) (out st) None). cbn [nxt out stk ret]. repeat split; auto.
Qed.
