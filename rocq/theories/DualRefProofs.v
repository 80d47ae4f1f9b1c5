(* Proofs about DualRefModel (C47). *)
From Coq Require Import Lia ZifyBool ZifyNat.
From Verif Require Import RefCountProofs DualRefModel DualRefSpec.
Open Scope nat_scope.

Definition ssum (l : list wthr) : Z := zsum (fun th => Z.of_nat (strong th)) l.
Definition wsum (l : list wthr) : Z := zsum (fun th => Z.of_nat (weak th)) l.
Definition psum (l : list wthr) : Z := zsum (fun th => match inpart th with Some _ => 1 | None => 0 end)%Z l.
Definition asum (l : list wthr) : Z := zsum (fun th => match inpart th with Some true => 1 | _ => 0 end)%Z l.

(** What was logged, from the sums. *)
Inductive phase : Z -> Z -> Z -> Z -> list event -> Prop :=
| ph_alive S W : (0 < S)%Z -> phase S W 0 0 []
| ph_partial W : (0 < W)%Z -> phase 0 W 1 0 [PartialBegins]
| ph_alone : phase 0 0 1 1 [PartialBegins]
| ph_overtaken : phase 0 0 1 0 [PartialBegins; Full]
| ph_over W : (0 < W)%Z -> phase 0 W 0 0 [PartialBegins; PartialEnds]
| ph_end : phase 0 0 0 0 [PartialBegins; PartialEnds; Full]
| ph_end' : phase 0 0 0 0 [PartialBegins; Full; PartialEnds].

Record winv (s : wst) : Prop := mkwinv {
  w_dual : dual s = (ssum (wths s) + 65536 * wsum (wths s))%Z;
  w_small : (ssum (wths s) <= 32767 /\ wsum (wths s) <= 32767)%Z;
  w_phase : phase (ssum (wths s)) (wsum (wths s)) (psum (wths s)) (asum (wths s)) (log s) }.

Lemma sums_nonneg l : (0 <= ssum l /\ 0 <= wsum l /\ 0 <= asum l <= psum l)%Z.
Proof.
  split; [apply zsum_nonneg; intros; lia|]. split; [apply zsum_nonneg; intros; lia|]. split; [apply zsum_nonneg; intros th _; destruct (inpart th) as [[]|]; lia|].
  unfold asum, psum. induction l as [|th l IH]; [cbn; lia|]. rewrite !zsum_cons. destruct (inpart th) as [[]|]; lia.
Qed.
Lemma sums_ge l t th : nth_error l t = Some th -> (Z.of_nat (strong th) <= ssum l /\ Z.of_nat (weak th) <= wsum l)%Z.
Proof.
  intros H. apply nth_error_In in H. split; [apply (zsum_ge (fun th => Z.of_nat (strong th)) l th)|apply (zsum_ge (fun th => Z.of_nat (weak th)) l th)]; auto; intros; lia.
Qed.
Lemma part_ge l t th b : nth_error l t = Some th -> inpart th = Some b -> (1 <= psum l /\ (if b then 1 <= asum l else asum l < psum l))%Z.
Proof.
  intros H E. split.
  - pose proof (zsum_ge (fun th => match inpart th with Some _ => 1 | None => 0 end)%Z l th) as G. cbv beta in G. rewrite E in G. apply G; [intros y _; destruct (inpart y); lia|eapply nth_error_In; exact H].
  - destruct b.
    + pose proof (zsum_ge (fun th => match inpart th with Some true => 1 | _ => 0 end)%Z l th) as G. cbv beta in G. rewrite E in G. apply G; [intros y _; destruct (inpart y) as [[]|]; lia|eapply nth_error_In; exact H].
    + apply nth_error_In, in_split in H. destruct H as (l1 & l2 & ->). unfold psum, asum. rewrite !zsum_app, !zsum_cons, E. pose proof (sums_nonneg l1) as (_ & _ & A). pose proof (sums_nonneg l2) as (_ & _ & B). unfold asum, psum in *. lia.
Qed.
Lemma upd_sums l t a b p x : nth_error l t = Some (mkw a b p) ->
  ssum (upd l t x) = (ssum l - Z.of_nat a + Z.of_nat (strong x))%Z /\ wsum (upd l t x) = (wsum l - Z.of_nat b + Z.of_nat (weak x))%Z /\
  psum (upd l t x) = (psum l - (match p with Some _ => 1 | None => 0 end) + (match inpart x with Some _ => 1 | None => 0 end))%Z /\
  asum (upd l t x) = (asum l - (match p with Some true => 1 | _ => 0 end) + (match inpart x with Some true => 1 | _ => 0 end))%Z.
Proof. intros H. unfold ssum, wsum, psum, asum. rewrite !(zsum_upd _ l t x _ H). cbn [strong weak inpart]. auto. Qed.

Lemma low_dual S W : (0 <= S <= 32767 -> 0 <= W <= 32767 -> low (S + 65536 * W) = S)%Z.
Proof. intros HS HW. unfold low. change 65535%Z with (Z.ones 16). rewrite Z.land_ones by lia. change (2 ^ 16)%Z with 65536%Z. rewrite Z.mul_comm, Z.mod_add by lia. apply Z.mod_small. lia. Qed.
Lemma high_dual S W : (0 <= S <= 32767 -> 0 <= W <= 32767 -> high (S + 65536 * W) = W)%Z.
Proof. intros HS HW. unfold high. rewrite Z.shiftr_div_pow2 by lia. change (2 ^ 16)%Z with 65536%Z. rewrite Z.mul_comm, Z.div_add by lia. rewrite Z.div_small by lia. lia. Qed.
Lemma u32_dual S W : (0 <= S <= 32768 -> 0 <= W <= 32768 -> u32 (S + 65536 * W) = S + 65536 * W)%Z.
Proof. intros HS HW. unfold u32. apply Z.mod_small. lia. Qed.

Lemma wstep_ok s t m : winv s -> m <> Upgrade -> m <> CopyWeak -> match wstep s t m with WMoved s' => winv s' | WAssert => False | _ => True end.
Proof.
  intros [D Sm Ph] Nu Nc. unfold wstep. destruct (nth_error (wths s) t) as [[a b p]|] eqn:Ht; [|exact I]. cbv zeta.
  pose proof (sums_nonneg (wths s)) as (P1 & P2 & P3). destruct (sums_ge _ _ _ Ht) as (G1 & G2). cbn [strong weak] in G1, G2.
  assert (Lo : low (dual s) = ssum (wths s)) by (rewrite D; apply low_dual; lia). assert (Hi : high (dual s) = wsum (wths s)) by (rewrite D; apply high_dual; lia).
  pose proof (fun x => upd_sums (wths s) t a b p x Ht) as U.
  assert (Inc : forall x d e, d = (ssum (upd (wths s) t x) + 65536 * wsum (upd (wths s) t x))%Z -> (ssum (upd (wths s) t x) <= 32767 /\ wsum (upd (wths s) t x) <= 32767)%Z ->
     phase (ssum (upd (wths s) t x)) (wsum (upd (wths s) t x)) (psum (upd (wths s) t x)) (asum (upd (wths s) t x)) (log s ++ e) -> winv (mks (u32 d) (upd (wths s) t x) (log s ++ e))).
  { intros x d e Ed Es Ep. pose proof (sums_nonneg (upd (wths s) t x)) as (Q1 & Q2 & _). constructor; cbn [dual wths log]; auto. rewrite Ed. apply u32_dual; lia. }
  rewrite !Lo, !Hi.
  assert (DecW : b <> 0 -> forall p', p' = p ->
     match (if (wsum (wths s) <=? 0)%Z then WAssert else if (32767 <=? wsum (wths s))%Z then WLimit else
       WMoved (mks (u32 (dual s - 65536)) (upd (wths s) t (mkw a (b - 1) p')) (log s ++ (if (wsum (wths s) =? 1)%Z && (dual s =? 65536)%Z then [Full] else [])))) with WMoved s' => winv s' | WAssert => False | _ => True end).
  { intros Nb p' ->. destruct (Z.leb_spec (wsum (wths s)) 0); [lia|]. destruct (Z.leb_spec 32767 (wsum (wths s))); [exact I|].
    destruct (U (mkw a (b - 1) p)) as (U1 & U2 & U3 & U4). cbn [strong weak inpart] in *. apply Inc; [lia|lia|]. rewrite U1, U2, U3, U4.
    replace (ssum (wths s) - Z.of_nat a + Z.of_nat a)%Z with (ssum (wths s)) by lia. replace (wsum (wths s) - Z.of_nat b + Z.of_nat (b - 1))%Z with (wsum (wths s) - 1)%Z by lia.
    rewrite Z.sub_add, Z.sub_add. destruct ((wsum (wths s) =? 1)%Z && (dual s =? 65536)%Z) eqn:E.
    - assert (wsum (wths s) = 1%Z /\ ssum (wths s) = 0%Z) as (E1 & E2) by lia. rewrite E1, E2 in *. inversion Ph as [S W HS|W HW| | |W HW| |]; subst; try lia; cbn [app Z.sub Z.add Z.opp]; constructor.
    - assert (wsum (wths s) <> 1 \/ ssum (wths s) <> 0)%Z by lia. rewrite app_nil_r. inversion Ph as [S W HS|W HW| | |W HW| |]; subst; try lia; constructor; lia. }
  destruct p as [alone|].
  - destruct m; try exact I.
    + (* DecWeak inside the callback *) destruct (Nat.eqb_spec b 0); [exact I|]. apply DecW; auto.
    + (* Finish *)
      destruct (U (mkw a b None)) as (U1 & U2 & U3 & U4). cbn [strong weak inpart] in *. apply Inc; [lia|lia|]. rewrite U1, U2, U3, U4.
      rewrite ?Z.sub_add, ?Z.add_0_r. destruct (part_ge _ _ _ alone Ht eq_refl) as (K1 & K2).
      inversion Ph as [S W HS|W HW E1 E2 E3 E4|E1 E2 E3 E4|E1 E2 E3 E4|W HW| |]; subst; try (exfalso; lia); destruct alone; try (exfalso; lia); cbn [app]; constructor; assumption.
  - destruct m; try contradiction.
    + (* IncRef *)
      destruct (Nat.eqb_spec a 0); [exact I|]. destruct (Z.leb_spec 32767 (ssum (wths s))); [exact I|].
      destruct (U (mkw (S a) b None)) as (U1 & U2 & U3 & U4). cbn [strong weak inpart] in *. apply Inc; [lia|lia|]. rewrite U1, U2, U3, U4, app_nil_r, ?Z.sub_add, ?Z.sub_0_r, ?Z.add_0_r.
      inversion Ph as [S W HS E1 E2 E3 E4| | | | | |]; subst; try lia. constructor. lia.
    + (* DecRef *)
      destruct (Nat.eqb_spec a 0); [exact I|]. destruct (Z.leb_spec (ssum (wths s)) 0); [lia|]. destruct (Z.leb_spec 32767 (ssum (wths s))); [exact I|].
      destruct (Z.eqb_spec (ssum (wths s)) 1) as [E1|N1].
      * destruct (U (mkw (a - 1) b (Some (dual s =? 1)%Z))) as (U1 & U2 & U3 & U4). cbn [strong weak inpart] in *. apply Inc; [lia|lia|]. rewrite U1, U2, U3, U4.
        inversion Ph as [S W HS E2 E3 E4 E5| | | | | |]; subst; try lia. cbn [app]. replace (ssum (wths s) - Z.of_nat a + Z.of_nat (a - 1))%Z with 0%Z by lia. rewrite Z.sub_add.
        destruct (Z.eqb_spec (dual s) 1) as [Ed|Nd].
        -- assert (wsum (wths s) = 0%Z) as -> by lia. constructor.
        -- cbn. constructor. lia.
      * destruct (U (mkw (a - 1) b None)) as (U1 & U2 & U3 & U4). cbn [strong weak inpart] in *. apply Inc; [lia|lia|]. rewrite U1, U2, U3, U4, app_nil_r, ?Z.sub_add, ?Z.sub_0_r, ?Z.add_0_r.
        inversion Ph as [S W HS E2 E3 E4 E5| | | | | |]; subst; try lia. constructor. lia.
    + (* IncWeak *)
      destruct (Nat.eqb_spec a 0); [exact I|]. destruct (Z.leb_spec (ssum (wths s)) 0); [lia|]. destruct (Z.leb_spec 32767 (wsum (wths s))); [exact I|].
      destruct (U (mkw a (S b) None)) as (U1 & U2 & U3 & U4). cbn [strong weak inpart] in *. apply Inc; [lia|lia|]. rewrite U1, U2, U3, U4, app_nil_r, ?Z.sub_add, ?Z.sub_0_r, ?Z.add_0_r.
      inversion Ph as [S W HS E2 E3 E4 E5| | | | | |]; subst; try lia. constructor. lia.
    + (* DecWeak *) destruct (Nat.eqb_spec b 0); [exact I|]. apply DecW; auto.
    + (* GiveStrong *)
      destruct (Nat.eqb_spec a 0); [exact I|]. destruct (nth_error (wths s) u) as [[c d q]|] eqn:Hu; [|exact I]. destruct (Nat.eqb_spec t u) as [|Ntu]; [exact I|].
      assert (Hu2 : nth_error (upd (wths s) t (mkw (a - 1) b None)) u = Some (mkw c d q)) by (rewrite nth_upd_ne by exact Ntu; exact Hu).
      destruct (U (mkw (a - 1) b None)) as (U1 & U2 & U3 & U4). destruct (upd_sums _ u c d q (mkw (S c) d q) Hu2) as (V1 & V2 & V3 & V4). cbn [strong weak inpart] in *.
      assert (Q1 : ssum (upd (upd (wths s) t (mkw (a - 1) b None)) u (mkw (S c) d q)) = ssum (wths s)) by lia. assert (Q2 : wsum (upd (upd (wths s) t (mkw (a - 1) b None)) u (mkw (S c) d q)) = wsum (wths s)) by lia.
      assert (Q3 : psum (upd (upd (wths s) t (mkw (a - 1) b None)) u (mkw (S c) d q)) = psum (wths s)) by lia. assert (Q4 : asum (upd (upd (wths s) t (mkw (a - 1) b None)) u (mkw (S c) d q)) = asum (wths s)) by lia.
      constructor; cbn [dual wths log]; rewrite ?Q1, ?Q2, ?Q3, ?Q4; auto.
    + destruct (Nat.eqb_spec b 0); [exact I|]. destruct (nth_error (wths s) u) as [[c d q]|] eqn:Hu; [|exact I]. destruct (Nat.eqb_spec t u) as [|Ntu]; [exact I|].
      assert (Hu2 : nth_error (upd (wths s) t (mkw a (b - 1) None)) u = Some (mkw c d q)) by (rewrite nth_upd_ne by exact Ntu; exact Hu).
      destruct (U (mkw a (b - 1) None)) as (U1 & U2 & U3 & U4). destruct (upd_sums _ u c d q (mkw c (S d) q) Hu2) as (V1 & V2 & V3 & V4). cbn [strong weak inpart] in *.
      assert (Q1 : ssum (upd (upd (wths s) t (mkw a (b - 1) None)) u (mkw c (S d) q)) = ssum (wths s)) by lia. assert (Q2 : wsum (upd (upd (wths s) t (mkw a (b - 1) None)) u (mkw c (S d) q)) = wsum (wths s)) by lia.
      assert (Q3 : psum (upd (upd (wths s) t (mkw a (b - 1) None)) u (mkw c (S d) q)) = psum (wths s)) by lia. assert (Q4 : asum (upd (upd (wths s) t (mkw a (b - 1) None)) u (mkw c (S d) q)) = asum (wths s)) by lia.
      constructor; cbn [dual wths log]; rewrite ?Q1, ?Q2, ?Q3, ?Q4; auto.
    + exact I.
Qed.

Lemma winit_ok n : winv (winit n).
Proof.
  assert (R : forall f, f (mkw 0 0 None) = 0%Z -> zsum f (repeat (mkw 0 0 None) n) = 0%Z) by (intros f E; induction n as [|n IH]; cbn [repeat]; [reflexivity|rewrite zsum_cons, IH, E; reflexivity]).
  unfold winit. constructor; cbn [dual wths log]; unfold ssum, wsum, psum, asum; rewrite !zsum_cons, !R by reflexivity; cbn; [reflexivity|lia|constructor; lia].
Qed.

(** Runs, extended at the end. *)
Lemma wrun_snoc l : forall s t m, wrun s (l ++ [(t, m)]) = match wrun s l with WMoved s' => match wstep s' t m with WStuck => WMoved s' | x => x end | x => x end.
Proof.
  induction l as [|[t0 m0] l IH]; intros s t m; cbn [app wrun].
  - destruct (wstep s t m); reflexivity.
  - destruct (wstep s t0 m0); try reflexivity; apply IH.
Qed.
Lemma proper_snoc l x : proper (l ++ [x]) -> proper l.
Proof. intros P t m H. apply (P t m). apply in_or_app. auto. Qed.
Lemma proper_last l t m : proper (l ++ [(t, m)]) -> m <> Upgrade /\ m <> CopyWeak.
Proof. intros P. apply (P t m). apply in_or_app. right. left. reflexivity. Qed.
Lemma calm_snoc n l x : calm n (l ++ [x]) -> calm n l.
Proof. intros C l1 t l2 s E. apply (C l1 t (l2 ++ [x]) s). rewrite E, <- app_assoc. reflexivity. Qed.

Theorem wrun_ok n l : proper l -> match wrun (winit n) l with WMoved s => winv s | WAssert => False | _ => True end.
Proof.
  induction l as [|[t m] l IH] using rev_ind; intros P; [apply winit_ok|].
  rewrite wrun_snoc. specialize (IH (proper_snoc _ _ P)). destruct (wrun (winit n) l) as [s| | |]; try exact IH.
  destruct (proper_last _ _ _ P) as (N1 & N2). pose proof (wstep_ok s t m IH N1 N2) as K. destruct (wstep s t m); auto.
Qed.

(** Sums against the references of each thread. *)
Lemma ssum_zero s : ssum (wths s) = 0%Z <-> no_strong s.
Proof.
  split.
  - intros E t th H. destruct (sums_ge _ _ _ H). lia.
  - intros N. unfold ssum. apply zsum_zero. intros th H. apply In_nth_error in H. destruct H as (t & H). rewrite (N _ _ H). reflexivity.
Qed.
Lemma wsum_zero s : wsum (wths s) = 0%Z <-> no_weak s.
Proof.
  split.
  - intros E t th H. destruct (sums_ge _ _ _ H). lia.
  - intros N. unfold wsum. apply zsum_zero. intros th H. apply In_nth_error in H. destruct H as (t & H). rewrite (N _ _ H). reflexivity.
Qed.
Lemma psum_zero s : psum (wths s) = 0%Z <-> ~ in_partial s.
Proof.
  split.
  - intros E (t & th & b & H & Eb). destruct (part_ge _ _ _ _ H Eb). lia.
  - intros N. unfold psum. apply zsum_zero. intros th H. apply In_nth_error in H. destruct H as (t & H). destruct (inpart th) eqn:E; [|reflexivity]. destruct N. exists t, th, b. auto.
Qed.

Theorem callbacks_once n l s : proper l -> wrun (winit n) l = WMoved s ->
  times PartialBegins (log s) <= 1 /\ times PartialEnds (log s) <= 1 /\ times Full (log s) <= 1 /\
  (In PartialBegins (log s) <-> no_strong s) /\
  (In PartialEnds (log s) <-> no_strong s /\ ~ in_partial s) /\
  (In Full (log s) -> no_strong s /\ no_weak s) /\
  (log s = [] \/ exists r, log s = PartialBegins :: r).
Proof.
  intros P R. pose proof (wrun_ok n l P) as K. rewrite R in K. destruct K as [D Sm Ph]. rewrite <- ssum_zero, <- wsum_zero, <- psum_zero.
  inversion Ph; cbn; (do 6 try split); try lia; try (intros; decompose [or and] H; try discriminate; try lia; fail); try (intros; lia); eauto; try (intros [? ?]; lia); try tauto;
    try (split; [tauto|lia]); try (intros H9; decompose [or] H9; try discriminate; tauto).
  all: try (split; intros; decompose [or and] H1; try discriminate; try lia; tauto).
Qed.

Theorem callbacks_settle n l s : proper l -> wrun (winit n) l = WMoved s -> no_strong s -> no_weak s -> ~ in_partial s ->
  times PartialBegins (log s) = 1 /\ times PartialEnds (log s) = 1 /\ times Full (log s) = 1.
Proof.
  intros P R A B C. pose proof (wrun_ok n l P) as K. rewrite R in K. destruct K as [D Sm Ph]. apply ssum_zero in A. apply wsum_zero in B. apply psum_zero in C.
  rewrite A, B, C in Ph. inversion Ph; cbn; auto; lia.
Qed.

Lemma wstep_log s t m s' : wstep s t m = WMoved s' ->
  log s' = log s \/ log s' = log s ++ [PartialBegins] \/ log s' = log s ++ [PartialEnds] \/ log s' = log s ++ [PartialEnds; Full] \/ (m = DecWeak /\ log s' = log s ++ [Full]).
Proof.
  unfold wstep. destruct (nth_error (wths s) t) as [[a b p]|]; [|discriminate]. cbv zeta.
  generalize (u32 (dual s + 65536)) (u32 (dual s - 65536)) (u32 (dual s + 1)) (u32 (dual s - 1)) (u32 (dual s)) (low (dual s)) (high (dual s)). intros d1 d2 d3 d4 d5 lo hi.
  destruct p as [alone|]; destruct m; try discriminate; intros H;
    repeat match type of H with
    | (if ?c then _ else _) = _ => destruct c
    | (match ?c with Some _ => _ | None => _ end) = _ => destruct c as [[? ? ?]|]
    end; try discriminate; injection H as <-; cbn [log]; rewrite ?app_nil_r; auto.
  all: try (destruct (_ && _); rewrite ?app_nil_r; auto 6).
  destruct alone; auto 6.
Qed.

Theorem callbacks_order n l s : proper l -> calm n l -> wrun (winit n) l = WMoved s ->
  In Full (log s) -> log s = [PartialBegins; PartialEnds; Full].
Proof.
  intros P C R Hf.
  assert (G : log s <> [PartialBegins; Full] /\ log s <> [PartialBegins; Full; PartialEnds]).
  { clear Hf. revert s R. induction l as [|[t m] l IH] using rev_ind; intros s R.
    - injection R as <-. cbn. split; discriminate.
    - rewrite wrun_snoc in R. specialize (IH (proper_snoc _ _ P) (calm_snoc _ _ _ C)). pose proof (wrun_ok n l (proper_snoc _ _ P)) as K.
      destruct (wrun (winit n) l) as [s0| | |] eqn:R0; try discriminate. specialize (IH s0 eq_refl). destruct (wstep s0 t m) as [s1| | |] eqn:St; try discriminate; injection R as <-; [|exact IH].
      destruct IH as (I1 & I2). pose proof (wstep_log _ _ _ _ St) as L. destruct K as [_ _ Ph].
      destruct L as [L|[L|[L|[L|(Em & L)]]]]; rewrite L; [auto| | | |].
      4: { subst m. pose proof (C l t [] s0 eq_refl R0) as Np. apply psum_zero in Np. rewrite Np in Ph. inversion Ph; cbn; split; discriminate. }
      all: inversion Ph as [? ? ? E1 E2 E3 E4 E5|? ? E1 E2 E3 E4 E5|E1 E2 E3 E4 E5|E1 E2 E3 E4 E5|? ? E1 E2 E3 E4 E5|E1 E2 E3 E4 E5|E1 E2 E3 E4 E5]; rewrite <- E5 in *; cbn; split; congruence. }
  pose proof (wrun_ok n l P) as K. rewrite R in K. destruct K as [D Sm Ph]. destruct G as (G1 & G2).
  inversion Ph as [? ? ? E1 E2 E3 E4 E5|? ? E1 E2 E3 E4 E5|E1 E2 E3 E4 E5|E1 E2 E3 E4 E5|? ? E1 E2 E3 E4 E5|E1 E2 E3 E4 E5|E1 E2 E3 E4 E5]; rewrite <- E5 in *; cbn in Hf;
    decompose [or] Hf; try discriminate; try contradiction; congruence.
Qed.

Theorem copy_weak_asserts n l s t th : proper l -> wrun (winit n) l = WMoved s -> no_strong s ->
  nth_error (wths s) t = Some th -> 0 < weak th -> inpart th = None -> wstep s t CopyWeak = WAssert.
Proof.
  intros P R A Ht Hw Hi. pose proof (wrun_ok n l P) as K. rewrite R in K. destruct K as [D Sm Ph]. apply ssum_zero in A.
  unfold wstep. rewrite Ht. destruct th as [a b p]. cbn in Hw, Hi. subst p. cbv zeta. destruct (Nat.eqb_spec b 0); [lia|].
  assert (low (dual s) = 0%Z) as ->. { pose proof (sums_nonneg (wths s)). rewrite D, A. apply low_dual; lia. } reflexivity.
Qed.

(** Fewer than 32766 steps reach no limit. *)
Lemma wstep_grow s t m : winv s -> m <> Upgrade -> m <> CopyWeak ->
  match wstep s t m with
  | WMoved s' => (ssum (wths s') <= ssum (wths s) + 1 /\ wsum (wths s') <= wsum (wths s) + 1)%Z
  | WLimit => (32767 <= ssum (wths s) \/ 32767 <= wsum (wths s))%Z
  | _ => True end.
Proof.
  intros I0 N1 N2. pose proof I0 as [D Sm Ph]. unfold wstep. destruct (nth_error (wths s) t) as [[a b p]|] eqn:Ht; [|exact I]. cbv zeta.
  pose proof (sums_nonneg (wths s)) as (P1 & P2 & P3).
  assert (Lo : low (dual s) = ssum (wths s)) by (rewrite D; apply low_dual; lia). assert (Hi : high (dual s) = wsum (wths s)) by (rewrite D; apply high_dual; lia).
  pose proof (fun x => upd_sums (wths s) t a b p x Ht) as U. rewrite !Lo, !Hi.
  destruct p as [alone|]; destruct m; try exact I;
    repeat match goal with
    | |- context [if ?c then WStuck else _] => destruct c; [exact I|]
    | |- context [if ?c then WAssert else _] => destruct c; [exact I|]
    | |- context [if (?x <=? ?y)%Z then WLimit else _] => destruct (Z.leb_spec x y); [lia|]
    | |- context [if ?c then WMoved _ else WMoved _] => destruct c
    end; try contradiction; cbn [wths];
    try (match goal with |- context [upd (wths s) t ?x] => destruct (U x) as (U1 & U2 & _ & _) end; cbn [strong weak] in *; lia).
  - destruct (nth_error (wths s) u) as [[c d q]|] eqn:Hu; [|exact I]. destruct (Nat.eqb_spec t u) as [|Ntu]; [exact I|]. cbn [wths].
    assert (Hu2 : nth_error (upd (wths s) t (mkw (a - 1) b None)) u = Some (mkw c d q)) by (rewrite nth_upd_ne by exact Ntu; exact Hu).
    destruct (U (mkw (a - 1) b None)) as (U1 & U2 & U3 & U4). destruct (upd_sums _ u c d q (mkw (S c) d q) Hu2) as (V1 & V2 & V3 & V4). cbn [strong weak inpart] in *. lia.
  - destruct (nth_error (wths s) u) as [[c d q]|] eqn:Hu; [|exact I]. destruct (Nat.eqb_spec t u) as [|Ntu]; [exact I|]. cbn [wths].
    assert (Hu2 : nth_error (upd (wths s) t (mkw a (b - 1) None)) u = Some (mkw c d q)) by (rewrite nth_upd_ne by exact Ntu; exact Hu).
    destruct (U (mkw a (b - 1) None)) as (U1 & U2 & U3 & U4). destruct (upd_sums _ u c d q (mkw c (S d) q) Hu2) as (V1 & V2 & V3 & V4). cbn [strong weak inpart] in *. lia.
Qed.
Theorem callbacks_defined n l : proper l -> (Z.of_nat (length l) <= 32766)%Z -> exists s, wrun (winit n) l = WMoved s.
Proof.
  intros P B.
  assert (G : exists s, wrun (winit n) l = WMoved s /\ (ssum (wths s) <= 1 + Z.of_nat (length l) /\ wsum (wths s) <= Z.of_nat (length l))%Z); [|destruct G as (s & G & _); eauto].
  revert P B. induction l as [|[t m] l IH] using rev_ind; intros P B.
  - exists (winit n). split; [reflexivity|]. unfold winit, ssum, wsum. cbn [wths]. rewrite !zsum_cons. cbn [strong weak].
    rewrite !zsum_zero; [cbn; lia| |]; intros th H; apply repeat_spec in H; subst th; reflexivity.
  - rewrite app_length in *. cbn [length] in *. destruct (IH (proper_snoc _ _ P) ltac:(lia)) as (s & R & Bs). rewrite wrun_snoc, R.
    pose proof (wrun_ok n l (proper_snoc _ _ P)) as K. rewrite R in K. destruct (proper_last _ _ _ P) as (N1 & N2). pose proof (wstep_grow s t m K N1 N2) as W. pose proof (wstep_ok s t m K N1 N2) as O.
    destruct (wstep s t m) as [s'| | |]; [|exists s; split; [reflexivity|lia]|contradiction|lia]. exists s'. split; [reflexivity|lia].
Qed.
