(* The simulation, concluded. *)
From Coq Require Import Lia ZifyBool ZifyNat.
From Verif Require Import CrowbarModel CrowbarSpec CrowbarProofs CrowbarRun CrowbarSim.
Local Open Scope nat_scope.

Definition XR (fns : list fndef) (F B : list (nat * value)) (st : state) (x : stop * list Z)
  (r : flow * frame * state) : Prop :=
  let '(fl, fr', st') := r in
  out st' = snd x /\ wf st' /\ nxt st <= nxt st' /\
  match fst x, fl with
  | Next s', FOk => exists F', stk st' = F' ++ B /\ keeps (nxt st) F F' /\ Inv s' fr' st' /\ inF fr' F' /\ ret st' = None
  | Returned m, FReturn =>
      exists T F', stk st' = T ++ F' ++ B /\ Forall (fun o => nxt st <= fst o) T /\ keeps (nxt st) F F' /\
        stands fns st' (ret st') m /\ handed (ret st') T
  | _, _ => False
  end.

Section Step.
Variable fns : list fndef.
Hypothesis plain_fns : plain fns = true.
Variable k : nat.
Hypothesis IHe : forall fr s e st, wf st -> Inv s fr st -> plain_expr e = true ->
  agrees (means k fns s e (out st)) (eval k fns fr e st) (ER fns st e).
Hypothesis IHx : forall c fr s st F B, wf st -> Inv s fr st -> inF fr F -> stk st = F ++ B -> ret st = None ->
  plain_stmt c = true ->
  agrees (means_stmt k fns c s (out st)) (exec k fns c fr st) (XR fns F B st).
Hypothesis IHw : forall c b fr s st F B, wf st -> Inv s fr st -> inF fr F -> stk st = F ++ B -> ret st = None ->
  plain_expr c = true -> forallb plain_stmt b = true ->
  agrees (means_while k fns c b s (out st)) (execWhile k fns c b fr st) (XR fns F B st).

Lemma XR_chain F F' B st st' x r : keeps (nxt st) F F' -> nxt st <= nxt st' -> XR fns F' B st' x r -> XR fns F B st x r.
Proof.
  intros K L. destruct r as [[fl fr] st2], x as [sp o]. unfold XR. cbn [fst snd].
  intros (O & W & N & H). repeat split; auto; [lia|].
  destruct sp, fl; auto.
  - destruct H as (F2 & A & C & D). exists F2. split; auto. split; auto. eapply keeps_trans; eauto.
  - destruct H as (T & F2 & A & C & D & G). exists T, F2. split; auto. split.
    + eapply Forall_impl; [|exact C]. cbn. intros. lia.
    + split; auto. eapply keeps_trans; eauto.
Qed.

Lemma list_agree b : forall fr s st o F B, wf st -> Inv s fr st -> inF fr F -> stk st = F ++ B -> ret st = None ->
  out st = o -> forallb plain_stmt b = true ->
  agrees (means_list (means_stmt k fns) b s o) (execList (exec k fns) b fr st) (XR fns F B st).
Proof.
  induction b as [|c b IH]; intros fr s st o F B W V IF ES R O P; subst o; cbn [means_list execList].
  - apply agrees_done. repeat split; auto. cbn. exists F. repeat split; auto using keeps_refl; apply V.
  - cbn [forallb] in P. apply andb_true_iff in P. destruct P as [Pc P].
    eapply agrees_bind; [apply (IHx c fr s st F B W V IF ES R Pc)|].
    intros [sp o1] [[fl fr1] st1] H. pose proof H as (O1 & W1 & N1 & H1). cbn [fst snd] in O1, H1.
    destruct sp as [s1|m], fl; try contradiction.
    + destruct H1 as (F1 & A1 & K1 & V1 & IF1 & R1).
      eapply agrees_impl; [apply (IH fr1 s1 st1 o1 F1 B); auto|].
      intros x r X. eapply XR_chain; eauto.
    + apply agrees_done. exact H.
Qed.

Lemma fn_plain f : In f fns -> forallb (fun p => negb (reserved p)) (fd_params f) = true /\ forallb plain_stmt (fd_body f) = true.
Proof.
  intros I. pose proof plain_fns as P. unfold plain in P. rewrite forallb_forall in P.
  apply P in I. apply andb_true_iff in I. exact I.
Qed.

Lemma resolve_agree fr s st n : Inv s fr st ->
  match resolve fns s n with
  | Some m => exists r, lookupName fns fr n = Some r /\ stands fns st (Some r) m /\
      (reserved n = true -> forall id, r <> RObj id)
  | None => lookupName fns fr n = None
  end.
Proof.
  intros (A & _ & C). specialize (A n). specialize (C n). unfold resolve, lookupName. rewrite functionTable_find.
  destruct (s n) as [v|].
  - destruct A as (V & id & -> & E). exists (RObj id). split; auto. split.
    + exists (RObj id). auto.
    + intros R. specialize (C R). discriminate.
  - rewrite A. destruct (function fns n) as [f|] eqn:E.
    + exists (RFn f). split; auto. split; [|discriminate]. cbn. split; auto. eapply function_in; eauto.
    + destruct (bytes_eqb n n_print). { exists RPrint. split; auto. split; [reflexivity | discriminate]. }
      destruct (bytes_eqb n n_true). { exists (RConst true). split; auto. split; [exists (RConst true); cbn; auto | discriminate]. }
      destruct (bytes_eqb n n_false). { exists (RConst false). split; auto. split; [exists (RConst false); cbn; auto | discriminate]. }
      reflexivity.
Qed.

Lemma inv_empty st : Inv empty [] st.
Proof. repeat split; intros; cbn in *; auto; discriminate. Qed.

Lemma pushed_ER st st1 T o e x st' : ext st st1 T -> out st1 = o -> pushed (setRet None st1) o x st' -> ER fns st e x st'.
Proof.
  intros X O (v & -> & -> & Ok). exists ((nxt st1, v) :: T). split.
  { change (nxt st1) with (nxt (setRet None st1)). apply ext_push. apply ext_ret. exact X. }
  split; [exact O|]. split.
  - cbn. exists (RObj (nxt st1)). split; auto. split; auto. cbn. rewrite Nat.eqb_refl. reflexivity.
  - intros _. cbn. exists v, T. reflexivity.
Qed.

Lemma eval_step fr s e st : wf st -> Inv s fr st -> plain_expr e = true ->
  agrees (means (S k) fns s e (out st)) (eval (S k) fns fr e st) (ER fns st e).
Proof.
  intros W V P. destruct e as [n|v|ps|e n|op l r|op e|f args]; cbn [means eval]; cbv zeta.
  - pose proof (resolve_agree fr s st n V) as H. destruct (resolve fns s n) as [m|].
    + destruct H as (r & -> & Sd & H). apply agrees_done. exists []. split; [apply ext_ret, ext_refl; exact W|].
      split; [reflexivity|]. split; [exact Sd|]. cbn. intros Rn. specialize (H Rn). destruct r; auto.
      exfalso. eapply H. reflexivity.
    + rewrite H. reflexivity.
  - apply agrees_done. exists []. split; [apply ext_ret, ext_refl; exact W|]. split; [reflexivity|].
    cbn [plain_expr] in P. apply andb_true_iff in P.
    split; [exists (RLit v); cbn; split; auto; split; auto; lia | intros _; exact I].
  - eapply agrees_bind; [apply (pieces_agree fns k IHe fr s ps [] st (out st) W V eq_refl P)|].
    intros [t o1] [t' st1]. cbn [fst snd app]. intros (-> & O1 & T & X). apply agrees_done.
    apply (pushed_ER st st1 T o1); auto. exists (VStr t). split; auto. split; auto. exact I.
  - cbn [plain_expr] in P. eapply agrees_bind; [apply (IHe fr s e st W V P)|].
    intros [m o1] st1 (T & X & O1 & Sd & _). cbn [fst snd] in O1, Sd.
    destruct (typeName m) as [t|] eqn:TN; [|exact I].
    destruct (stands_type _ _ _ _ _ Sd TN) as (x & -> & ->). rewrite O1. reflexivity.
  - cbn [plain_expr] in P. apply andb_true_iff in P. destruct P as [Pl Pr].
    eapply agrees_bind; [apply (IHe fr s l st W V Pl)|].
    intros [a o1] st1 (T & X & O1 & Sa & _). cbn [fst snd] in O1, Sa. subst o1.
    eapply agrees_bind.
    { apply (IHe fr s r (setRet None st1) (ext_wf _ _ _ X)); auto. exact (ext_inv _ _ _ _ _ X W V). }
    intros [b o2] st2 (T2 & X2 & O2 & Sb & _). cbn [fst snd] in O2, Sb.
    apply ext_ret_l in X2.
    eapply agrees_impl; [apply (binary_agrees fns (setRet None st2) _ _ a b op o2)|].
    + apply stands_ret. eapply ext_stands; [exact X2 | exact (ext_wf _ _ _ X) | exact Sa].
    + apply stands_ret. exact Sb.
    + exact O2.
    + intros x st' H. eapply pushed_ER; [|exact O2|exact H]. eapply ext_trans; eauto.
  - cbn [plain_expr] in P. eapply agrees_bind; [apply (IHe fr s e st W V P)|].
    intros [a o1] st1 (T & X & O1 & Sa & _). cbn [fst snd] in O1, Sa.
    eapply agrees_impl; [apply (unary_agrees fns (setRet None st1) _ a op o1)|].
    + apply stands_ret. exact Sa.
    + exact O1.
    + intros x st' H. eapply pushed_ER; [exact X|exact O1|exact H].
  - cbn [plain_expr] in P. apply andb_true_iff in P. destruct P as [Pf Pa].
    eapply agrees_bind; [apply (IHe fr s f st W V Pf)|].
    intros [c o1] st1 (T & X & O1 & Sc & _). cbn [fst snd] in O1, Sc.
    eapply agrees_bind.
    { apply (args_agree fns k IHe fr s args [] (setRet None st1) o1 (ext_wf _ _ _ X)); auto.
      exact (ext_inv _ _ _ _ _ X W V). }
    intros [vs o2] [ids st2]. cbn [fst snd app]. intros (ids' & T2 & -> & O2 & X2 & L & ND & OK & N & IN & E0 & E1).
    assert (R2 : ret st2 = None).
    { destruct args; [rewrite E0 by reflexivity; reflexivity | apply E1; discriminate]. }
    apply ext_ret_l in X2. assert (W1 := ext_wf _ _ _ X). assert (W2 := ext_wf _ _ _ X2).
    assert (Sc2 := ext_stands _ _ _ _ _ _ X2 W1 Sc).
    destruct c as [v|fd| |]; cbn in Sc2.
    + destruct Sc2 as (x & -> & Vx & _). assert (Tx := typeOf_value _ _ _ Vx).
      destruct x; cbn in Vx; try discriminate; rewrite Tx, O2; reflexivity.
    + destruct Sc2 as [-> Ifd]. rewrite L.
      destruct (length vs =? length (fd_params fd)) eqn:LE; [|exact I].
      destruct (fn_plain fd Ifd) as [Pp Pb].
      assert (ES2 : stk st2 = T2 ++ stk st1) by apply X2.
      destruct (inv_params (fd_params fd) vs ids' empty [] st2 T2) as [V2 IF2]; auto.
      { apply inv_empty. }
      { intros n i H. discriminate. }
      { intros. discriminate. }
      eapply agrees_bind; [apply (list_agree (fd_body fd) _ _ st2 o2 T2 (stk st1) W2 V2 IF2 ES2 R2 O2 Pb)|].
      intros [sp o3] [[fl fr3] st3] (O3 & W3 & N3 & H3). cbn [fst snd] in O3, H3.
      destruct X2 as (X21 & X22 & X23 & X24).
      assert (Fresh : forall G, map fst G = map fst T2 -> Forall (fun o : nat * value => nxt st1 <= fst o) G).
      { intros G EG. rewrite Forall_forall in X23 |- *. intros o Io. apply (in_map fst) in Io. rewrite EG in Io.
        apply in_map_iff in Io. destruct Io as (o' & Eo & Io). apply X23 in Io. congruence. }
      rewrite ES2.
      destruct sp as [s3|m], fl; try contradiction.
      * destruct H3 as (F3 & ES3 & K3 & V3 & IF3 & R3).
        destruct (leave_next _ _ _ _ st3 K3 ES3 R3) as (G & EG & Gids). rewrite EG. apply agrees_done.
        exists (G ++ T). split.
        { eapply ext_trans; [exact X|]. unfold ext. cbn [stk nxt]. split; [reflexivity|]. split; [lia|]. split; [auto|].
          unfold wf in *. cbn [stk nxt]. apply Forall_app. split.
          - rewrite Forall_forall in W2. rewrite Forall_forall. intros o Io. apply (in_map fst) in Io. rewrite Gids in Io.
            apply in_map_iff in Io. destruct Io as (o' & Eo & Io).
            assert (In o' (stk st2)) as I2 by (rewrite ES2; apply in_app_iff; auto).
            apply W2 in I2. lia.
          - eapply Forall_impl; [|exact W1]. cbn. intros. lia. }
        cbn. split; [exact O3|]. split; [reflexivity | auto].
      * destruct H3 as (T3 & F3 & ES3 & AT3 & K3 & S3 & H3).
        destruct (leave_returned fns _ _ _ _ st3 T3 m K3 ES3 W3 N3 AT3 S3 H3)
          as (G & T4 & st4 & EL & Gids & ES4 & AT4 & W4 & N4 & O4 & S4 & H4). rewrite EL. apply agrees_done.
        exists ((T4 ++ G) ++ T). split.
        { eapply ext_trans; [exact X|]. unfold ext. split; [rewrite ES4, app_assoc; reflexivity|]. split; [lia|]. split; auto.
          apply Forall_app. split; [|apply Fresh; exact Gids]. eapply Forall_impl; [|exact AT4]. cbn. intros. lia. }
        cbn [fst snd]. split; [congruence|]. split; [exact S4|]. intros _.
        unfold handed in *. destruct (ret st4) as [[id| | | |]|]; auto.
        destruct H4 as (v & T' & E). exists v, (T' ++ T). rewrite E. reflexivity.
    + rewrite Sc2. unfold callPrint. destruct vs as [|v [|v' vs]], ids' as [|id [|id' ids']]; try discriminate; try exact I.
      destruct (N 0 v eq_refl) as (i & E & Fv). cbn in E. injection E as <-. rewrite Fv.
      inversion OK; subst. rewrite textOf_display by assumption. apply agrees_done.
      exists (T2 ++ T). split.
      { eapply ext_trans; [exact X|]. destruct X2 as (X21 & X22 & X23 & X24). repeat split; auto. }
      cbn. split; [reflexivity|]. split; auto.
    + exact I.
Qed.

Lemma exec_step c fr s st F B : wf st -> Inv s fr st -> inF fr F -> stk st = F ++ B -> ret st = None ->
  plain_stmt c = true ->
  agrees (means_stmt (S k) fns c s (out st)) (exec (S k) fns c fr st) (XR fns F B st).
Proof.
  intros W V IF ES R P. destruct c as [c t f|c b|l e|e|e]; cbn [means_stmt exec]; cbv zeta.
  - cbn [plain_stmt] in P. apply andb_true_iff in P. destruct P as [P Pf]. apply andb_true_iff in P. destruct P as [Pc Pt].
    eapply agrees_bind; [apply (IHe fr s c st W V Pc)|].
    intros [m o1] st1 (T & X & O1 & Sd & _). cbn [fst snd] in O1, Sd.
    destruct m as [[a|a|a]| | |]; try exact I. destruct Sd as (x & Rx & Vx & _).
    unfold condition. rewrite Rx, Vx. destruct X as (X1 & X2 & X3 & X4).
    rewrite (deleteAll_app _ (setRet None st1) T (stk st)) by auto. cbn [bind nxt out ret setRet].
    set (st2 := St (stk st) (nxt st1) (out st1) None).
    assert (W2 : wf st2) by (unfold wf in *; cbn; eapply Forall_impl; [|exact W]; cbn; intros; lia).
    assert (V2 : Inv s fr st2) by exact V.
    destruct (if a then Some t else f) as [block|] eqn:EB.
    + eapply agrees_impl; [apply (list_agree block fr s st2 o1 F B); auto|].
      * destruct a; [injection EB as <-; exact Pt | rewrite EB in Pf; exact Pf].
      * intros y r Y. eapply XR_chain; [apply keeps_refl | | exact Y]. exact X2.
    + apply agrees_done. repeat split; auto. cbn. exists F. repeat split; auto using keeps_refl; apply V.
  - cbn [plain_stmt] in P. apply andb_true_iff in P. destruct P as [Pc Pb]. apply IHw; auto.
  - destruct l as [x| | | | | |]; try discriminate P.
    cbn [plain_stmt] in P. apply andb_true_iff in P. destruct P as [P Pe]. apply andb_true_iff in P. destruct P as [Px Ce].
    apply negb_true_iff in Px.
    eapply agrees_bind; [apply (IHe fr s e st W V Pe)|].
    intros [m o1] st1 (T & X & O1 & Sd & H). cbn [fst snd] in O1, Sd. specialize (H Ce).
    destruct m as [v|f| |]; try exact I. destruct Sd as (r & Rr & Vr & Ok).
    pose proof V as (VA & VB & VC). unfold assignName. specialize (VA x).
    pose proof X as (X1 & X2 & X3 & X4).
    destruct (s x) as [old|] eqn:Sx.
    + destruct VA as (_ & id & Fx & Fo). rewrite Fx, Rr.
      destruct (tyEqb (typeOfValue old) (typeOfValue v)) eqn:TY; [|exact I].
      assert (Fid : In id (map fst F)) by (eapply IF; exact Fx).
      unfold moveTo. rewrite (ext_find _ _ _ _ _ X W Fo), Vr, TY.
      assert (NT : ~ In id (map fst T)) by (eapply ext_notin; [exact X|]; eapply wf_find; eauto).
      rewrite X1, (setObj_skip id v T (stk st) NT), ES, (setObj_app id v F B Fid).
      assert (HT : exists T', match r with RObj j => setObj j (moved v) (T ++ setObj id v F ++ B) | _ => T ++ setObj id v F ++ B end
                 = T' ++ setObj id v F ++ B).
      { rewrite Rr in H. destruct r as [j| | | |]; try (exists T; reflexivity).
        destruct H as (w & T' & ->). exists ((j, moved v) :: T'). cbn. rewrite Nat.eqb_refl. reflexivity. }
      destruct HT as (T' & ->). cbn [bind].
      rewrite (deleteAll_app _ _ T' (setObj id v F ++ B)); [|reflexivity|rewrite !app_length, setObj_length; reflexivity].
      cbn [bind nxt out ret stk setRet]. apply agrees_done.
      set (st2 := setRet None (St (setObj id v F ++ B) (nxt st1) (out st1) (ret st1))).
      assert (SE : stk st2 = setObj id v (stk st)) by (cbn; rewrite ES, setObj_app by exact Fid; reflexivity).
      assert (W2 : wf st2).
      { unfold wf. rewrite SE. rewrite Forall_forall. intros o Io. apply (in_map fst) in Io. rewrite setObj_ids in Io.
        apply wf_ids in Io; auto. cbn. lia. }
      split; [exact O1|]. split; [exact W2|]. split; [exact X2|]. cbn [fst]. exists (setObj id v F).
      split; [reflexivity|]. split. { exists [], (setObj id v F). rewrite setObj_ids. auto. }
      split; [|split; [|reflexivity]].
      * split; [|split].
        { intros n. unfold assign. pose proof V as (VA & _). specialize (VA n). destruct (bytes_eqb x n) eqn:En.
          - apply bytes_eqb_true in En. subst n. split; auto. exists id. split; auto.
            rewrite SE, findObj_set, Nat.eqb_refl, Fo. reflexivity.
          - destruct (s n) as [w|]; auto. destruct VA as (Ow & i & Fi & Fw). split; auto. exists i. split; auto.
            rewrite SE, findObj_set. destruct (Nat.eqb_spec id i) as [->|]; auto.
            exfalso. apply bytes_eqb_false in En. apply En. eapply VB; eauto. }
        { exact VB. }
        { intros n Rn. unfold assign. rewrite (reserved_ne x n Px Rn). auto. }
      * intros n i Hn. rewrite setObj_ids. eapply IF; eauto.
    + rewrite VA.
      assert (K : exists id st2, (if onTop st1 then deleteBelowTop (length (stk st)) st1
                 else bind (deleteAll (length (stk st)) st1) appendMoved) = Done st2 /\ stk st2 = (id, v) :: stk st /\
                 nxt st <= id /\ nxt st1 <= nxt st2 /\ wf st2 /\ out st2 = out st1).
      { rewrite Rr in H. unfold handed in H.
        assert (NO : (forall j, r <> RObj j) -> exists id st2, (if onTop st1 then deleteBelowTop (length (stk st)) st1
                 else bind (deleteAll (length (stk st)) st1) appendMoved) = Done st2 /\ stk st2 = (id, v) :: stk st /\
                 nxt st <= id /\ nxt st1 <= nxt st2 /\ wf st2 /\ out st2 = out st1).
        { intros NR. assert (OT : onTop st1 = false).
          { unfold onTop. destruct (stk st1) as [|[i w] rest]; auto. rewrite Rr. destruct r; auto. exfalso. eapply NR. reflexivity. }
          rewrite OT, (deleteAll_app _ st1 T (stk st)) by auto. cbn [bind].
          set (st0 := St (stk st) (nxt st1) (out st1) (ret st1)).
          assert (W0 : wf st0) by (unfold wf in *; cbn; eapply Forall_impl; [|exact W]; cbn; intros; lia).
          destruct (appendMoved_agree fns k st0 st0 [] r v) as (st2 & E2 & XX & OO); auto.
          - apply ext_refl. exact W0.
          - destruct r; auto. exfalso. eapply NR. reflexivity.
          - destruct r; cbn; auto. exfalso. eapply NR. reflexivity.
          - unfold onTop. cbn. rewrite Rr. destruct (stk st) as [|[? ?] ?]; auto. destruct r; auto. exfalso. eapply NR. reflexivity.
          - exists (nxt st1), st2. split; [exact E2|]. destruct XX as (XX1 & XX2 & XX3 & XX4). cbn in XX1, XX2.
            split; [exact XX1|]. split; [lia|]. split; [lia|]. split; auto. }
        destruct r as [j| | | |]; try (apply NO; intros j C; discriminate).
        destruct H as (w & T' & ->).
        assert (OT : onTop st1 = true) by (unfold onTop; rewrite X1, Rr; apply Nat.eqb_refl). rewrite OT.
        cbn in Vr. rewrite X1 in Vr. cbn in Vr. rewrite Nat.eqb_refl in Vr. injection Vr as ->.
        destruct (deleteBelowTop_app (length (stk st)) st1 j v T' (stk st) X1 eq_refl) as (id' & m' & E & Le & C).
        exists id', (St ((id', v) :: stk st) m' (out st1) (ret st1)). split; [exact E|]. split; [reflexivity|].
        assert (Hj : nxt st <= j /\ j < nxt st1).
        { split; [inversion X3; subst; auto|]. unfold wf in X4. rewrite X1 in X4. inversion X4; subst; auto. }
        split; [destruct C as [[-> ->]|[-> ->]]; lia|]. split; [exact Le|]. split; [|reflexivity].
        unfold wf. cbn. constructor; cbn; [destruct C as [[-> ->]|[-> ->]]; lia|].
        eapply Forall_impl; [|exact W]. cbn. intros. lia. }
      destruct K as (id & st2 & E & ES2 & Lid & N2 & W2 & O2). rewrite E. cbn [bind]. rewrite ES2. apply agrees_done.
      split; [cbn; congruence|]. split; [exact W2|]. split; [cbn; lia|]. cbn [fst]. exists ((id, v) :: F).
      assert (X2' : ext st (setRet None st2) [(id, v)]).
      { repeat split; cbn; auto; try lia. }
      split; [cbn; rewrite ES2, ES; reflexivity|]. split. { exists [(id, v)], F. auto. }
      assert (NF : forall n, findVar n fr <> Some (RObj id)).
      { intros n C. apply IF in C. assert (In id (map fst (stk st))) as C' by (rewrite ES, map_app, in_app_iff; auto).
        apply wf_ids in C'; auto. lia. }
      split; [|split; [|reflexivity]].
      * apply inv_new; auto.
        { exact (ext_inv _ _ _ _ _ X2' W V). }
        { cbn. rewrite ES2. cbn. rewrite Nat.eqb_refl. reflexivity. }
      * apply inF_new; [|cbn; auto]. intros n i C. cbn. right. eapply IF; eauto.
  - cbn [plain_stmt] in P. eapply agrees_bind; [apply (IHe fr s e st W V P)|].
    intros [m o1] st1 (T & X & O1 & Sd & _). cbn [fst snd] in O1. destruct X as (X1 & X2 & X3 & X4).
    rewrite (deleteAll_app _ (setRet None st1) T (stk st)) by auto. cbn [bind nxt out ret setRet].
    apply agrees_done. split; [exact O1|].
    split. { unfold wf in *; cbn; eapply Forall_impl; [|exact W]; cbn; intros; lia. }
    split; [exact X2|]. cbn. exists F. repeat split; auto using keeps_refl; apply V.
  - cbn [plain_stmt] in P. apply andb_true_iff in P. destruct P as [Ce Pe].
    eapply agrees_bind; [apply (IHe fr s e st W V Pe)|].
    intros [m o1] st1 (T & X & O1 & Sd & H). cbn [fst snd] in O1, Sd. specialize (H Ce).
    destruct X as (X1 & X2 & X3 & X4). apply agrees_done. split; [exact O1|]. split; [exact X4|]. split; [exact X2|].
    cbn. exists T, F. split; [rewrite X1, ES; reflexivity|]. repeat split; auto using keeps_refl.
Qed.

Lemma while_step c b fr s st F B : wf st -> Inv s fr st -> inF fr F -> stk st = F ++ B -> ret st = None ->
  plain_expr c = true -> forallb plain_stmt b = true ->
  agrees (means_while (S k) fns c b s (out st)) (execWhile (S k) fns c b fr st) (XR fns F B st).
Proof.
  intros W V IF ES R Pc Pb. cbn [means_while execWhile]. cbv zeta.
  eapply agrees_bind; [apply (IHe fr s c st W V Pc)|].
  intros [m o1] st1 (T & X & O1 & Sd & _). cbn [fst snd] in O1, Sd.
  destruct m as [[a|a|a]| | |]; try exact I. destruct Sd as (x & Rx & Vx & _).
  unfold condition. rewrite Rx, Vx. destruct X as (X1 & X2 & X3 & X4).
  rewrite (deleteAll_app _ (setRet None st1) T (stk st)) by auto. cbn [bind nxt out ret setRet].
  set (st2 := St (stk st) (nxt st1) (out st1) None).
  assert (W2 : wf st2) by (unfold wf in *; cbn; eapply Forall_impl; [|exact W]; cbn; intros; lia).
  assert (V2 : Inv s fr st2) by exact V.
  destruct a.
  - eapply agrees_bind; [apply (list_agree b fr s st2 o1 F B); auto|].
    intros [sp o3] [[fl fr3] st3] H. pose proof H as (O3 & W3 & N3 & H3). cbn [fst snd] in O3, H3.
    destruct sp as [s3|m], fl; try contradiction.
    + destruct H3 as (F3 & ES3 & K3 & V3 & IF3 & R3). subst o3.
      eapply agrees_impl; [apply (IHw c b fr3 s3 st3 F3 B); auto|].
      intros y r Y. eapply XR_chain; [apply keeps_refl | exact X2 |]. fold st2.
      eapply XR_chain; [exact K3 | exact N3 | exact Y].
    + apply agrees_done. eapply XR_chain; [apply keeps_refl | | exact H]. exact X2.
  - apply agrees_done. repeat split; auto. cbn. exists F. repeat split; auto using keeps_refl; apply V.
Qed.
End Step.

Lemma simulation fns : plain fns = true -> forall k,
  (forall fr s e st, wf st -> Inv s fr st -> plain_expr e = true ->
     agrees (means k fns s e (out st)) (eval k fns fr e st) (ER fns st e)) /\
  (forall c fr s st F B, wf st -> Inv s fr st -> inF fr F -> stk st = F ++ B -> ret st = None ->
     plain_stmt c = true ->
     agrees (means_stmt k fns c s (out st)) (exec k fns c fr st) (XR fns F B st)) /\
  (forall c b fr s st F B, wf st -> Inv s fr st -> inF fr F -> stk st = F ++ B -> ret st = None ->
     plain_expr c = true -> forallb plain_stmt b = true ->
     agrees (means_while k fns c b s (out st)) (execWhile k fns c b fr st) (XR fns F B st)).
Proof.
  intros P. induction k as [|k (IHe & IHx & IHw)].
  - repeat split; intros; reflexivity.
  - split; [|split]; intros.
    + apply eval_step; auto.
    + apply exec_step; auto.
    + apply while_step; auto.
Qed.

Theorem script_runs k fns f : plain fns = true -> prints k fns f <> Some Crash ->
  callScript k fns f = prints k fns f.
Proof.
  intros P. unfold callScript, prints. rewrite functionTable_find.
  destruct (function fns f) as [fd|] eqn:Ef; auto.
  destruct (fd_params fd) as [|p ps] eqn:Ep; auto. intros NC. f_equal.
  apply function_in in Ef. destruct (fn_plain fns P fd Ef) as [_ Pb].
  destruct (simulation fns P k) as (IHe & IHx & IHw).
  pose proof (list_agree fns k IHe IHx (fd_body fd) [] empty (St [] 0 [] None) [] [] []) as H.
  assert (A : agrees (means_list (means_stmt k fns) (fd_body fd) empty []) (execList (exec k fns) (fd_body fd) [] (St [] 0 [] None))
     (XR fns [] [] (St [] 0 [] None))).
  { apply H; auto; try apply inv_empty; try (intros n i C; discriminate); constructor. }
  clear H. unfold agrees in A.
  destruct (means_list (means_stmt k fns) (fd_body fd) empty []) as [[sp o]|e o| |] eqn:EM.
  - destruct A as ([[fl fr] st] & -> & (O & W & N & H)). cbn [bind fst snd] in *.
    destruct sp as [s3|m], fl; try contradiction.
    + destruct H as (F3 & ES3 & K3 & V3 & IF3 & R3).
      destruct (leave_next _ _ _ _ st K3 ES3 R3) as (G & EG & _). cbn in EG. rewrite EG. cbn. congruence.
    + destruct H as (T3 & F3 & ES3 & AT3 & K3 & S3 & H3).
      destruct (leave_returned fns _ _ _ _ st T3 m K3 ES3 W N AT3 S3 H3)
        as (G & T4 & st4 & EL & _ & _ & _ & _ & _ & O4 & _). cbn in EL. rewrite EL. cbn. congruence.
  - rewrite A. reflexivity.
  - exfalso. apply NC. reflexivity.
  - rewrite A. reflexivity.
Qed.
