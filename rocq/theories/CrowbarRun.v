(* The simulation: expressions, statements, loops and calls. *)
From Coq Require Import Lia ZifyBool ZifyNat.
From Verif Require Import CrowbarModel CrowbarSpec CrowbarProofs.
Local Open Scope nat_scope.

(** ** Operators *)
Lemma typeOf_value st x v : valueOf st x = Some v -> typeOf st x = Some (typeOfValue v).
Proof. destruct x; cbn; try discriminate; intros H; try (injection H as <-; reflexivity). rewrite H. reflexivity. Qed.

Lemma stands_type fns st r m t : stands fns st r m -> typeName m = Some t ->
  exists x, r = Some x /\ typeOf st x = Some t.
Proof.
  destruct m; cbn; intros H T; try discriminate.
  - destruct H as (x & -> & H & _). exists x. split; auto. rewrite (typeOf_value _ _ _ H). exact T.
  - destruct H as [-> _]. exists (RFn f). auto.
  - subst r. exists RPrint. auto.
Qed.

Lemma repeat_loop_concat s n : forall acc, repeat_loop s n acc = acc ++ concat (repeat s n).
Proof.
  induction n as [|n IH]; intros acc; cbn; [rewrite app_nil_r; reflexivity|].
  rewrite IH, app_assoc. reflexivity.
Qed.

Definition pushed (st : state) (o : list Z) (x : meaning * list Z) (st' : state) : Prop :=
  exists v, x = (MVal v, o) /\ st' = pushTemp v st /\ vok v.

Lemma pushed_done st o v : vok v -> agrees (Done (MVal v, o)) (Done (pushTemp v st)) (pushed st o).
Proof. intros H. apply agrees_done. exists v. auto. Qed.

Lemma wrap_ok z : vok (wrap z).
Proof. cbn. apply Z.mod_pos_bound. lia. Qed.

Lemma pushed_crash {A B} (x : outcome B) (R : A -> B -> Prop) : agrees Crash x R.
Proof. exact I. Qed.

Lemma binary_agrees fns st l r a b op o : stands fns st l a -> stands fns st r b -> out st = o ->
  agrees (applied (binary op a b) (fun t => ErrBinary t op) a o) (binaryOp op l r st) (pushed st o).
Proof.
  intros L R O. destruct a as [v|f| |].
  - destruct L as (x & -> & V & VA). unfold binaryOp. rewrite (typeOf_value _ _ _ V), V.
    destruct v as [a|a|a].
    + assert (K : forall g gm, (forall c, (0 <= c < 2 ^ 32)%Z -> g a c = gm a c /\ (forall w, g a c = Some w -> vok w)) ->
        agrees (applied (Some (match b with MVal (VInt c) => orCrash (g a c) | _ => Crash end))
                  (fun t => ErrBinary t op) (MVal (VInt a)) o)
          (match match r with Some r => valueOf st r | None => None end with
           | Some (VInt c) => pushResult (gm a c) st | _ => Crash end) (pushed st o)).
      { intros g gm G. destruct b as [[c|c|c]|f| |]; try exact I.
        destruct R as (y & -> & W & WA). rewrite W. destruct (G c WA) as [E P]. rewrite <- E.
        unfold applied, pushResult. destruct (g a c) as [w|]; cbn [orCrash bind]; [|exact I].
        apply pushed_done. auto. }
      cbn in VA.
      destruct op; cbn [binary]; cbv zeta;
        try (subst o; reflexivity).
      * apply (K (fun a b => Some (wrap (a * b))) (arithmetic OMul)). intros c C. split; auto.
        intros w E. injection E as <-. apply wrap_ok.
      * apply (K (fun a b => if (b =? 0)%Z then None else Some (VInt (a / b))) (arithmetic ODiv)). intros c C. split; auto.
        intros w E. destruct (Z.eqb_spec c 0); [discriminate|]. injection E as <-. cbn.
        split; [apply Z.div_pos; lia|]. apply Z.div_lt_upper_bound; [lia|]. nia.
      * apply (K (fun a b => if (b =? 0)%Z then None else Some (VInt (a mod b))) (arithmetic OMod)). intros c C. split; auto.
        intros w E. destruct (Z.eqb_spec c 0); [discriminate|]. injection E as <-. cbn.
        pose proof (Z.mod_pos_bound a c ltac:(lia)). lia.
      * apply (K (fun a b => Some (wrap (a + b))) (arithmetic OAdd)). intros c C. split; auto.
        intros w E. injection E as <-. apply wrap_ok.
      * apply (K (fun a b => Some (wrap (a - b))) (arithmetic OSub)). intros c C. split; auto.
        intros w E. injection E as <-. apply wrap_ok.
      * apply (K (fun a b => Some (VBool (a <? b)%Z)) (arithmetic OLt)). intros c C. split; auto.
        intros w E. injection E as <-. exact I.
      * apply (K (fun a b => Some (VBool (a <=? b)%Z)) (arithmetic OLe)). intros c C. split; auto.
        intros w E. injection E as <-. exact I.
      * apply (K (fun a b => Some (VBool (b <? a)%Z)) (arithmetic OGt)). intros c C. split; auto.
        intros w E. injection E as <-. exact I.
      * apply (K (fun a b => Some (VBool (b <=? a)%Z)) (arithmetic OGe)). intros c C. split; auto.
        intros w E. injection E as <-. exact I.
      * apply (K (fun a b => Some (VBool (a =? b)%Z)) (arithmetic OEq)). intros c C. split; auto.
        intros w E. injection E as <-. exact I.
    + destruct op; cbn [binary]; cbv zeta; try (subst o; reflexivity);
        destruct b as [[c|c|c]|f| |]; try exact I;
        destruct R as (y & -> & W & WA); rewrite W; apply pushed_done; exact I.
    + destruct op; cbn [binary]; try (subst o; reflexivity).
      * destruct b as [[c|c|c]|f| |]; try exact I.
        destruct R as (y & -> & W & WA). rewrite W. cbn in WA.
        destruct (Z.ltb_spec (zlen a * c) (2 ^ 32)) as [C|C]; [|exact I].
        unfold sv_repeat. rewrite Z2Nat.id by lia.
        assert (E : u32 (zlen a * c) = (zlen a * c)%Z).
        { unfold u32. apply Z.mod_small. split; [apply Z.mul_nonneg_nonneg; [unfold zlen; lia | lia] | exact C]. }
        rewrite E, Z.leb_refl, repeat_loop_concat. apply pushed_done. exact I.
      * destruct b as [[c|c|c]|f| |]; try exact I.
        destruct R as (y & -> & W & WA). rewrite W.
        destruct (Z.ltb_spec (zlen a + zlen c) (2 ^ 32)) as [C|C]; [|exact I].
        unfold sv_concat.
        assert (E : u32 (zlen a + zlen c) = (zlen a + zlen c)%Z).
        { unfold u32. apply Z.mod_small. split; [unfold zlen; lia | exact C]. }
        rewrite E, Z.leb_refl. apply pushed_done. exact I.
  - destruct L as [-> _]. subst o. reflexivity.
  - cbn in L. subst l o. reflexivity.
  - exact I.
Qed.

Lemma lnot_u32 a : (0 <= a < 2 ^ 32)%Z -> u32 (Z.lnot a) = (2 ^ 32 - 1 - a)%Z.
Proof.
  intros H. unfold u32. unfold Z.lnot. replace (Z.pred (- a))%Z with ((2 ^ 32 - 1 - a) + (-1) * 2 ^ 32)%Z by lia.
  rewrite Z.mod_add by lia. apply Z.mod_small. lia.
Qed.

Lemma unary_agrees fns st r a op o : stands fns st r a -> out st = o ->
  agrees (applied (unary op a) (fun t => ErrUnary t op) a o) (unaryOp op r st) (pushed st o).
Proof.
  intros R O. destruct a as [v|f| |].
  - destruct R as (x & -> & V & VA). unfold unaryOp. rewrite (typeOf_value _ _ _ V), V.
    destruct v as [a|a|a]; destruct op; cbn [unary]; try (subst o; reflexivity).
    + apply (pushed_done st o (wrap (- a))). apply wrap_ok.
    + apply pushed_done. unfold vok. destruct (a =? 0)%Z; lia.
    + rewrite lnot_u32 by exact VA. apply pushed_done. unfold vok in *. lia.
    + apply pushed_done. exact I.
  - destruct R as [-> _]. subst o. destruct op; reflexivity.
  - cbn in R. subst r o. destruct op; reflexivity.
  - exact I.
Qed.

(** ** Deleting temporaries *)
Lemma skipn_app_exact {A} (T S : list A) : skipn (length (T ++ S) - length S) (T ++ S) = S.
Proof.
  rewrite app_length. replace (length T + length S - length S) with (length T) by lia.
  rewrite skipn_app, skipn_all, Nat.sub_diag. reflexivity.
Qed.
Lemma deleteAll_app n st T S : stk st = T ++ S -> length S = n -> deleteAll n st = Done (St S (nxt st) (out st) (ret st)).
Proof.
  intros E L. unfold deleteAll. rewrite E.
  destruct (Nat.leb_spec n (length (T ++ S))) as [C|C]; [|rewrite app_length in C; lia].
  subst n. rewrite skipn_app_exact. reflexivity.
Qed.
Lemma deleteBelowTop_app n st id v T S : stk st = (id, v) :: T ++ S -> length S = n ->
  exists id' m, deleteBelowTop n st = Done (St ((id', v) :: S) m (out st) (ret st)) /\ nxt st <= m /\
    (id' = id /\ m = nxt st \/ id' = nxt st /\ m = Datatypes.S (nxt st)).
Proof.
  intros E L. unfold deleteBelowTop. rewrite E.
  destruct (Nat.eqb_spec n (length (T ++ S))) as [C|C].
  - rewrite app_length in C. assert (T = []) as -> by (destruct T; [reflexivity | cbn in C; lia]).
    exists id, (nxt st). split; [|split; [lia|left; auto]].
    destruct st as [k0 n0 o0 r0]. cbn in E |- *. subst k0. reflexivity.
  - destruct (Nat.leb_spec n (length (T ++ S))) as [C'|C']; [|rewrite app_length in C'; lia].
    exists (nxt st), (Datatypes.S (nxt st)). split; [|split; [lia|right; auto]].
    subst n. rewrite skipn_app_exact. reflexivity.
Qed.

Lemma agrees_bind_ret {A B} (sp : outcome A) (md : outcome B) R : agrees sp (bind md (fun r => Done r)) R -> agrees sp md R.
Proof. destruct md; auto. Qed.

(** ** Expressions *)
Section Step.
Variable fns : list fndef.
Hypothesis plain_fns : plain fns = true.
Variable k : nat.

Definition ER (st : state) (e : expr) (x : meaning * list Z) (st' : state) : Prop :=
  exists T, ext st st' T /\ out st' = snd x /\ stands fns st' (ret st') (fst x) /\
    (computed e = true -> handed (ret st') T).

Hypothesis IHe : forall fr s e st, wf st -> Inv s fr st -> plain_expr e = true ->
  agrees (means k fns s e (out st)) (eval k fns fr e st) (ER st e).

Lemma pieces_agree fr s ps : forall acc st o, wf st -> Inv s fr st -> out st = o ->
  forallb (fun p => match snd p with Some e => plain_expr e | None => true end) ps = true ->
  agrees (means_pieces (means k fns s) ps o) (evalPieces (eval k fns fr) ps acc st)
    (fun x r => fst r = acc ++ fst x /\ out (snd r) = snd x /\ exists T, ext st (snd r) T).
Proof.
  induction ps as [|[lit e] ps IH]; intros acc st o W V O P; subst o; cbn [means_pieces evalPieces].
  - apply agrees_done. cbn. rewrite app_nil_r. repeat split; auto. exists []. apply ext_refl. exact W.
  - cbn [forallb snd] in P. apply andb_true_iff in P. destruct P as [Pe P].
    destruct e as [e|].
    + assert (Q : agrees (bind (means k fns s e (out st)) (fun r => match r with (MVal v, o) => Done (display v, o) | _ => Crash end))
        (bind (eval k fns fr e st) (fun st => match ret st with None => Crash | Some r => match valueOf st r with None => Crash
            | Some v => match textOf v with None => Crash | Some t => Done (t, setRet None st) end end end))
        (fun x r => fst r = fst x /\ out (snd r) = snd x /\ exists T, ext st (snd r) T)).
      { eapply agrees_bind; [apply (IHe fr s e st W V Pe)|].
        intros [m o1] st1 (T & X & O1 & Sd & _). cbn in O1, Sd.
        destruct m; try exact I. destruct Sd as (r & -> & Vr & Ok). rewrite Vr, textOf_display by exact Ok.
        apply agrees_done. cbn. repeat split; auto. exists T. apply ext_ret. exact X. }
      match goal with |- agrees _ ?m _ =>
        assert (E : m = bind (bind (eval k fns fr e st) (fun st => match ret st with None => Crash | Some r => match valueOf st r with None => Crash
            | Some v => match textOf v with None => Crash | Some t => Done (t, setRet None st) end end end))
          (fun x => evalPieces (eval k fns fr) ps (acc ++ lit ++ fst x) (snd x))) end.
      { destruct (eval k fns fr e st) as [st1| | |]; cbn [bind]; auto.
        destruct (ret st1) as [r|]; cbn [bind]; auto. destruct (valueOf st1 r) as [v|]; cbn [bind]; auto.
        destruct (textOf v); cbn [bind fst snd]; auto. }
      rewrite E. eapply agrees_bind; [exact Q|].
      intros [t o1] [t' st1]. cbn [fst snd]. intros (-> & O1 & T & X).
      apply agrees_bind_ret.
      eapply agrees_bind; [apply (IH (acc ++ lit ++ t) st1 o1 (ext_wf _ _ _ X) (ext_inv _ _ _ _ _ X W V) O1 P)|].
      intros [rest o2] [all st2]. cbn [fst snd]. intros (-> & O2 & U & Y). apply agrees_done. cbn.
      repeat split; auto.
      * rewrite <- !app_assoc. reflexivity.
      * exists (U ++ T). eapply ext_trans; eauto.
    + cbn [bind].
      apply agrees_bind_ret.
      eapply agrees_bind; [apply (IH (acc ++ lit) st (out st) W V eq_refl P)|].
      intros [rest o2] [all st2]. cbn [fst snd]. intros (-> & O2 & U & Y). apply agrees_done. cbn.
      repeat split; auto.
      * rewrite <- !app_assoc. reflexivity.
      * exists U. exact Y.
Qed.

Lemma appendMoved_agree st st1 T r v : ext st st1 T -> wf st -> ret st1 = Some r -> valueOf st1 r = Some v ->
  handed (Some r) T -> onTop st1 = false ->
  exists st2, appendMoved st1 = Done st2 /\ ext st st2 ((nxt st1, v) :: T) /\ out st2 = out st1.
Proof.
  intros X W R V H O. unfold appendMoved. rewrite R, V.
  pose proof X as (X1 & X2 & X3 & X4).
  assert (NR : forall j, r <> RObj j).
  { intros j ->. destruct H as (w & T' & ->). unfold onTop in O. rewrite X1, R in O. cbn in O.
    rewrite Nat.eqb_refl in O. discriminate. }
  unfold moveTo. cbn [append stk findObj]. rewrite Nat.eqb_refl.
  assert (V2 : valueOf (append (construct (typeOfValue v)) st1) r = Some v).
  { destruct r; cbn in *; auto. exfalso. eapply NR. reflexivity. }
  rewrite V2.
  assert (TY : tyEqb (typeOfValue (construct (typeOfValue v))) (typeOfValue v) = true) by (destruct v; reflexivity).
  rewrite TY. cbn [setObj]. rewrite Nat.eqb_refl.
  eexists. split; [reflexivity|].
  destruct r as [j| | | |]; try (exfalso; eapply NR; reflexivity); cbn; repeat split; cbn; auto;
    try (rewrite X1; reflexivity); try (lia); try (constructor; cbn; auto);
    try (eapply Forall_impl; [|exact X4]; cbn; intros; lia).
Qed.

Lemma args_agree fr s args : forall acc st o, wf st -> Inv s fr st -> out st = o ->
  forallb (fun a => computed a && plain_expr a) args = true ->
  agrees (means_args (means k fns s) args o) (evalArgs (eval k fns fr) args acc st)
    (fun x r => exists ids T, fst r = acc ++ ids /\ out (snd r) = snd x /\ ext st (snd r) T /\
       length ids = length (fst x) /\ NoDup ids /\ Forall vok (fst x) /\
       (forall i v, nth_error (fst x) i = Some v ->
          exists id, nth_error ids i = Some id /\ findObj id (stk (snd r)) = Some v) /\
       (forall id, In id ids -> In id (map fst T)) /\
       (args = [] -> snd r = st) /\ (args <> [] -> ret (snd r) = None)).
Proof.
  induction args as [|a args IH]; intros acc st o W V O P; subst o; cbn [means_args evalArgs].
  - apply agrees_done. exists [], []. cbn [fst snd]. rewrite app_nil_r.
    split; [reflexivity|]. split; [reflexivity|]. split; [apply ext_refl; exact W|].
    split; [reflexivity|]. split; [constructor|]. split; [constructor|].
    split; [intros i v H; destruct i; discriminate|]. split; [intros id []|].
    split; [reflexivity | congruence].
  - cbn [forallb] in P. apply andb_true_iff in P. destruct P as [Pa P]. apply andb_true_iff in Pa. destruct Pa as [Ca Pa].
    eapply agrees_bind; [apply (IHe fr s a st W V Pa)|].
    intros [m o1] st1 (T & X & O1 & Sd & H). cbn in O1, Sd. specialize (H Ca).
    destruct m as [v|f| |]; try exact I. destruct Sd as (r & R & Vr & Ok).
    assert (G : exists id st2 T2, (if onTop st1 then Done st1 else appendMoved st1) = Done st2 /\
        ext st st2 T2 /\ out st2 = out st1 /\ exists rest, stk st2 = (id, v) :: rest /\ In id (map fst T2)).
    { destruct (onTop st1) eqn:OT.
      - unfold onTop in OT. rewrite R in OT, H.
        destruct X as (X1 & X2 & X3 & X4).
        destruct (stk st1) as [|[i w] rest] eqn:ES; [discriminate|].
        destruct r as [j| | | |]; try discriminate. apply Nat.eqb_eq in OT. subst i.
        destruct H as (w' & T' & ->). cbn in X1. injection X1 as <- ->.
        cbn in Vr. rewrite ES in Vr. cbn in Vr. rewrite Nat.eqb_refl in Vr. injection Vr as <-.
        exists j, st1, ((j, w) :: T'). split; [reflexivity|]. split.
        { repeat split; auto. }
        split; [reflexivity|]. exists (T' ++ stk st). split; auto. cbn. auto.
      - rewrite R in H. destruct (appendMoved_agree st st1 T r v X W R Vr H OT) as (st2 & E & X2 & O2).
        exists (nxt st1), st2, ((nxt st1, v) :: T). split; auto. split; auto. split; auto.
        exists (T ++ stk st). split; [apply X2 | cbn; auto]. }
    destruct G as (id & st2 & T2 & E & X2 & O2 & rest & ES & IT). rewrite E. cbn [bind]. rewrite ES.
    apply agrees_bind_ret.
    assert (X2' : ext st (setRet None st2) T2) by (apply ext_ret; exact X2).
    eapply agrees_bind; [apply (IH (acc ++ [id]) (setRet None st2) o1 (ext_wf _ _ _ X2') (ext_inv _ _ _ _ _ X2' W V))|].
    + cbn. congruence.
    + exact P.
    + intros [vs o2] [all st3]. cbn [fst snd]. intros (ids & T3 & -> & O3 & X3 & L & ND & FV & N & IN & E0 & E1).
      apply agrees_done. exists (id :: ids), (T3 ++ T2). cbn.
      assert (L2 : id < nxt st2).
      { apply (wf_find _ _ v (ext_wf _ _ _ X2)). rewrite ES. cbn. rewrite Nat.eqb_refl. reflexivity. }
      repeat split.
      * rewrite <- app_assoc. reflexivity.
      * exact O3.
      * eapply ext_trans in X3; [|exact X2']. apply X3.
      * eapply ext_trans in X3; [|exact X2']. apply X3.
      * eapply ext_trans in X3; [|exact X2']. apply X3.
      * eapply ext_trans in X3; [|exact X2']. apply X3.
      * congruence.
      * constructor; auto. intros C. apply IN in C. revert C. eapply ext_notin; [exact X3|]. exact L2.
      * constructor; auto.
      * intros i w HN. destruct i as [|i]; cbn in HN.
        { injection HN as <-. exists id. split; auto.
          eapply ext_find; [exact X3 | apply wf_ret; apply (ext_wf _ _ _ X2) |]. cbn. rewrite ES. cbn.
          rewrite Nat.eqb_refl. reflexivity. }
        { apply N in HN. exact HN. }
      * intros i [->|C]; rewrite map_app, in_app_iff; auto.
      * discriminate.
      * intros _. destruct args; [rewrite E0 by reflexivity; reflexivity | apply E1; discriminate].
Qed.
End Step.
