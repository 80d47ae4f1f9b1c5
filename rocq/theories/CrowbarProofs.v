(* The interpreter on the object stack agrees with the interpreter on values, for plain scripts. *)
From Coq Require Import Lia ZifyBool ZifyNat.
From Verif Require Import CrowbarModel CrowbarSpec.
Local Open Scope nat_scope.

(** ** Agreement, compositionally *)
Definition agrees {A B} (sp : outcome A) (md : outcome B) (R : A -> B -> Prop) : Prop :=
  match sp with
  | Crash => True
  | Fail e o => md = Fail e o
  | OutOfSteps => md = OutOfSteps
  | Done a => exists b, md = Done b /\ R a b
  end.

Lemma agrees_bind {A B C D} (sp : outcome A) (md : outcome B) R (f : A -> outcome C) (g : B -> outcome D) Q :
  agrees sp md R -> (forall a b, R a b -> agrees (f a) (g b) Q) -> agrees (bind sp f) (bind md g) Q.
Proof.
  unfold agrees. destruct sp; cbn; intros H K; auto.
  - destruct H as (b & -> & HR). cbn. apply K in HR. exact HR.
  - rewrite H. reflexivity.
  - rewrite H. reflexivity.
Qed.

Lemma agrees_done {A B} (a : A) (b : B) (R : A -> B -> Prop) : R a b -> agrees (Done a) (Done b) R.
Proof. intros H. exists b. auto. Qed.

Lemma agrees_impl {A B} (sp : outcome A) (md : outcome B) (R Q : A -> B -> Prop) :
  agrees sp md R -> (forall a b, R a b -> Q a b) -> agrees sp md Q.
Proof. unfold agrees. destruct sp; auto. intros (b & -> & H) K. eauto. Qed.

(** ** Names *)
Lemma bytes_eqb_true a : forall b, bytes_eqb a b = true -> a = b.
Proof.
  induction a as [|x a IH]; intros [|y b]; cbn; try discriminate; auto.
  intros H. apply andb_true_iff in H. destruct H as [H K]. apply Z.eqb_eq in H. apply IH in K. congruence.
Qed.
Lemma bytes_eqb_refl a : bytes_eqb a a = true.
Proof. induction a; cbn; auto. rewrite Z.eqb_refl. auto. Qed.
Lemma bytes_eqb_false a b : bytes_eqb a b = false <-> a <> b.
Proof.
  split.
  - intros H ->. rewrite bytes_eqb_refl in H. discriminate.
  - intros H. destruct (bytes_eqb a b) eqn:E; auto. apply bytes_eqb_true in E. contradiction.
Qed.

Lemma findVar_setVar {A} n (x : A) t m :
  findVar m (setVar n x t) = if bytes_eqb n m then Some x else findVar m t.
Proof.
  induction t as [|[k y] t IH]; cbn; auto.
  destruct (bytes_eqb k n) eqn:E; cbn.
  - apply bytes_eqb_true in E. subst k. destruct (bytes_eqb n m); auto.
  - destruct (bytes_eqb k m) eqn:F.
    + apply bytes_eqb_true in F. subst m.
      assert (G : bytes_eqb n k = false).
      { apply bytes_eqb_false. intros ->. rewrite bytes_eqb_refl in E. discriminate. }
      rewrite G. reflexivity.
    + apply IH.
Qed.

Lemma find_app {A} (f : A -> bool) l k : find f (l ++ k) = match find f l with Some x => Some x | None => find f k end.
Proof. induction l as [|x l IH]; cbn; auto. destruct (f x); auto. Qed.

Lemma functionTable_find fns n : findVar n (functionTable fns) = function fns n.
Proof.
  unfold functionTable, function.
  induction fns as [|f fns IH] using rev_ind; auto.
  rewrite fold_left_app, rev_app_distr. cbn. rewrite findVar_setVar, IH.
  destruct (bytes_eqb (fd_name f) n); auto.
Qed.

Lemma function_in fns n f : function fns n = Some f -> In f fns.
Proof. intros H. apply find_some in H. destruct H as [H _]. apply in_rev in H. exact H. Qed.

(** ** Objects *)
Lemma findObj_app id T S : findObj id (T ++ S) = match findObj id T with Some v => Some v | None => findObj id S end.
Proof. induction T as [|[i v] T IH]; cbn; auto. destruct (Nat.eqb i id); auto. Qed.
Lemma findObj_none id T : (forall v, ~ In (id, v) T) -> findObj id T = None.
Proof.
  induction T as [|[i v] T IH]; cbn; auto. intros H.
  destruct (Nat.eqb_spec i id) as [->|N].
  - exfalso. apply (H v). auto.
  - apply IH. intros w K. apply (H w). auto.
Qed.
Lemma findObj_in id T v : findObj id T = Some v -> In (id, v) T.
Proof.
  induction T as [|[i w] T IH]; cbn; try discriminate.
  destruct (Nat.eqb_spec i id) as [->|N]; intros H; [injection H as ->; auto | auto].
Qed.
Lemma findObj_ids id T : In id (map fst T) <-> findObj id T <> None.
Proof.
  induction T as [|[i w] T IH]; cbn.
  - split; [tauto | congruence].
  - destruct (Nat.eqb_spec i id) as [->|N].
    + split; [congruence | auto].
    + rewrite <- IH. split; [intros [C|C]; [contradiction | auto] | auto].
Qed.
Lemma findObj_set id w i S : findObj i (setObj id w S) =
  if Nat.eqb id i then match findObj i S with Some _ => Some w | None => None end else findObj i S.
Proof.
  induction S as [|[j v] S IH]; cbn.
  - destruct (Nat.eqb id i); auto.
  - destruct (Nat.eqb_spec j id) as [->|N]; cbn.
    + destruct (Nat.eqb_spec id i); auto.
    + destruct (Nat.eqb_spec j i) as [->|M].
      * destruct (Nat.eqb_spec id i); [congruence | reflexivity].
      * apply IH.
Qed.
Lemma setObj_app id w T S : In id (map fst T) -> setObj id w (T ++ S) = setObj id w T ++ S.
Proof.
  induction T as [|[j v] T IH]; cbn; [tauto|].
  intros H. destruct (Nat.eqb_spec j id) as [E|N]; auto.
  destruct H as [H|H]; [contradiction|]. rewrite IH; auto.
Qed.
Lemma setObj_skip id w T S : ~ In id (map fst T) -> setObj id w (T ++ S) = T ++ setObj id w S.
Proof.
  induction T as [|[j v] T IH]; cbn; auto.
  intros H. destruct (Nat.eqb_spec j id) as [E|N]; [exfalso; auto|]. rewrite IH; auto.
Qed.
Lemma setObj_ids id w S : map fst (setObj id w S) = map fst S.
Proof. induction S as [|[j v] S IH]; cbn; auto. destruct (Nat.eqb j id); cbn; congruence. Qed.
Lemma setObj_length id w S : length (setObj id w S) = length S.
Proof. rewrite <- (map_length fst), setObj_ids, map_length. reflexivity. Qed.

(** ** Text of numbers *)
Lemma digit_loop_digits k : forall f v buf, (0 <= v < 10 ^ Z.of_nat k)%Z -> (v < 2 ^ 64)%Z -> k <= f ->
  digit_loop f v 10 false buf = Some (digits k v ++ buf).
Proof.
  induction k as [|k IH]; intros f v buf H U L.
  - assert (v = 0%Z) as -> by (change (10 ^ Z.of_nat 0)%Z with 1%Z in H; lia).
    destruct f; reflexivity.
  - cbn [digits].
    destruct (Z.eqb_spec v 0) as [->|N]; [destruct f; reflexivity|].
    destruct f as [|f]; [lia|]. cbn [digit_loop].
    destruct (Z.eqb_spec v 0) as [C|_]; [contradiction|]. cbv zeta.
    assert (D : (0 <= v mod 10 < 10)%Z) by (apply Z.mod_pos_bound; lia).
    assert (Q : (0 <= v / 10)%Z) by (apply Z.div_pos; lia).
    assert (QL : (v / 10 <= v)%Z) by (apply Z.div_le_upper_bound; lia).
    assert (E : (v = 10 * (v / 10) + v mod 10)%Z) by (apply Z.div_mod; lia).
    assert (Eq : u64 (v / 10 * 10) = (v / 10 * 10)%Z) by (unfold u64; apply Z.mod_small; lia).
    assert (M : u32 (u64 (v - u64 (v / 10 * 10))) = (v mod 10)%Z).
    { rewrite Eq. unfold u32, u64. replace (v - v / 10 * 10)%Z with (v mod 10)%Z by lia.
      rewrite (Z.mod_small (v mod 10) (2 ^ 64)) by (clear - D; lia).
      rewrite (Z.mod_small (v mod 10) (2 ^ 32)) by (clear - D; lia). reflexivity. }
    rewrite M, IH.
    + rewrite <- app_assoc. unfold toDigit.
      destruct (Z.leb_spec (v mod 10) 35); [|lia]. destruct (Z.ltb_spec (v mod 10) 10); [|lia]. reflexivity.
    + split; auto. rewrite Nat2Z.inj_succ, Z.pow_succ_r in H by lia.
      apply Z.div_lt_upper_bound; lia.
    + lia.
    + lia.
Qed.

Definition vok (v : value) : Prop := match v with VInt a => (0 <= a < 2 ^ 32)%Z | _ => True end.

Lemma textOf_display v : vok v -> textOf v = Some (display v).
Proof.
  destruct v as [a|[]|s]; cbn [textOf display vok]; intros H; auto.
  unfold print_u64, decimal. cbn [Z.leb Z.compare Pos.compare Pos.compare_cont].
  change (2 <=? 10)%Z with true. cbv iota.
  destruct (Z.eqb_spec a 0) as [->|N]; auto.
  rewrite (digit_loop_digits 10); [rewrite app_nil_r; reflexivity | |lia|lia].
  change (10 ^ Z.of_nat 10)%Z with 10000000000%Z. lia.
Qed.

(** ** Invariants *)
Definition wf (st : state) : Prop := Forall (fun o => fst o < nxt st) (stk st).
Definition ext (st st' : state) (T : list (nat * value)) : Prop :=
  stk st' = T ++ stk st /\ nxt st <= nxt st' /\ Forall (fun o => nxt st <= fst o) T /\ wf st'.

Definition stands (fns : list fndef) (st : state) (r : option ref) (m : meaning) : Prop :=
  match m with
  | MVal v => exists x, r = Some x /\ valueOf st x = Some v /\ vok v
  | MFun f => r = Some (RFn f) /\ In f fns
  | MPrint => r = Some RPrint
  | MNothing => r = None
  end.
Definition handed (r : option ref) (T : list (nat * value)) : Prop :=
  match r with Some (RObj id) => exists v T', T = (id, v) :: T' | _ => True end.

Definition Inv (s : env) (fr : frame) (st : state) : Prop :=
  (forall n, match s n with
             | Some v => vok v /\ exists id, findVar n fr = Some (RObj id) /\ findObj id (stk st) = Some v
             | None => findVar n fr = None
             end) /\
  (forall n m id, findVar n fr = Some (RObj id) -> findVar m fr = Some (RObj id) -> n = m) /\
  (forall n, reserved n = true -> s n = None).
Definition inF (fr : frame) (F : list (nat * value)) : Prop :=
  forall n id, findVar n fr = Some (RObj id) -> In id (map fst F).

Lemma wf_find st id v : wf st -> findObj id (stk st) = Some v -> id < nxt st.
Proof.
  intros W H. apply findObj_in in H. unfold wf in W. rewrite Forall_forall in W. apply W in H. exact H.
Qed.
Lemma wf_ids st id : wf st -> In id (map fst (stk st)) -> id < nxt st.
Proof.
  intros W H. apply in_map_iff in H. destruct H as ([i v] & <- & H).
  unfold wf in W. rewrite Forall_forall in W. apply W in H. exact H.
Qed.

Lemma ext_notin st st' T id : ext st st' T -> id < nxt st -> ~ In id (map fst T).
Proof.
  intros (_ & _ & H & _) L C. apply in_map_iff in C. destruct C as ([i v] & E & C). cbn in E. subst i.
  rewrite Forall_forall in H. apply H in C. cbn in C. lia.
Qed.
Lemma ext_find st st' T id v : ext st st' T -> wf st -> findObj id (stk st) = Some v -> findObj id (stk st') = Some v.
Proof.
  intros X W H. pose proof (ext_notin _ _ _ _ X (wf_find _ _ _ W H)) as N.
  destruct X as (-> & _). rewrite findObj_app.
  destruct (findObj id T) eqn:E; auto.
  exfalso. apply N. apply findObj_ids. congruence.
Qed.
Lemma ext_value st st' T r v : ext st st' T -> wf st -> valueOf st r = Some v -> valueOf st' r = Some v.
Proof. intros X W. destruct r; cbn; auto. apply (ext_find _ _ _ _ _ X W). Qed.
Lemma ext_stands fns st st' T r m : ext st st' T -> wf st -> stands fns st r m -> stands fns st' r m.
Proof.
  intros X W. destruct m; cbn; auto. intros (x & -> & H & K). exists x. repeat split; auto.
  eapply ext_value; eauto.
Qed.
Lemma ext_inv s fr st st' T : ext st st' T -> wf st -> Inv s fr st -> Inv s fr st'.
Proof.
  intros X W (H & I & R). repeat split; auto.
  intros n. specialize (H n). destruct (s n); auto.
  destruct H as (V & id & H & K). split; auto. exists id. split; auto. eapply ext_find; eauto.
Qed.
Lemma ext_refl st : wf st -> ext st st [].
Proof. intros W. repeat split; auto. Qed.
Lemma ext_trans a b c T U : ext a b T -> ext b c U -> ext a c (U ++ T).
Proof.
  intros (A1 & A2 & A3 & A4) (B1 & B2 & B3 & B4). repeat split; auto.
  - rewrite B1, A1. apply app_assoc.
  - lia.
  - apply Forall_app. split; auto. eapply Forall_impl; [|exact B3]. cbn. intros. lia.
Qed.
Lemma ext_ret st st' T r : ext st st' T -> ext st (setRet r st') T.
Proof. intros (A1 & A2 & A3 & A4). repeat split; auto. Qed.
Lemma ext_ret_l st st' T r : ext (setRet r st) st' T -> ext st st' T.
Proof. intros (A1 & A2 & A3 & A4). repeat split; auto. Qed.
Lemma ext_wf st st' T : ext st st' T -> wf st'.
Proof. intros (_ & _ & _ & W). exact W. Qed.
Lemma ext_push v st st' T : ext st st' T -> ext st (pushTemp v st') ((nxt st', v) :: T).
Proof.
  intros (A1 & A2 & A3 & A4). repeat split; cbn.
  - rewrite A1. reflexivity.
  - lia.
  - constructor; cbn; auto.
  - constructor; cbn; [lia|]. eapply Forall_impl; [|exact A4]. cbn. intros. lia.
Qed.
Lemma inv_ret s fr st r : Inv s fr st -> Inv s fr (setRet r st).
Proof. intros H. exact H. Qed.
Lemma stands_ret fns st r' r m : stands fns st r m -> stands fns (setRet r' st) r m.
Proof. destruct m; cbn; auto. Qed.
Lemma wf_ret st r : wf st -> wf (setRet r st).
Proof. intros H. exact H. Qed.
