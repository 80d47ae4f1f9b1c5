(* Proofs about saving and loading with the same types. *)
From Coq Require Import Lia ZifyBool ZifyNat.
From Verif Require Import PersistModel PersistSpec PersistSchema PersistWriteProofs PersistReadProofs PersistProofs PersistNum.
Local Notation length := List.length.
Local Notation "'do' x <- a ; b" := (match a with Some x => b | None => None end) (at level 200, x pattern, a at level 100, b at level 200).

Section Same.
Context (env : list tdesc) (dflt : tptr -> val) (target : Z -> option tptr) (HC : constructs env dflt) (HD : Forall (desc_ok env) env).
Definition typed (ps : list piece) : Prop :=
  (forall a u, In (Object a u) ps -> creatable env u = true /\ forall x, target a = Some x -> x = u) /\ (forall a u, In (Pointer a u) ps -> target a = Some u).
Lemma typed_app l r : typed (l ++ r) -> typed l /\ typed r.
Proof. intros [A B]. split; split; intros; [apply A|apply B|apply A|apply B]; apply in_or_app; auto. Qed.
Lemma typed_cons p r : typed (p :: r) -> typed r.
Proof. intros H. exact (proj2 (typed_app [p] r H)). Qed.
Lemma desc_good t d : desc env t = Some d -> desc_ok env d.
Proof. intros H. destruct t as [| |i]; try discriminate. cbn in H. rewrite Forall_forall in HD. apply HD. eapply nth_error_In; eauto. Qed.
Lemma made_dflt t v ps : layout env t v ps -> made env t (dflt t).
Proof.
  intros L. apply HC. destruct t as [| |i]; auto. inversion L; subst; match goal with H : desc env (PUser i) = Some _ |- _ => cbn in H; apply nth_error_Some; congruence end.
Qed.
Lemma plain_dflt t : plain (dflt t).
Proof. apply HC. Qed.
Definition refl1 v := forall t ps old, layout env t v ps -> made env t old -> typed ps -> adapts env env dflt target t t v old v.
Lemma all_refl u : forall l ol pss, Forall refl1 l -> Forall2 (layout env u) l pss -> length ol = length l -> Forall (made env u) ol -> typed (concat pss) -> adaptsAll env env dflt target u u l ol l.
Proof.
  intros l ol pss IH H. revert ol. induction H as [|v p l pss Hv H IHl]; intros [|o ol] E M T; try discriminate; constructor; inversion IH; inversion M; subst; cbn [concat] in T; apply typed_app in T; destruct T as [T1 T2].
  - eauto.
  - apply IHl; auto.
Qed.
Lemma members_nth ms l pss : members env ms l pss -> forall k n u v, nth_error ms k = Some (n, u) -> nth_error l k = Some v -> exists p, nth_error pss k = Some p /\ layout env u v p.
Proof.
  induction 1 as [|n t ms v l p pss Hv H IH]; intros [|k] n1 u1 v1 E1 E2; try discriminate; cbn in *.
  - injection E1 as -> ->. injection E2 as ->. eauto.
  - eauto.
Qed.
Lemma members_len ms l pss : members env ms l pss -> length ms = length l.
Proof. induction 1; cbn; congruence. Qed.
Lemma typed_nth pss k p : nth_error pss k = Some p -> typed (concat pss) -> typed p.
Proof. revert k. induction pss as [|q pss IH]; intros [|k] E T; try discriminate; cbn [concat] in T; apply typed_app in T; destruct T as [T1 T2]; cbn in E; [congruence|eauto]. Qed.
Lemma nth_Forall {A} (P : A -> Prop) l k x : Forall P l -> nth_error l k = Some x -> P x.
Proof. intros H E. rewrite Forall_forall in H. apply H. eapply nth_error_In; eauto. Qed.
Ltac uni := match goal with H : desc ?e ?x = Some ?a, K : desc ?e ?x = Some ?b |- _ =>
  let Q := fresh in assert (Q : a = b) by congruence; try discriminate Q; injection Q; clear H Q; intros; subst end.
Ltac dis := try discriminate; try congruence; try (exfalso; congruence).
Lemma adapts_refl v : refl1 v.
Proof.
  induction v as [z|x|l IH|l IH|a v IH| |a|i u|j v IH] using val_ind2; intros t ps old L M T; inversion L; subst.
  - (* number *) constructor. now apply cast_same.
  - (* enum *) match goal with H : desc env t = Some _ |- _ => pose proof (desc_good _ _ H) as G end. cbn [desc_ok] in G. destruct G as (G1 & G2 & G3 & [G4 G4'] & G5).
    match goal with H : nth_error (map snd ids) j = Some z |- _ => rename H into EJ end.
    destruct (nth_error ids j) as [[x y]|] eqn:EI; [|exfalso; rewrite nth_error_map, EI in EJ; discriminate].
    assert (y = z) as -> by (rewrite nth_error_map, EI in EJ; cbn in EJ; congruence).
    eapply ad_enum; eauto; [eapply nth_error_In; eauto|]. exact (nth_Forall _ _ _ _ G5 EI).
  - constructor.
  - (* fixed *) inversion M; subst; dis. uni. eapply ad_fixed; eauto. eapply all_refl; eauto.
    match goal with H : zlen _ = zlen _ |- _ => revert H end. unfold zlen. lia.
  - (* struct *) inversion M; subst; dis. uni. match goal with H : desc env t = Some _ |- _ => pose proof (desc_good _ _ H) as G end. cbn [desc_ok] in G. destruct G as (G1 & G2 & G3 & G4 & [G5 G6]).
    match goal with H : members env _ l _ |- _ => rename H into HM end. match goal with H : Forall2 _ _ l0 |- _ => rename H into HF end. pose proof (members_len _ _ _ HM). pose proof (Forall2_len _ _ _ HF).
    eapply ad_struct; eauto; try congruence.
    + intros k n u o w E1 E2 E3. right. exists k, u, w. split; [exact E1|]. split; [exact E3|]. destruct (members_nth _ _ _ HM _ _ _ _ E1 E3) as (p & P1 & P2).
      destruct (Forall2_nth _ _ _ _ _ HF E1) as (o' & O1 & O2). cbn [snd] in O2. assert (o' = o) as -> by congruence.
      exact (nth_Forall _ _ _ _ IH E3 _ _ _ P2 O2 (typed_nth _ _ _ P1 T)).
    + intros k n u v E1 E2 E3. elim E3. apply nth_error_In in E1. change n with (fst (n, u)). now apply in_map.
  - (* enum array *) inversion M; subst; dis. uni. match goal with H : desc env t = Some _ |- _ => pose proof (desc_good _ _ H) as G end. cbn [desc_ok] in G. destruct G as (name1 & n1 & ids1 & G1 & G2).
    match type of G1 with nth_error env ?x = _ => try rename x into e end.
    assert (G : desc_ok env (TEnum name1 n1 ids1)) by (apply (desc_good (PUser e)); exact G1). cbn [desc_ok] in G. destruct G as (_ & _ & _ & [G4 G4'] & _).
    repeat match goal with H : nth_error env e = Some (TEnum _ _ ?i) |- _ => lazymatch goal with _ : length _ = length i |- _ => assert (i = ids1) by congruence; clear H end end.
    assert (length l = length ids1) by congruence. assert (length l0 = length ids1) by congruence.
    match goal with H : Forall2 _ l _ |- _ => rename H into HF end. match goal with H : Forall (made env _) _ |- _ => rename H into HM end. 
    eapply (ad_enumarray _ _ _ _ t t) with (ids := ids1) (ids' := ids1); eauto; try congruence.
    + intros k x o w E1 E2 E3. right. exists k, w. split; [exact E1|]. split; [exact E3|]. destruct (Forall2_nth _ _ _ _ _ HF E3) as (p & P1 & P2).
      exact (nth_Forall _ _ _ _ IH E3 _ _ _ P2 (nth_Forall _ _ _ _ HM E2) (typed_nth _ _ _ P1 T)).
    + intros k x v E1 E2 E3. elim E3. eapply nth_error_In; eauto.
  - (* array *) eapply ad_array; eauto. match goal with H : Forall2 _ l _ |- _ => rename H into HF end. eapply all_refl; eauto; [now rewrite map_length| |exact (typed_cons _ _ T)].
    apply Forall_forall. intros o Ho. apply in_map_iff in Ho. destruct Ho as (x & <- & Hx). apply In_nth_error in Hx. destruct Hx as [k Hk]. destruct (Forall2_nth _ _ _ _ _ HF Hk) as (p & _ & P2).
    eapply made_dflt; eauto.
  - (* owned *) inversion M; subst; dis. uni. destruct T as [T1 T2]. destruct (T1 a _ (or_introl eq_refl)) as [C1 C2]. eapply ad_owned; eauto. eapply IH; eauto; [eapply made_dflt; eauto|].
    split; intros; [apply T1|apply T2]; now right.
  - (* raw *) eapply ad_raw; eauto. apply T. now left.
  - (* switch *) inversion M; subst; dis. uni. match goal with H : desc env t = Some _ |- _ => pose proof (desc_good _ _ H) as G end. cbn [desc_ok] in G. destruct G as (_ & _ & [G _] & _).
    match goal with H : nth_error _ j = Some (_, s) |- _ => rename H into EJ end. match goal with H : nth_error _ j0 = Some _ |- _ => rename H into EK end.
    eapply ad_switch; eauto. eapply IH; eauto; [|exact (typed_cons _ _ T)]. destruct (Nat.eqb_spec j0 j) as [->|Q]; [|eapply made_dflt; eauto].
    rewrite EJ in EK. injection EK as <-. assumption.
Qed.
End Same.

Lemma marks_object ps a u : forall o, In (Object a u) ps -> exists x, In (a, u, x) (marks o ps).
Proof.
  induction ps as [|p ps IH]; intros o H; [elim H|]. cbn [marks]. destruct H as [->|H]; [exists o; now left|]. destruct (IH (o + width p) H) as [x Hx]. exists x. apply in_or_app. now right.
Qed.
Theorem round_trip env dflt t v ps file : types_ok env t -> Forall (desc_ok env) env -> constructs env dflt -> creatable env t = true ->
  layout env t v ps -> (forall a u, In (Object a u) ps -> creatable env u = true) -> apart ps ->
  writeAsset env t v = Some file -> zlen file < 2 ^ 32 ->
  exists v', readAsset env dflt t file = Some v' /\ same v v'.
Proof.
  intros TO HD HC CR L HO AP W LEN. destruct (written _ _ _ _ _ L W) as (id & c & os & EF & EI & EM & NA & NO & IX & PF & PT).
  set (target := fun a => match findOwned os a with Some (u, _) => Some u | None => None end).
  eapply (load_adapts env env dflt target); eauto.
  - intros a u Ha. destruct (PF _ _ Ha) as [i Hi]. unfold target. now rewrite Hi.
  - apply HC.
  - eapply adapts_refl; eauto; [eapply made_dflt; eauto|]. split.
    + intros a u Ha. split; [eauto|]. intros x Hx. destruct (marks_object _ _ _ 4 Ha) as [o Ho]. rewrite <- EM in Ho. apply in_map_iff in Ho. destruct Ho as (e & E1 & E2).
      unfold target in Hx. pose proof (findOwned_in _ _ NA E2) as Q. unfold addr in Q. rewrite E1 in Q. cbn [fst snd] in Q. rewrite Q in Hx. congruence.
    + intros a u Ha. destruct (PF _ _ Ha) as [i Hi]. unfold target. now rewrite Hi.
Qed.
