(* Proofs about exporting to Pylon and importing. *)
From Coq Require Import Lia ZifyBool ZifyNat.
From Verif Require Import PersistModel.
From Verif Require Export Base PylonReflectModel PylonReflectSpec.
Local Notation length := List.length.

Scheme savable_ind2 := Induction for savable Sort Prop
with savable_all_ind2 := Induction for savable_all Sort Prop.
Combined Scheme savable_both from savable_ind2, savable_all_ind2.

Lemma leb_eq a b : list_eqb a b = true <-> a = b.
Proof.
  revert b. induction a as [|x a IH]; intros [|y b]; cbn [list_eqb]; split; intro H; try reflexivity; try discriminate.
  - apply andb_prop in H. destruct H as [H1 H2]. apply Z.eqb_eq in H1. apply IH in H2. congruence.
  - injection H as -> ->. rewrite Z.eqb_refl. cbn. now apply IH.
Qed.
Lemma leb_refl a : list_eqb a a = true.
Proof. now apply leb_eq. Qed.
Lemma leb_neq a b : a <> b -> list_eqb a b = false.
Proof. intro H. destruct (list_eqb a b) eqn:E; [|reflexivity]. apply leb_eq in E. contradiction. Qed.

Lemma setItem_new k v l : ~ In k (map fst l) -> setItem k v l = l ++ [(k, v)].
Proof.
  induction l as [|[k' v'] l IH]; cbn [setItem map fst In app]; intro H; [reflexivity|].
  rewrite leb_neq by intuition. now rewrite IH by intuition.
Qed.
Lemma getItem_in k v l : NoDup (map fst l) -> In (k, v) l -> getItem k l = Some v.
Proof.
  induction l as [|[k' v'] l IH]; cbn [getItem map fst In]; intros N H; [contradiction|].
  inversion_clear N as [|? ? N1 N2]. destruct H as [H|H].
  - injection H as -> ->. now rewrite leb_refl.
  - rewrite leb_neq; [now apply IH|]. intros ->. apply N1. apply in_map_iff. now exists (k, v).
Qed.
Lemma getItem_out k l : ~ In k (map fst l) -> getItem k l = None.
Proof.
  induction l as [|[k' v'] l IH]; cbn [getItem map fst In]; intro H; [reflexivity|].
  rewrite leb_neq by intuition. apply IH. intuition.
Qed.

Section Proofs.
Variable env : list tdesc.
Variable number : num -> list Z -> option Z.
Variable fresh : tptr -> obj.
Hypothesis Cok : constructors_ok env fresh.
Notation convert := (convertFrom env number fresh).
Notation export := (exportObj env noFilter).

Fixpoint exportMembers (ms : list (list Z * tptr)) (l : list obj) (acc : list (list Z * node)) {struct l} : option node :=
  match ms, l with
  | [], [] => Some (Object acc)
  | (name, t) :: ms, o :: l => match export t o with Some n => exportMembers ms l (setItem name n acc) | None => None end
  | _, _ => None
  end.
Fixpoint exportItems (item : tptr) (l : list obj) (acc : list node) {struct l} : option node :=
  match l with
  | [] => Some (Array acc)
  | o :: l => match export item o with Some n => exportItems item l (acc ++ [n]) | None => None end
  end.
Lemma export_struct i name params ms l : nth_error env i = Some (TStruct name params ms) ->
  export (PUser i) (OSeq l) = exportMembers ms l [].
Proof. intro E. cbn [exportObj noFilter]. rewrite E. reflexivity. Qed.
Lemma export_array i item l : nth_error env i = Some (TArray item) -> export (PUser i) (OArr l) = exportItems item l [].
Proof.
  intro E. cbn [exportObj noFilter]. rewrite E.
  match goal with |- ?f l [] = _ => assert (forall acc, f l acc = exportItems item l acc) as H; [|apply H] end.
  clear E. induction l as [|o l IH]; intro acc; [reflexivity|].
  cbn [exportItems]. destruct (export item o); [apply IH|reflexivity].
Qed.

Inductive all3 (R : tptr -> obj -> node -> Prop) : list tptr -> list obj -> list node -> Prop :=
| a3_nil : all3 R [] [] []
| a3_cons t o n ts l ns : R t o n -> all3 R ts l ns -> all3 R (t :: ts) (o :: l) (n :: ns).
Lemma all3_impl (R Q : tptr -> obj -> node -> Prop) ts l ns : (forall t o n, R t o n -> Q t o n) -> all3 R ts l ns -> all3 Q ts l ns.
Proof. intros H A. induction A; constructor; auto. Qed.
Lemma all3_len R ts l ns : all3 R ts l ns -> length ts = length l /\ length ts = length ns.
Proof. intro A. induction A; cbn [List.length]; intuition. Qed.

(** What is exported, and what comes back from it. *)
Definition good (f0 : nat) (t : tptr) (o : obj) (n : node) : Prop :=
  export t o = Some n /\ (forall f old, (f0 <= f)%nat -> fits env t old -> convert f t old n = Got o) /\
  (texts_ok env t o -> tree_ok n).
Lemma good_mono f0 f1 t o n : (f0 <= f1)%nat -> good f0 t o n -> good f1 t o n.
Proof. intros H (G1 & G2 & G3). split; [assumption|]. split; [|assumption]. intros f old F. apply G2. lia. Qed.

Lemma exportMembers_good f0 ms l ns : all3 (good f0) (map snd ms) l ns -> forall acc, NoDup (map fst acc ++ map fst ms) ->
  exportMembers ms l acc = Some (Object (acc ++ combine (map fst ms) ns)).
Proof.
  revert l ns. induction ms as [|[name t] ms IH]; intros l ns A acc N; cbn [map fst snd] in A.
  - inversion A; subst. cbn [exportMembers map combine]. now rewrite app_nil_r.
  - inversion A as [|? o n ? l' ns' G A']; subst. cbn [exportMembers map fst combine]. rewrite (proj1 G).
    assert (~ In name (map fst acc)) as Nin.
    { cbn [map fst] in N. apply NoDup_remove_2 in N. rewrite in_app_iff in N. intuition. }
    rewrite setItem_new by assumption. rewrite (IH l' ns').
    + now rewrite <- app_assoc.
    + assumption.
    + rewrite map_app, <- app_assoc. exact N.
Qed.
Lemma exportItems_good f0 item l ns : all3 (good f0) (repeat item (length l)) l ns -> forall acc,
  exportItems item l acc = Some (Array (acc ++ ns)).
Proof.
  revert ns. induction l as [|o l IH]; intros ns A acc; cbn [List.length repeat] in A; inversion A as [|? ? n ? ? ns' G A']; subst; cbn [exportItems].
  - now rewrite app_nil_r.
  - rewrite (proj1 G), (IH ns') by assumption. now rewrite <- app_assoc.
Qed.

(** Importing the members of a struct. *)
Lemma members_get conv ms l its (new : list obj) :
  length l = length ms -> length new = length ms ->
  (forall k name t o o', nth_error ms k = Some (name, t) -> nth_error l k = Some o -> nth_error new k = Some o' ->
     match getItem name its with Some n => conv t o n = Got o' | None => o' = o end) ->
  members conv ms l its = Got new.
Proof.
  revert l new. induction ms as [|[name t] ms IH]; intros [|o l] [|o' new] L1 L2 H; cbn [List.length] in L1, L2; try lia; [reflexivity|].
  cbn [members]. pose proof (H 0%nat name t o o' eq_refl eq_refl eq_refl) as H0.
  rewrite (IH l new); [|lia|lia|].
  - destruct (getItem name its); [now rewrite H0|now rewrite H0].
  - intros k nm t' x x' A B C. exact (H (S k) nm t' x x' A B C).
Qed.
Lemma all3_nth R ts l ns : all3 R ts l ns -> forall k t, nth_error ts k = Some t -> exists o n, nth_error l k = Some o /\ nth_error ns k = Some n /\ R t o n.
Proof.
  intro A. induction A as [|t o n ts l ns Hr A IH]; intros k t' E; destruct k; cbn in E; try discriminate.
  - injection E as <-. exists o, n. auto.
  - cbn. now apply IH.
Qed.
Lemma combine_in {A B} (a : list A) (b : list B) k x y : nth_error a k = Some x -> nth_error b k = Some y -> In (x, y) (combine a b).
Proof.
  revert b k. induction a as [|x' a IH]; intros [|y' b] [|k] E1 E2; cbn in *; try discriminate.
  - injection E1 as <-. injection E2 as <-. now left.
  - right. eapply IH; eassumption.
Qed.
Lemma combine_fst {A B} (a : list A) (b : list B) : length a = length b -> map fst (combine a b) = a.
Proof. revert b. induction a as [|x a IH]; intros [|y b] L; cbn in *; try lia; [reflexivity|]. now rewrite IH by lia. Qed.

Lemma Forall2_nth {A B} (R : A -> B -> Prop) a b : Forall2 R a b -> forall k x y, nth_error a k = Some x -> nth_error b k = Some y -> R x y.
Proof.
  intro F. induction F as [|x y a b H F IH]; intros k x' y' E1 E2; destruct k; cbn in *; try discriminate.
  - now injection E1 as <-; injection E2 as <-.
  - eapply IH; eassumption.
Qed.
Lemma Forall2_len {A B} (R : A -> B -> Prop) a b : Forall2 R a b -> length a = length b.
Proof. intro F. induction F; cbn; congruence. Qed.

(** Members of another struct (an older or newer version), from a node that also has other keys. *)
Lemma members_version f0 ms1 l ns extra : all3 (good f0) (map snd ms1) l ns -> NoDup (map fst ms1 ++ map fst extra) ->
  forall f ms2 old new, (f0 <= f)%nat -> Forall2 (fits env) (map snd ms2) old -> length new = length ms2 ->
  (forall k name t, nth_error ms2 k = Some (name, t) ->
     (exists m, nth_error ms1 m = Some (name, t) /\ nth_error new k = nth_error l m) \/
     (~ In name (map fst ms1) /\ ~ In name (map fst extra) /\ nth_error new k = nth_error old k)) ->
  members (convert f) ms2 old (combine (map fst ms1) ns ++ extra) = Got new.
Proof.
  intros A N f ms2 old new F Fo L H. destruct (all3_len _ _ _ _ A) as [L1 L2]. rewrite map_length in L1, L2.
  assert (map fst (combine (map fst ms1) ns) = map fst ms1) as K by (apply combine_fst; rewrite map_length; lia).
  apply members_get.
  - pose proof (Forall2_len _ _ _ Fo) as Q. rewrite map_length in Q. lia.
  - assumption.
  - intros k name t o o' E1 E2 E3. destruct (H _ _ _ E1) as [(m & Em & En)|(Nin & Nex & En)].
    + destruct (all3_nth _ _ _ _ A m t) as (x & n & X1 & X2 & G); [rewrite nth_error_map, Em; reflexivity|].
      rewrite (getItem_in name n).
      * rewrite E3, X1 in En. injection En as ->. apply (proj1 (proj2 G)); [assumption|].
        eapply (Forall2_nth _ _ _ Fo k); [rewrite nth_error_map, E1; reflexivity|assumption].
      * rewrite map_app, K. assumption.
      * apply in_or_app. left. apply combine_in with (k := m); [rewrite nth_error_map, Em; reflexivity|assumption].
    + rewrite getItem_out.
      * rewrite E3, E2 in En. congruence.
      * rewrite map_app, K, in_app_iff. intuition.
Qed.

Lemma items_good f0 item l ns : all3 (good f0) (repeat item (length l)) l ns -> forall f old, (f0 <= f)%nat ->
  Forall (fits env item) old -> (l <> [] -> fits env item (fresh item)) ->
  items (convert f item) (fresh item) old ns = Got l.
Proof.
  revert ns. induction l as [|o l IH]; intros ns A f old F Fo Fr; cbn [List.length repeat] in A; inversion A as [|? ? n ? ? ns' G A']; subst; cbn [items]; [reflexivity|].
  rewrite (proj1 (proj2 G)); [|assumption|destruct Fo; [apply Fr; discriminate|assumption]].
  rewrite (IH ns'); [reflexivity|assumption|assumption|destruct Fo; cbn [tl]; [constructor|assumption]|].
  intros _. apply Fr. discriminate.
Qed.

Lemma savable_fits : (forall t o, savable env t o -> fits env t o) /\ (forall ts l, savable_all env ts l -> Forall2 (fits env) ts l).
Proof.
  apply (savable_both env (fun t o _ => fits env t o) (fun ts l _ => Forall2 (fits env) ts l)); intros.
  - apply ft_string.
  - apply ft_num.
  - eapply ft_struct; eassumption.
  - eapply ft_array; [eassumption|]. clear - H. remember (repeat item (length l)) as ts eqn:E. revert E.
    generalize (length l). induction H; intros [|k] E; cbn in E; try discriminate; [constructor|].
    injection E as -> E. constructor; [assumption|]. eapply IHForall2. exact E.
  - eapply ft_enum; eassumption.
  - eapply ft_switch; eassumption.
  - eapply ft_owned; eassumption.
  - constructor.
  - constructor; assumption.
Qed.

Lemma findValue_in ids id v : NoDup (map fst ids) -> In (id, v) ids ->
  exists id', findValue ids v = Some id' /\ In (id', v) ids.
Proof.
  intros _ H. unfold findValue. induction ids as [|[a b] ids IH]; [contradiction|]. cbn [find snd].
  destruct (b =? v) eqn:E.
  - apply Z.eqb_eq in E. subst. exists a. split; [reflexivity|now left].
  - destruct H as [H|H]; [injection H as -> ->; lia|]. destruct (IH H) as (id' & E1 & E2). exists id'. split; [assumption|now right].
Qed.
Lemma find_name ids (id : list Z) (v : Z) : NoDup (map fst ids) -> In (id, v) ids -> find (fun x => list_eqb (fst x) id) ids = Some (id, v).
Proof.
  induction ids as [|[a b] ids IH]; intros N H; [contradiction|]. cbn [map fst] in N. inversion_clear N as [|? ? N1 N2].
  cbn [find fst]. destruct H as [H|H].
  - injection H as -> ->. now rewrite leb_refl.
  - rewrite leb_neq; [now apply IH|]. intros ->. apply N1. apply in_map_iff. now exists (id, v).
Qed.
Lemma stateOf_at states j id (state : list Z) (k : nat) : NoDup (map fst states) -> nth_error states id = Some (state, k) ->
  stateOf j states state = Some ((j + id)%nat, k).
Proof.
  revert j id. induction states as [|[a b] states IH]; intros j [|id] N E; cbn in E; try discriminate; cbn [map fst] in N; inversion_clear N as [|? ? N1 N2]; cbn [stateOf].
  - injection E as -> ->. rewrite leb_refl. do 2 f_equal. lia.
  - rewrite leb_neq; [rewrite (IH (S j) id) by assumption; do 2 f_equal; lia|].
    intros ->. apply N1. apply nth_error_In in E. apply in_map_iff. now exists (state, k).
Qed.

Lemma ascii_ok s : Forall (fun b => 32 <= b < 128) s -> text_ok s.
Proof.
  intro H. split; [eapply Forall_impl; [|exact H]; intros; cbv beta in *; lia|].
  intros pre l post p -> F Hp. apply Forall_app in H. destruct H as [_ H]. apply Forall_app in H. destruct H as [H _].
  destruct F; inversion H; subst; unfold TextEncodingSpec.cont_byte in *; try lia; reflexivity.
Qed.
Lemma all3_tree f0 ts l ns x : all3 (good f0) ts l ns -> Forall2 (texts_ok env) ts l -> In x ns -> tree_ok x.
Proof.
  intros A F. revert x. induction A as [|t o n ts l ns G A IH]; intros x Hin; [contradiction|]. inversion_clear F as [|? ? ? ? F1 F2].
  destruct Hin as [<-|Hin]; [now apply (proj2 (proj2 G))|now apply IH].
Qed.

Lemma roundtrip_both :
  (forall t o, savable env t o -> exists n f0, good f0 t o n) /\
  (forall ts l, savable_all env ts l -> exists ns f0, all3 (good f0) ts l ns).
Proof.
  apply (savable_both env (fun t o _ => exists n f0, good f0 t o n) (fun ts l _ => exists ns f0, all3 (good f0) ts l ns)).
  - intros s. exists (Text s), 1%nat. split; [reflexivity|]. split.
    + intros [|f] old F Ft; [lia|]. reflexivity.
    + intro Tx. inversion Tx; subst. now constructor.
  - intros b. exists (Text (if b then txtTrue else txtFalse)), 1%nat. split; [destruct b; reflexivity|]. split.
    + intros [|f] old F Ft; [lia|]. destruct b; reflexivity.
    + intros _. constructor. destruct b; apply ascii_ok; unfold txtTrue, txtFalse; repeat (constructor; [lia|]); constructor.
  - intros i name params ms l E N Sa (ns & f0 & A). exists (Object (combine (map fst ms) ns)), (S f0).
    destruct (all3_len _ _ _ _ A) as [L1 L2]. rewrite map_length in L1, L2. split; [|split].
    + rewrite (export_struct _ _ _ _ _ E), (exportMembers_good f0 ms l ns A []) by exact N. reflexivity.
    + intros [|f] old F Ft; [lia|]. cbn [convertFrom]. rewrite E.
      inversion Ft as [? Hu| | |? ? ? ? lo E' Fo| | | | | | | |]; subst; try congruence.
      * destruct Hu as (? & ? & ? & Hu). congruence.
      * rewrite E in E'. injection E' as <- <- <-.
        pose proof (members_version f0 ms l ns [] A) as M. rewrite app_nil_r in M. rewrite app_nil_r in M.
        rewrite (M N f ms lo l); [reflexivity|lia|assumption|lia|].
        intros k nm t Ek. left. exists k. auto.
    + intro Tx. inversion Tx as [| |? ? ? ? ? E' Fk Le Ft| | | |]; subst; [|congruence..]. rewrite E in E'. injection E' as <- <- <-.
      constructor.
      * intros k x Hin. rewrite Forall_forall in Fk. apply Fk. rewrite <- (combine_fst (map fst ms) ns) by (rewrite map_length; lia).
        apply in_map_iff. now exists (k, x).
      * intros k x Hin. apply in_combine_r in Hin. eapply all3_tree; eassumption.
      * rewrite combine_fst by (rewrite map_length; lia). assumption.
      * rewrite combine_length, map_length. lia.
  - intros i item l E Sa (ns & f0 & A). exists (Array ns), (S f0). split; [|split].
    + rewrite (export_array _ _ _ E), (exportItems_good f0 item l ns A []). reflexivity.
    + intros [|f] old F Ft; [lia|]. cbn [convertFrom]. rewrite E.
      inversion Ft as [? Hu| | | | |? ? lo E' Fo| | | | | |]; subst; try congruence.
      * destruct Hu as (? & ? & ? & Hu). congruence.
      * rewrite E in E'. injection E' as <-.
        rewrite (items_good f0 item l ns A f lo); [reflexivity|lia|assumption|].
        intros Ne. destruct l as [|x l]; [congruence|]. cbn [List.length repeat] in Sa. inversion Sa; subst.
        eapply Cok. eapply (proj1 savable_fits). eassumption.
    + intro Tx. inversion Tx as [| | |? ? ? E' Ft| | |]; subst. rewrite E in E'. injection E' as <-.
      constructor. intros x Hin. eapply all3_tree; [exact A| |exact Hin]. clear - Ft. induction Ft; cbn [List.length repeat]; constructor; assumption.
  - intros i name bytes ids id v E Hb N Hin Hv. destruct (findValue_in ids id v N Hin) as (id' & F1 & F2).
    exists (Text id'), 1%nat. split; [|split].
    + cbn [exportObj noFilter]. rewrite E. replace (enumSize bytes) with true by (cbn [In] in Hb; unfold enumSize; lia). rewrite F1. reflexivity.
    + intros [|f] old F Ft; [lia|]. cbn [convertFrom]. rewrite E. unfold enumValue. rewrite (find_name ids id' v N F2).
      cbn [In] in Hb. destruct Hb as [<-|[<-|[<-|[]]]]; cbn -[Z.leb] in Hv |- *.
      * replace (v <=? 255) with true by lia. reflexivity.
      * replace (v <=? 65535) with true by lia. reflexivity.
      * reflexivity.
    + intro Tx. inversion Tx as [| | | |? ? ? ? ? E' Ft| |]; subst. rewrite E in E'. injection E' as <- <- <-.
      constructor. rewrite Forall_forall in Ft. apply Ft. apply in_map_iff. now exists (id', v).
  - intros i name states id state k o E N Ek So (n & f0 & G). exists (Object [(state, n)]), (S f0). split; [|split].
    + cbn [exportObj noFilter]. rewrite E, Ek, (proj1 G). reflexivity.
    + intros [|f] old F Ft; [lia|]. cbn [convertFrom]. rewrite E.
      inversion Ft as [? Hu| | | | | | | |? ? ? ido sto ko oo E' Eo Fo| | |]; subst; try congruence.
      * destruct Hu as (? & ? & ? & Hu). congruence.
      * rewrite E in E'. injection E' as <- <-. rewrite (stateOf_at states 0 id state k N Ek). cbn [Nat.add].
        rewrite (proj1 (proj2 G)); [reflexivity|lia|].
        destruct (Nat.eqb_spec ido id) as [->|Ne].
        -- rewrite Ek in Eo. injection Eo as <- <-. assumption.
        -- eapply Cok. eapply (proj1 savable_fits). eassumption.
    + intro Tx. inversion Tx as [| | | | |? ? ? ? ? ? ? E' Ek' Hs Ho|]; subst. rewrite E in E'. injection E' as <- <-.
      rewrite Ek in Ek'. injection Ek' as <- <-. constructor.
      * intros k' x [Q|[]]. injection Q as <- <-. assumption.
      * intros k' x [Q|[]]. injection Q as <- <-. now apply (proj2 (proj2 G)).
      * cbn [map fst]. constructor; [intros []|constructor].
      * cbn. lia.
  - intros i target o E Ht So (n & f0 & G). exists n, (S f0). split; [|split].
    + cbn [exportObj noFilter]. rewrite E. exact (proj1 G).
    + intros [|f] old F Ft; [lia|]. cbn [convertFrom]. rewrite E.
      replace (creatable env target) with true.
      * rewrite (proj1 (proj2 G)); [reflexivity|lia|]. eapply Cok. eapply (proj1 savable_fits). eassumption.
      * destruct target as [| |j]; cbn [creatable]; try reflexivity. destruct (Ht j eq_refl) as (d & Ed & Hd). rewrite Ed. destruct d; try contradiction; reflexivity.
    + intro Tx. inversion Tx as [| | | | | |? ? ? E' Ho]; subst. rewrite E in E'. injection E' as <-. now apply (proj2 (proj2 G)).
  - exists [], 0%nat. constructor.
  - intros t o ts l So (n & f0 & G) Sa (ns & f1 & A). exists (n :: ns), (Nat.max f0 f1). constructor.
    + eapply good_mono; [|exact G]. lia.
    + eapply all3_impl; [|exact A]. intros. eapply good_mono; [|eassumption]. lia.
Qed.

Lemma saved_is_loaded t o : savable env t o ->
  exists n, export t o = Some n /\
  exists f0, forall f old, (f0 <= f)%nat -> fits env t old -> convert f t old n = Got o.
Proof. intro H. destruct (proj1 roundtrip_both _ _ H) as (n & f0 & G1 & G2 & _). exists n. split; [assumption|]. exists f0. exact G2. Qed.

Lemma exported_tree t o n : savable env t o -> texts_ok env t o -> export t o = Some n -> tree_ok n.
Proof. intros H T E. destruct (proj1 roundtrip_both _ _ H) as (m & f0 & G1 & _ & G3). replace n with m by congruence. now apply G3. Qed.

(** Another version of a struct. *)
Lemma other_version i j name1 params1 ms1 name2 params2 ms2 l old new :
  nth_error env i = Some (TStruct name1 params1 ms1) -> nth_error env j = Some (TStruct name2 params2 ms2) ->
  savable env (PUser i) (OSeq l) -> fits env (PUser j) (OSeq old) -> length new = length ms2 ->
  (forall k name t, nth_error ms2 k = Some (name, t) ->
     (exists m, nth_error ms1 m = Some (name, t) /\ nth_error new k = nth_error l m) \/
     (~ In name (map fst ms1) /\ nth_error new k = nth_error old k)) ->
  exists n, export (PUser i) (OSeq l) = Some n /\
  exists f0, forall f, (f0 <= f)%nat -> convert f (PUser j) (OSeq old) n = Got (OSeq new).
Proof.
  intros E1 E2 Sv Ft L H. inversion Sv as [| |? ? ? ? ? E1' N Sa| | | |]; subst. rewrite E1 in E1'. injection E1' as <- <- <-.
  destruct (proj2 roundtrip_both _ _ Sa) as (ns & f0 & A).
  exists (Object (combine (map fst ms1) ns)). split.
  - rewrite (export_struct _ _ _ _ _ E1), (exportMembers_good f0 ms1 l ns A []) by exact N. reflexivity.
  - exists (S f0). intros [|f] F; [lia|]. cbn [convertFrom]. rewrite E2.
    inversion Ft as [| | |? ? ? ? lo E' Fo| | | | | | | |]; subst; try congruence. rewrite E2 in E'. injection E' as <- <- <-.
    pose proof (members_version f0 ms1 l ns [] A) as M. rewrite !app_nil_r in M.
    rewrite (M N f ms2 old new); [reflexivity|lia|assumption|assumption|].
    intros k nm t Ek. destruct (H _ _ _ Ek) as [?|[? ?]]; [left; assumption|right]. split; [assumption|]. split; [intros []|assumption].
Qed.

(** With one more item in the node. *)
Lemma with_extra i name params ms l key sig :
  nth_error env i = Some (TStruct name params ms) -> savable env (PUser i) (OSeq l) -> ~ In key (map fst ms) ->
  exists its, export (PUser i) (OSeq l) = Some (Object its) /\ getItem key (setItem key sig its) = Some sig /\
  (exists f0, forall f old, (f0 <= f)%nat -> fits env (PUser i) old -> convert f (PUser i) old (Object (setItem key sig its)) = Got (OSeq l)) /\
  (texts_ok env (PUser i) (OSeq l) -> text_ok key -> tree_ok sig -> (length ms < 64)%nat -> tree_ok (Object (setItem key sig its))).
Proof.
  intros E Sv Nk. inversion Sv as [| |? ? ? ? ? E1' N Sa| | | |]; subst. rewrite E in E1'. injection E1' as <- <- <-.
  destruct (proj2 roundtrip_both _ _ Sa) as (ns & f0 & A). destruct (all3_len _ _ _ _ A) as [L1 L2]. rewrite map_length in L1, L2.
  assert (map fst (combine (map fst ms) ns) = map fst ms) as K by (apply combine_fst; rewrite map_length; lia).
  exists (combine (map fst ms) ns). rewrite setItem_new by (rewrite K; assumption). split; [|split; [|split]].
  - rewrite (export_struct _ _ _ _ _ E), (exportMembers_good f0 ms l ns A []) by exact N. reflexivity.
  - apply getItem_in; [|apply in_or_app; right; now left]. rewrite map_app, K. cbn [map fst].
    apply (NoDup_Add (a := key) (l := map fst ms)); [|split; assumption]. rewrite <- (app_nil_r (map fst ms)) at 1. apply Add_app.
  - exists (S f0). intros [|f] old F Ft; [lia|]. cbn [convertFrom]. rewrite E.
    inversion Ft as [? Hu| | |? ? ? ? lo E' Fo| | | | | | | |]; subst; try congruence.
    + destruct Hu as (? & ? & ? & Hu). congruence.
    + rewrite E in E'. injection E' as <- <- <-.
      rewrite (members_version f0 ms l ns [(key, sig)] A) with (new := l); [reflexivity| |lia|assumption|lia|].
      * cbn [map fst]. apply (NoDup_Add (a := key) (l := map fst ms)); [|split; assumption]. rewrite <- (app_nil_r (map fst ms)) at 1. apply Add_app.
      * intros k nm t Ek. left. exists k. auto.
  - intros Tx Hk Hs Le.
    assert (tree_ok (Object (combine (map fst ms) ns))) as T.
    { apply (exported_tree (PUser i) (OSeq l)); [assumption|assumption|]. rewrite (export_struct _ _ _ _ _ E), (exportMembers_good f0 ms l ns A []) by exact N. reflexivity. }
    inversion T as [| |? T1 T2 T3 T4]; subst. constructor.
    + intros k x Hin. apply in_app_or in Hin. destruct Hin as [Hin|[Q|[]]]; [eapply T1; exact Hin|]. now injection Q as <- <-.
    + intros k x Hin. apply in_app_or in Hin. destruct Hin as [Hin|[Q|[]]]; [eapply T2; exact Hin|]. now injection Q as <- <-.
    + rewrite map_app, K. cbn [map fst]. apply (NoDup_Add (a := key) (l := map fst ms)); [|split; assumption]. rewrite <- (app_nil_r (map fst ms)) at 1. apply Add_app.
    + rewrite app_length, combine_length, map_length. cbn [List.length]. lia.
Qed.
End Proofs.
