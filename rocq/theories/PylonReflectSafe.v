(* Importing ends, and gives an object of the type. *)
From Coq Require Import Lia ZifyBool ZifyNat.
From Verif Require Import PersistModel.
From Verif Require Export Base PylonReflectModel PylonReflectSpec PylonReflectProofs.
Local Notation length := List.length.

Fixpoint height (n : node) : nat :=
  match n with
  | Text _ => 0
  | Array l => S (list_max (map height l))
  | Object l => S (list_max (map (fun x => height (snd x)) l))
  end.
Lemma in_max x l : In x l -> (x <= list_max l)%nat.
Proof. induction l as [|y l IH]; cbn; intro H; [contradiction|]. destruct H as [->|H]; [|specialize (IH H)]; unfold list_max in *; cbn; lia. Qed.
Lemma height_item x l : In x l -> (height x < height (Array l))%nat.
Proof. intro H. cbn [height]. pose proof (in_max (height x) (map height l) (in_map _ _ _ H)). lia. Qed.
Lemma height_get k x l : getItem k l = Some x -> (height x < height (Object l))%nat.
Proof.
  intro H. cbn [height]. assert (In (height x) (map (fun x => height (snd x)) l)) as Q.
  { induction l as [|[k' v] l IH]; cbn [getItem] in H; [discriminate|]. destruct (list_eqb k' k).
    - injection H as ->. now left.
    - right. now apply IH. }
  apply in_max in Q. lia.
Qed.

Section Safe.
Variable env : list tdesc.
Variable number : num -> list Z -> option Z.
Variable fresh : tptr -> obj.
Notation convert := (convertFrom env number fresh).

Lemma members_ends conv ms l its : (forall k n t o, getItem k its = Some n -> conv t o n <> Deep) -> members conv ms l its <> Deep.
Proof.
  intro H. revert l. induction ms as [|[name t] ms IH]; intros [|o l]; cbn [members]; try discriminate.
  destruct (getItem name its) as [n|] eqn:E.
  - pose proof (H _ _ t o E). destruct (conv t o n); [|discriminate|congruence]. specialize (IH l). now destruct (members conv ms l its).
  - specialize (IH l). now destruct (members conv ms l its).
Qed.
Lemma items_ends conv new l ns : (forall n o, In n ns -> conv o n <> Deep) -> items conv new l ns <> Deep.
Proof.
  revert l. induction ns as [|n ns IH]; intros l H; cbn [items]; [discriminate|].
  destruct (conv _ n) eqn:E; [|discriminate|exfalso; eapply H; [now left|exact E]].
  specialize (IH (tl l) (fun m o Q => H m o (or_intror Q))). now destruct (items conv new (tl l) ns).
Qed.
Lemma fixed_ends conv l ns : (forall n o, In n ns -> conv o n <> Deep) -> fixedItems conv l ns <> Deep.
Proof.
  revert ns. induction l as [|o l IH]; intros [|n ns] H; cbn [fixedItems]; try discriminate.
  destruct (conv o n) eqn:E; [|discriminate|exfalso; eapply H; [now left|exact E]].
  specialize (IH ns (fun m o Q => H m o (or_intror Q))). now destruct (fixedItems conv l ns).
Qed.

Definition owned (t : tptr) : bool := match t with PUser i => match nth_error env i with Some (TOwned _) => true | _ => false end | _ => false end.
Lemma ends : forall h n, (height n < h)%nat -> forall t o f, (2 * h <= f + (if owned t then 0 else 1))%nat -> convert f t o n <> Deep.
Proof.
  induction h as [|h IH]; intros n Hh t o f F; [lia|].
  assert (forall m t o f, (height m < height n)%nat -> (2 * h <= f)%nat -> convert f t o m <> Deep) as Sub.
  { intros m t' o' f' Hm F'. apply IH; [lia|]. destruct (owned t'); lia. }
  assert (forall t o f, owned t = false -> (2 * h < f)%nat -> convert f t o n <> Deep) as Base.
  { clear t o f F. intros t o [|f] Ho F; [lia|]. cbn [convertFrom]. destruct t as [k| |i].
    - destruct k; try discriminate; destruct n; try discriminate; destruct (number _ _); discriminate.
    - destruct n; discriminate.
    - cbn [owned] in Ho. destruct (nth_error env i) as [d|]; [|discriminate].
      destruct d as [c item|item|target|target|nm ps ms|nm bytes ids|item e|nm states]; try discriminate.
      + destruct n as [|ns|]; try discriminate. destruct o; try discriminate.
        pose proof (fixed_ends (convert f item) l ns) as Q. destruct (fixedItems _ _ _); try discriminate. exfalso. apply Q; [|reflexivity].
        intros m o' Hin. apply Sub; [now apply height_item|lia].
      + destruct n as [|ns|]; try discriminate. destruct o; try discriminate.
        pose proof (items_ends (convert f item) (fresh item) l ns) as Q. destruct (items _ _ _ _); try discriminate. exfalso. apply Q; [|reflexivity].
        intros m o' Hin. apply Sub; [now apply height_item|lia].
      + destruct n as [| |its]; try discriminate. destruct o; try discriminate.
        pose proof (members_ends (convert f) ms l its) as Q. destruct (members _ _ _ _); try discriminate. exfalso. apply Q; [|reflexivity].
        intros k m t' o' G. apply Sub; [eapply height_get; exact G|lia].
      + destruct n; try discriminate. unfold enumValue. destruct (find _ _) as [[? v]|]; [|discriminate].
        destruct (bytes =? 1); [destruct (v <=? 255); discriminate|]. destruct (bytes =? 2); [destruct (v <=? 65535); discriminate|].
        destruct (bytes =? 4); discriminate.
      + destruct (nth_error env e) as [d|]; [|discriminate]. destruct d; try discriminate.
        destruct n as [| |its]; try discriminate. destruct o; try discriminate.
        pose proof (members_ends (convert f) (map (fun x => (fst x, item)) ids) l its) as Q. destruct (members _ _ _ _); try discriminate. exfalso. apply Q; [|reflexivity].
        intros k m t' o' G. apply Sub; [eapply height_get; exact G|lia].
      + destruct n as [| |its]; try discriminate. destruct its as [|[key m] [|]]; try discriminate. destruct o; try discriminate.
        destruct (stateOf 0 states key) as [[id' k]|]; [|discriminate].
        pose proof (Sub m (PUser k) (if (id =? id')%nat then o else fresh (PUser k)) f) as Q.
        destruct (convert f (PUser k) _ m); try discriminate. exfalso. apply Q; [cbn; lia|lia|reflexivity]. }
  destruct (owned t) eqn:Ho.
  - destruct f as [|f]; [lia|]. cbn [convertFrom]. destruct t as [| |i]; try discriminate. cbn [owned] in Ho.
    destruct (nth_error env i) as [d|]; [|discriminate]. destruct d; try discriminate.
    destruct (creatable env target) eqn:Cr; [|discriminate].
    pose proof (Base target (fresh target) f) as Q. destruct (convert f target (fresh target) n); try discriminate. exfalso. apply Q; [|lia|reflexivity].
    destruct target as [| |j]; try reflexivity. cbn [creatable owned] in *. destruct (nth_error env j) as [d|]; [|reflexivity]. destruct d; congruence.
  - apply Base; [assumption|lia].
Qed.
Lemma import_ends n : exists f0, forall f t o, (f0 <= f)%nat -> convert f t o n <> Deep.
Proof. exists (2 * S (height n))%nat. intros f t o F. apply (ends (S (height n))); [lia|]. destruct (owned t); lia. Qed.

(** Types. *)
Hypothesis Tok : types_ok env.
Hypothesis Fok : all_constructed env fresh.

Lemma members_fits conv ms l its l' : (forall t o n o', fits env t o -> conv t o n = Got o' -> fits env t o') ->
  Forall2 (fits env) (map snd ms) l -> members conv ms l its = Got l' -> Forall2 (fits env) (map snd ms) l'.
Proof.
  intro H. revert l l'. induction ms as [|[name t] ms IH]; intros [|o l] l' F E; cbn [members] in E; try discriminate.
  - injection E as <-. constructor.
  - cbn [map snd] in F |- *. inversion_clear F as [|? ? ? ? F1 F2].
    destruct (getItem name its) as [n|].
    + destruct (conv t o n) as [o'| |] eqn:Q; try discriminate. destruct (members conv ms l its) as [l''| |] eqn:M; try discriminate. injection E as <-.
      constructor; [eapply H; eassumption|]. eapply IH; eassumption.
    + destruct (members conv ms l its) as [l''| |] eqn:M; try discriminate. injection E as <-. constructor; [assumption|]. eapply IH; eassumption.
Qed.
Lemma items_fits (conv : obj -> node -> ires obj) item new l ns l' : (forall o n o', fits env item o -> conv o n = Got o' -> fits env item o') ->
  fits env item new -> Forall (fits env item) l -> items conv new l ns = Got l' -> Forall (fits env item) l'.
Proof.
  intros H Hn. revert l l'. induction ns as [|n ns IH]; intros l l' F E; cbn [items] in E.
  - injection E as <-. constructor.
  - destruct (conv _ n) as [o'| |] eqn:Q; try discriminate. destruct (items conv new (tl l) ns) as [l''| |] eqn:M; try discriminate. injection E as <-.
    constructor; [eapply H; [|exact Q]; destruct F; assumption|]. eapply IH; [|exact M]. destruct F; [constructor|assumption].
Qed.
Lemma fixed_fits (conv : obj -> node -> ires obj) item l ns l' : (forall o n o', fits env item o -> conv o n = Got o' -> fits env item o') ->
  Forall (fits env item) l -> fixedItems conv l ns = Got l' -> Forall (fits env item) l' /\ length l' = length l.
Proof.
  intros H. revert ns l'. induction l as [|o l IH]; intros [|n ns] l' F E; cbn [fixedItems] in E; try discriminate.
  1,2: injection E as <-; split; [constructor|reflexivity].
  inversion_clear F as [|? ? F1 F2]. destruct (conv o n) as [o'| |] eqn:Q; try discriminate.
  destruct (fixedItems conv l ns) as [l''| |] eqn:M; try discriminate. injection E as <-. destruct (IH _ _ F2 M) as [A B].
  split; [constructor; [eapply H; eassumption|assumption]|]. cbn. congruence.
Qed.
Lemma stateOf_in states j name id k : stateOf j states name = Some (id, k) -> (j <= id)%nat /\ nth_error states (id - j) = Some (name, k).
Proof.
  revert j. induction states as [|[a b] states IH]; intros j E; cbn [stateOf] in E; [discriminate|].
  destruct (list_eqb a name) eqn:Q.
  - injection E as <- <-. apply leb_eq in Q. subst. rewrite Nat.sub_diag. split; [lia|reflexivity].
  - destruct (IH _ E) as [L H]. split; [lia|]. replace (id - j)%nat with (S (id - S j)) by lia. exact H.
Qed.
Lemma Forall2_repeat (item : tptr) l : Forall (fits env item) l <-> Forall2 (fits env) (repeat item (length l)) l.
Proof. split; intro H; [induction H; cbn; constructor; assumption|]. induction l as [|o l IH]; [constructor|]. cbn in H. inversion_clear H. constructor; auto. Qed.

Lemma import_fits : forall f t o n o', fits env t o -> convert f t o n = Got o' -> fits env t o'.
Proof.
  induction f as [|f IH]; intros t o n o' Ft E; cbn [convertFrom] in E; [discriminate|]. destruct t as [k| |i].
  - assert (exists z, o' = ONum z) as [z ->]; [|apply ft_num].
    destruct k; try discriminate; try (destruct n; try discriminate; destruct (number _ _); try discriminate); injection E as <-; eexists; reflexivity.
  - destruct n; injection E as <-; [apply ft_string|assumption..].
  - destruct (nth_error env i) as [d|] eqn:D; [|discriminate].
    destruct d as [c item|item|target|target|nm ps ms|nm bytes ids|item e|nm states].
    + destruct n as [|ns|]; try discriminate. destruct o; try discriminate.
      destruct (fixedItems (convert f item) l ns) as [l'| |] eqn:Q; try discriminate. injection E as <-.
      inversion Ft as [| | | |? ? ? ? E' Z Fo| | |? ? ? ? ? ? ? E'| | | |]; subst; try congruence. rewrite D in E'. injection E' as -> <-.
      destruct (fixed_fits _ item l ns l' (fun o n o' => IH item o n o') Fo Q) as [A B].
      eapply ft_fixed; [exact D| |exact A]. unfold zlen. now rewrite B.
    + destruct n as [|ns|]; try discriminate. destruct o; try discriminate.
      destruct (items (convert f item) (fresh item) l ns) as [l'| |] eqn:Q; try discriminate. injection E as <-.
      inversion Ft as [| | | | |? ? ? E' Fo| | | | | |]; subst; try congruence. rewrite D in E'. injection E' as <-.
      eapply ft_array; [exact D|]. eapply items_fits; [intros ? ? ?; apply IH| |exact Fo|exact Q]. apply Fok. eapply Tok; [exact D|reflexivity].
    + destruct (creatable env target); [|discriminate]. destruct (convert f target (fresh target) n) as [x| |] eqn:Q; try discriminate. injection E as <-.
      eapply ft_owned; [exact D|]. eapply IH; [|exact Q]. apply Fok. eapply Tok; [exact D|reflexivity].
    + discriminate.
    + destruct n as [| |its]; try discriminate. destruct o; try discriminate.
      destruct (members (convert f) ms l its) as [l'| |] eqn:Q; try discriminate. injection E as <-.
      inversion Ft as [| | |? ? ? ? lo E' Fo| | | |? ? ? ? ? ? ? E'| | | |]; subst; try congruence. rewrite D in E'. injection E' as <- <- <-.
      eapply ft_struct; [exact D|]. eapply members_fits; [intros ? ? ? ?; apply IH|exact Fo|exact Q].
    + destruct n; try discriminate. assert (exists z, o' = ONum z) as [z ->]; [|eapply ft_enum; exact D].
      unfold enumValue in E. destruct (find _ _) as [[? v]|]; [|discriminate].
      destruct (bytes =? 1); [destruct (v <=? 255); try discriminate; injection E as <-; eexists; reflexivity|].
      destruct (bytes =? 2); [destruct (v <=? 65535); try discriminate; injection E as <-; eexists; reflexivity|].
      destruct (bytes =? 4); try discriminate; injection E as <-; eexists; reflexivity.
    + destruct (nth_error env e) as [d|] eqn:De; [|discriminate]. destruct d; try discriminate.
      destruct n as [| |its]; try discriminate. destruct o; try discriminate.
      destruct (members (convert f) (map (fun x => (fst x, item)) ids) l its) as [l'| |] eqn:Q; try discriminate. injection E as <-.
      inversion Ft as [| | |? ? ? ? lo E' Fo|? ? ? ? E' | | |? ? ? ? ? ? ? E' E2 L Fo| | | |]; subst; try congruence. rewrite D in E'. injection E' as <- <-.
      rewrite De in E2. injection E2 as <- <- <-.
      assert (map snd (map (fun x : list Z * Z => (fst x, item)) ids) = repeat item (length l)) as R.
      { rewrite map_map. cbn [snd]. rewrite L. clear. induction ids; cbn; congruence. }
      pose proof (members_fits (convert f) (map (fun x : list Z * Z => (fst x, item)) ids) l its l' (fun t o n o' => IH t o n o')) as M. rewrite R in M.
      specialize (M (proj1 (Forall2_repeat item l) Fo) Q).
      assert (length l' = length l) as L' by (pose proof (Forall2_len _ _ _ M) as W; rewrite repeat_length in W; congruence).
      eapply ft_enumarray; [exact D|exact De|congruence|]. apply Forall2_repeat. rewrite L'. exact M.
    + destruct n as [| |its]; try discriminate. destruct its as [|[key m] [|]]; try discriminate. destruct o as [| | | | | | |id old]; try discriminate.
      destruct (stateOf 0 states key) as [[id' k]|] eqn:St; [|discriminate].
      destruct (convert f (PUser k) _ m) as [x| |] eqn:Q; try discriminate. injection E as <-.
      destruct (stateOf_in _ _ _ _ _ St) as [_ Hn]. rewrite Nat.sub_0_r in Hn.
      inversion Ft as [| | | | | | | |? ? ? ido sto ko oo E' Eo Fo| | |]; subst; try congruence. rewrite D in E'. injection E' as <- <-.
      eapply ft_switch; [exact D|exact Hn|]. eapply IH; [|exact Q].
      destruct (Nat.eqb_spec id id') as [->|Ne].
      * rewrite Hn in Eo. injection Eo as <- <-. assumption.
      * apply Fok. eapply Tok; [exact D|]. exists key, k. split; [eapply nth_error_In; exact Hn|reflexivity].
Qed.
End Safe.
