(* Proofs about the conversion of structs. *)
From Verif Require Import Base ConvertModel ConvertSpec.
Local Open Scope list_scope.
Local Open Scope Z_scope.

(** ** Copies, one after the other *)
Definition run (m : mem) (L : list (Z * Z)) : mem := fold_left (fun m xy => copy4 m (fst xy) (snd xy)) L m.
Fixpoint rangeMoves (k : nat) (x y : Z) : list (Z * Z) :=
  match k with O => [] | S k => (x, y) :: rangeMoves k (x + 4) (y + 4) end.
Definition mv (dst p : Z) (c : cmd) : list (Z * Z) :=
  match c with
  | Copy32 d s => [(dst + d, p + s)]
  | Copy32Range d s c => rangeMoves (Z.to_nat c) (dst + d) (p + s)
  | _ => []
  end.
Definition plain (c : cmd) : Prop := match c with Copy32 _ _ | Copy32Range _ _ _ => True | _ => False end.

Lemma run_app m a b : run m (a ++ b) = run (run m a) b.
Proof. apply fold_left_app. Qed.
Lemma range_run k : forall m x y, copyRange k m x y = run m (rangeMoves k x y).
Proof. induction k as [|k IH]; intros m x y; [reflexivity|]. cbn. apply IH. Qed.
Lemma range_in k : forall x y a b, In (a, b) (rangeMoves k x y) <-> exists i, 0 <= i < Z.of_nat k /\ a = x + 4 * i /\ b = y + 4 * i.
Proof.
  induction k as [|k IH]; intros x y a b; cbn [rangeMoves In].
  - split; [intros []|]. intros (i & Hi & _). lia.
  - rewrite IH. split.
    + intros [H|(i & Hi & -> & ->)].
      * injection H as <- <-. exists 0. split; [lia|]. split; lia.
      * exists (i + 1). split; [lia|]. split; lia.
    + intros (i & Hi & -> & ->). destruct (Z.eq_dec i 0) as [->|Hn].
      * left. f_equal; lia.
      * right. exists (i - 1). split; [lia|]. split; lia.
Qed.

Lemma convert_plain l : Forall plain l -> forall rest m dst ptrs p,
  convert (l ++ rest) m dst ptrs (Some p) = convert rest (run m (flat_map (mv dst p) l)) dst ptrs (Some p).
Proof.
  induction 1 as [|c l Hc Hl IH]; intros rest m dst ptrs p; [reflexivity|].
  cbn [flat_map app]. rewrite run_app, <- IH. destruct c; try contradiction; cbn [convert mv].
  - reflexivity.
  - rewrite range_run. reflexivity.
Qed.


Lemma copy4_out m x y a : ~ (x <= a < x + 4) -> copy4 m x y a = m a.
Proof.
  intros H. unfold copy4. destruct (x <=? a) eqn:E1; [|reflexivity]. destruct (a <? x + 4) eqn:E2; [|reflexivity]. lia.
Qed.
Lemma copy4_in m x y k : 0 <= k < 4 -> copy4 m x y (x + k) = m (y + k).
Proof.
  intros H. unfold copy4. replace (x <=? x + k) with true by lia. replace (x + k <? x + 4) with true by lia. cbn. f_equal. lia.
Qed.
Lemma run_out L : forall m a, (forall x y, In (x, y) L -> ~ (x <= a < x + 4)) -> run m L a = m a.
Proof.
  induction L as [|[x y] L IH]; intros m a H; [reflexivity|]. change (run m ((x, y) :: L)) with (run (copy4 m x y) L).
  rewrite IH; [|intros x' y' Hin; apply (H x' y'); right; exact Hin]. apply copy4_out, (H x y). left. reflexivity.
Qed.
Lemma pair_dec (a b : Z * Z) : {a = b} + {a <> b}.
Proof. decide equality; apply Z.eq_dec. Qed.
Lemma run_in L : forall m,
  (forall x y x' y', In (x, y) L -> In (x', y') L -> (x = x' /\ y = y') \/ apart x x') ->
  (forall x y x' y', In (x, y) L -> In (x', y') L -> apart x y') ->
  forall x y k, In (x, y) L -> 0 <= k < 4 -> run m L (x + k) = m (y + k).
Proof.
  induction L as [|[x0 y0] L IH]; intros m H1 H2 x y k Hin Hk; [destruct Hin|].
  change (run m ((x0, y0) :: L)) with (run (copy4 m x0 y0) L).
  destruct (in_dec pair_dec (x, y) L) as [HL|HL].
  - rewrite (IH (copy4 m x0 y0)) with (y := y); [| | |exact HL|exact Hk].
    + apply copy4_out. assert (A : apart x0 y) by (apply (H2 x0 y0 x y); [left; reflexivity|right; exact HL]). unfold apart in A. lia.
    + intros; apply H1; right; assumption.
    + intros; eapply H2; right; eassumption.
  - destruct Hin as [Hin|Hin]; [|contradiction]. injection Hin as -> ->.
    rewrite run_out; [apply copy4_in, Hk|]. intros x' y' Hin. destruct (H1 x y x' y') as [[-> ->]|A]; [left; reflexivity|right; exact Hin|contradiction|].
    unfold apart in A. lia.
Qed.

(** ** Recipes *)
Lemma demotes_spec l : demotes l = true <-> forall x, In x l -> x <= 65535.
Proof.
  unfold demotes. rewrite forallb_forall. split; intros H x Hx; specialize (H x Hx); lia.
Qed.

Fixpoint loopOf (f : Z -> Z -> option (list cmd)) (st su : Z) (k : nat) (d s : Z) : option (list cmd) :=
  match k with
  | O => Some []
  | S k => match f d s with
           | None => None
           | Some l => match loopOf f st su k (d + st) (s + su) with None => None | Some l' => Some (l ++ l') end
           end
  end.
Lemma make_fixed ti n st ui m su d s : makeRecipe (TFixed ti n st) (TFixed ui m su) d s =
  if isFloat ti && isFloat ui && (st =? 4) && (su =? 4) then
    if demotes [d; s; Z.min n m] then Some [Copy32Range d s (Z.min n m)] else None
  else loopOf (makeRecipe ti ui) st su (Z.to_nat (Z.min n m)) d s.
Proof.
  cbn [makeRecipe]. destruct (isFloat ti && isFloat ui && (st =? 4) && (su =? 4)); [reflexivity|].
  generalize (Z.to_nat (Z.min n m)). intros k. revert d s. induction k as [|k IH]; intros d s; [reflexivity|].
  cbn [loopOf]. destruct (makeRecipe ti ui d s); [|reflexivity]. rewrite IH. reflexivity.
Qed.

Definition good (t u : ty) (d s : Z) (l : list cmd) : Prop :=
  Forall plain l /\ forall dst p x y, In (x, y) (flat_map (mv dst p) l) <->
    exists o o', corresponds t u o o' /\ x = dst + d + o /\ y = p + s + o'.

Lemma loop_good ti ui st su : (forall d s l, makeRecipe ti ui d s = Some l -> good ti ui d s l) ->
  forall k d s l, loopOf (makeRecipe ti ui) st su k d s = Some l ->
  Forall plain l /\ forall dst p x y, In (x, y) (flat_map (mv dst p) l) <->
    exists i o o', 0 <= i < Z.of_nat k /\ corresponds ti ui o o' /\ x = dst + d + i * st + o /\ y = p + s + i * su + o'.
Proof.
  intros Hg. induction k as [|k IH]; intros d s l E; cbn [loopOf] in E.
  - injection E as <-. split; [constructor|]. intros dst p x y. cbn. split; [intros []|]. intros (i & o & o' & Hi & _). lia.
  - destruct (makeRecipe ti ui d s) as [l1|] eqn:E1; [|discriminate].
    destruct (loopOf (makeRecipe ti ui) st su k (d + st) (s + su)) as [l2|] eqn:E2; [|discriminate].
    injection E as <-. destruct (Hg d s l1 E1) as [P1 H1]. destruct (IH _ _ _ E2) as [P2 H2].
    split; [apply Forall_app; split; assumption|]. intros dst p x y. rewrite flat_map_app, in_app_iff, H1, H2. split.
    + intros [(o & o' & Hc & -> & ->)|(i & o & o' & Hi & Hc & -> & ->)].
      * exists 0, o, o'. split; [lia|]. split; [exact Hc|]. split; lia.
      * exists (i + 1), o, o'. split; [lia|]. split; [exact Hc|]. split; lia.
    + intros (i & o & o' & Hi & Hc & -> & ->). destruct (Z.eq_dec i 0) as [->|Hn].
      * left. exists o, o'. split; [exact Hc|]. split; lia.
      * right. exists (i - 1), o, o'. split; [lia|]. split; [exact Hc|]. split; lia.
Qed.

Lemma make_good t : forall u d s l, flat u -> makeRecipe t u d s = Some l -> good t u d s l.
Proof.
  induction t as [|ti IH n st| |]; intros u d s l Hf E; try discriminate.
  - cbn [makeRecipe] in E. destruct u; try discriminate. cbn [isFloat andb] in E. destruct (demotes [d; s]); [|discriminate]. injection E as <-.
    split; [repeat apply Forall_cons; [exact I|apply Forall_nil]|]. intros dst p x y. cbn. split.
    + intros [H|[]]. injection H as <- <-. exists 0, 0. split; [constructor|]. split; lia.
    + intros (o & o' & Hc & -> & ->). inversion Hc; subst. left. f_equal; lia.
  - destruct u as [|ui m su| |]; try discriminate; [|destruct Hf]. rewrite make_fixed in E.
    destruct (isFloat ti && isFloat ui && (st =? 4) && (su =? 4)) eqn:Efast.
    + destruct ti; try discriminate. destruct ui; try discriminate. cbn [isFloat andb] in Efast.
      apply andb_prop in Efast. destruct Efast as [E4 E4']. apply Z.eqb_eq in E4, E4'. subst st su.
      destruct (demotes [d; s; Z.min n m]); [|discriminate]. injection E as <-.
      split; [apply Forall_cons; [exact I|apply Forall_nil]|]. intros dst p x y. cbn [flat_map mv]. rewrite app_nil_r, range_in. split.
      * intros (i & Hi & -> & ->). exists (i * 4 + 0), (i * 4 + 0). split; [|split; lia].
        apply corresponds_item; [lia|lia|constructor].
      * intros (o & o' & Hc & -> & ->). inversion Hc; subst. match goal with H : corresponds TFloat TFloat _ _ |- _ => inversion H; subst end.
        exists i. split; [lia|]. split; lia.
    + cbn [flat] in Hf. destruct (loop_good ti ui st su (fun d s l => IH ui d s l Hf) _ _ _ _ E) as [P H].
      split; [exact P|]. intros dst p x y. rewrite H. split.
      * intros (i & o & o' & Hi & Hc & -> & ->). exists (i * st + o), (i * su + o'). split; [|split; lia].
        apply corresponds_item; [lia|lia|exact Hc].
      * intros (o & o' & Hc & -> & ->). inversion Hc; subst. exists i, o0, o'0. split; [lia|]. split; [assumption|]. split; lia.
Qed.

(** ** Sources *)
Lemma sameName_true a b : sameName a b = true <-> a = b.
Proof. unfold sameName. destruct (list_eq_dec Z.eq_dec a b); split; intros; congruence. Qed.
Lemma findMember_ok x l : match findMember x l with
  | Some m => exists a b, l = a ++ m :: b /\ mname m = x /\ forall m', In m' a -> mname m' <> x
  | None => forall m', In m' l -> mname m' <> x
  end.
Proof.
  induction l as [|m l IH]; cbn [findMember]; [intros m' []|]. destruct (sameName x (mname m)) eqn:E.
  - apply sameName_true in E. exists [], l. split; [reflexivity|]. split; [auto|intros m' []].
  - assert (Hn : mname m <> x) by (intros H; rewrite <- H in E; assert (F : sameName (mname m) (mname m) = true) by (apply sameName_true; reflexivity); congruence).
    destruct (findMember x l) as [m1|].
    + destruct IH as (a & b & -> & H1 & H2). exists (m :: a), b. split; [reflexivity|]. split; [exact H1|].
      intros m' [<-|H]; [exact Hn|exact (H2 m' H)].
    + intros m' [<-|H]; [exact Hn|exact (IH m' H)].
Qed.
Lemma findSource_ok x srcs : forall s, match findSource x srcs s with
  | Some (i, m) => exists k, i = s + Z.of_nat k /\ first_source srcs x k m
  | None => forall st m, In st srcs -> In m st -> mname m <> x
  end.
Proof.
  induction srcs as [|st srcs IH]; intros s; cbn [findSource]; [intros st m []|].
  pose proof (findMember_ok x st) as Hm. destruct (findMember x st) as [m|].
  - destruct Hm as (a & b & -> & H1 & H2). exists 0%nat. split; [lia|]. exists a, b. split; [reflexivity|]. split; [exact H1|]. split; [exact H2|].
    intros s' st' m' Hs'. lia.
  - specialize (IH (s + 1)). destruct (findSource x srcs (s + 1)) as [[i m]|].
    + destruct IH as (k & -> & a & b & H1 & H2 & H3 & H4). exists (Datatypes.S k). split; [lia|]. exists a, b. split; [exact H1|].
      split; [exact H2|]. split; [exact H3|]. intros [|s'] st' m' Hs' Hst' Hm'.
      * cbn in Hst'. injection Hst' as <-. exact (Hm m' Hm').
      * apply (H4 s' st' m'); [lia|exact Hst'|exact Hm'].
    + intros st' m' [<-|H] Hm'; [exact (Hm m' Hm')|exact (IH st' m' H Hm')].
Qed.
Lemma first_unique srcs x s m s' m' : first_source srcs x s m -> first_source srcs x s' m' -> s = s' /\ m = m'.
Proof.
  intros (a & b & H1 & H2 & H3 & H4) (a' & b' & H1' & H2' & H3' & H4').
  destruct (lt_eq_lt_dec s s') as [[L|E]|L].
  - exfalso. apply (H4' s _ m L H1); [apply in_or_app; right; left; reflexivity|exact H2].
  - subst s'. split; [reflexivity|]. rewrite H1 in H1'. injection H1' as E. clear H1.
    revert a' E H3'. induction a as [|z a IH]; intros [|z' a'] E H3'; cbn in E.
    + congruence.
    + injection E as -> E. exfalso. apply (H3' z'); [left; reflexivity|exact H2].
    + injection E as <- E. exfalso. apply (H3 z); [left; reflexivity|exact H2'].
    + injection E as <- E. apply (IH (fun m Hm => H3 m (or_intror Hm)) a' E). intros m0 Hm0. apply H3'. right. exact Hm0.
  - exfalso. apply (H4 s' _ m' L H1'); [apply in_or_app; right; left; reflexivity|exact H2'].
Qed.

(** ** Whole recipes *)
Lemma create_ok srcs ptrs dst dstS : List.length ptrs = List.length srcs ->
  (forall dm s sm, In dm dstS -> first_source srcs (mname dm) s sm -> flat (mtype sm)) ->
  forall l, createRecipe dstS srcs = Some l -> forall m src, exists L, convert l m dst ptrs src = Some (run m L) /\
    forall x y, In (x, y) L <-> moved dstS srcs dst ptrs x y.
Proof.
  intros Hlen. induction dstS as [|dm dstS IH]; intros Hf l E m src; cbn [createRecipe] in E.
  - injection E as <-. exists []. split; [reflexivity|]. intros x y. split; [intros []|]. intros (dm & s & sm & p & o & o' & [] & _).
  - pose proof (findSource_ok (mname dm) srcs 0) as Hs. destruct (findSource (mname dm) srcs 0) as [[i sm]|]; [|discriminate].
    destruct Hs as (k & -> & Hfirst). destruct (demotes [0 + Z.of_nat k]); [|discriminate].
    destruct (makeRecipe (mtype dm) (mtype sm) (offset dm) (offset sm)) as [l1|] eqn:E1; [|discriminate].
    destruct (createRecipe dstS srcs) as [l2|] eqn:E2; [|discriminate]. injection E as <-.
    assert (Hp : exists p, nth_error ptrs k = Some p).
    { destruct (nth_error ptrs k) as [p|] eqn:Ep; [eauto|]. apply nth_error_None in Ep. destruct Hfirst as (a & b & H1 & _).
      assert (Hk : (k < List.length srcs)%nat) by (apply nth_error_Some; congruence). lia. }
    destruct Hp as [p Hp]. cbn [convert]. rewrite ?Z.add_0_l, Nat2Z.id, Hp.
    destruct (make_good _ _ _ _ _ (Hf dm k sm (or_introl eq_refl) Hfirst) E1) as [P1 H1].
    rewrite (convert_plain l1 P1).
    destruct (IH (fun dm s sm Hin => Hf dm s sm (or_intror Hin)) l2 eq_refl (run m (flat_map (mv dst p) l1)) (Some p)) as (L2 & E3 & H2).
    exists (flat_map (mv dst p) l1 ++ L2). rewrite run_app. split; [exact E3|].
    intros x y. rewrite in_app_iff, H1, H2. split.
    + intros [(o & o' & Hc & -> & ->)|(dm' & s & sm' & p' & o & o' & Hin & Hr)].
      * exists dm, k, sm, p, o, o'. split; [left; reflexivity|]. split; [exact Hfirst|]. split; [exact Hp|]. split; [exact Hc|]. split; reflexivity.
      * exists dm', s, sm', p', o, o'. split; [right; exact Hin|exact Hr].
    + intros (dm' & s & sm' & p' & o & o' & [<-|Hin] & Hr).
      * left. destruct Hr as (Hfs & Hp' & Hc & Hx & Hy). destruct (first_unique _ _ _ _ _ _ Hfirst Hfs) as [<- <-].
        rewrite Hp in Hp'. injection Hp' as <-. exists o, o'. split; [exact Hc|]. split; assumption.
      * right. exists dm', s, sm', p', o, o'. split; [exact Hin|exact Hr].
Qed.

Lemma convert_ok dstS srcs l m dst ptrs : List.length ptrs = List.length srcs ->
  (forall dm s sm, In dm dstS -> first_source srcs (mname dm) s sm -> flat (mtype sm)) ->
  createRecipe dstS srcs = Some l ->
  (forall x y x' y', moved dstS srcs dst ptrs x y -> moved dstS srcs dst ptrs x' y' -> (x = x' /\ y = y') \/ apart x x') ->
  (forall x y x' y', moved dstS srcs dst ptrs x y -> moved dstS srcs dst ptrs x' y' -> apart x y') ->
  exists m', applyRecipe l m dst ptrs = Some m' /\
  (forall x y k, moved dstS srcs dst ptrs x y -> 0 <= k < 4 -> m' (x + k) = m (y + k)) /\
  (forall a, (forall x y, moved dstS srcs dst ptrs x y -> ~ (x <= a < x + 4)) -> m' a = m a).
Proof.
  intros Hlen Hf E A1 A2. destruct (create_ok srcs ptrs dst dstS Hlen Hf l E m None) as (L & E' & H). exists (run m L). split; [exact E'|]. split.
  - intros x y k Hm Hk. apply run_in; [| |apply H, Hm|exact Hk].
    + intros x1 y1 x2 y2 Hi1 Hi2. apply A1; apply H; assumption.
    + intros x1 y1 x2 y2 Hi1 Hi2. apply (A2 x1 y1 x2 y2); apply H; assumption.
  - intros a Ha. apply run_out. intros x y Hi. apply (Ha x y), H, Hi.
Qed.

(** ** When there is a recipe *)
Lemma loop_fits ti ui st su : forall k d s,
  loopOf (makeRecipe ti ui) st su k d s <> None <-> forall i, 0 <= i < Z.of_nat k -> makeRecipe ti ui (d + i * st) (s + i * su) <> None.
Proof.
  induction k as [|k IH]; intros d s; cbn [loopOf].
  - split; [intros _ i Hi; lia|discriminate].
  - specialize (IH (d + st) (s + su)). split.
    + intros H i Hi. destruct (makeRecipe ti ui d s) eqn:E; [|contradiction].
      destruct (loopOf (makeRecipe ti ui) st su k (d + st) (s + su)); [|contradiction].
      destruct (Z.eq_dec i 0) as [->|Hn]; [rewrite !Z.mul_0_l, !Z.add_0_r, E; discriminate|].
      pose proof (proj1 IH ltac:(discriminate) (i - 1) ltac:(lia)) as H'.
      replace (d + st + (i - 1) * st) with (d + i * st) in H' by lia. replace (s + su + (i - 1) * su) with (s + i * su) in H' by lia. exact H'.
    + intros H. pose proof (H 0 ltac:(lia)) as H0. rewrite !Z.mul_0_l, !Z.add_0_r in H0. destruct (makeRecipe ti ui d s); [|contradiction].
      assert (Hr : loopOf (makeRecipe ti ui) st su k (d + st) (s + su) <> None).
      { apply IH. intros i Hi. replace (d + st + i * st) with (d + (i + 1) * st) by lia. replace (s + su + i * su) with (s + (i + 1) * su) by lia. apply H. lia. }
      destruct (loopOf (makeRecipe ti ui) st su k (d + st) (s + su)); [discriminate|contradiction].
Qed.

Lemma demotes_if {A} l (v : A) : (if demotes l then Some v else None) <> None <-> forall x, In x l -> x <= 65535.
Proof. rewrite <- demotes_spec. destruct (demotes l); split; intros; congruence. Qed.

Lemma fast_dec ti ui st su : isFloat ti && isFloat ui && (st =? 4) && (su =? 4) = true <-> ti = TFloat /\ ui = TFloat /\ st = 4 /\ su = 4.
Proof.
  split.
  - destruct ti; try discriminate. destruct ui; try discriminate. cbn. intros H. apply andb_prop in H. destruct H as [H1 H2].
    apply Z.eqb_eq in H1, H2. auto.
  - intros (-> & -> & -> & ->). reflexivity.
Qed.

Lemma make_fits t : forall u d s, makeRecipe t u d s <> None <-> fits t u d s.
Proof.
  induction t as [|ti IH n st|ti _ size|]; intros u d s.
  - cbn [makeRecipe]. destruct u; cbn [isFloat andb]; try (split; [contradiction|intros H; inversion H]).
    rewrite demotes_if. split.
    + intros H. constructor; apply H; [left; reflexivity|right; left; reflexivity].
    + intros H. inversion H; subst. intros x [<-|[<-|[]]]; assumption.
  - destruct u as [|ui m su|ui size|]; try (split; [contradiction|intros H; inversion H]).
    + rewrite make_fixed. destruct (isFloat ti && isFloat ui && (st =? 4) && (su =? 4)) eqn:Ef.
      * apply fast_dec in Ef. destruct Ef as (-> & -> & -> & ->). rewrite demotes_if. split.
        -- intros H. apply fits_floats; apply H; [left|right; left|right; right; left]; reflexivity.
        -- intros H. inversion H; subst.
           ++ intros x [<-|[<-|[<-|[]]]]; assumption.
           ++ match goal with H : ~ _ |- _ => destruct H; auto end.
      * assert (Hn : ~ (ti = TFloat /\ ui = TFloat /\ st = 4 /\ su = 4)) by (intros H; apply fast_dec in H; congruence).
        rewrite loop_fits. split.
        -- intros H. apply fits_items; [exact Hn|]. intros i Hi Hi'. apply IH, H. lia.
        -- intros H i Hi. inversion H; subst; [destruct Hn; auto|]. apply IH. match goal with H : forall i, _ |- _ => apply H; lia end.
    + cbn [makeRecipe]. split.
      * intros H. destruct (demotes [d; s; st; size; n]) eqn:E; [|contradiction]. rewrite demotes_spec in E.
        destruct (makeRecipe ti ui 0 0) eqn:E'; [|contradiction].
        apply fits_heap; try (apply E; cbn; tauto). apply IH. rewrite E'. discriminate.
      * intros H. inversion H; subst. assert (E : demotes [d; s; st; size; n] = true).
        { apply demotes_spec. intros x [<-|[<-|[<-|[<-|[<-|[]]]]]]; assumption. }
        rewrite E. match goal with H : fits ti ui 0 0 |- _ => apply IH in H end. destruct (makeRecipe ti ui 0 0); [discriminate|contradiction].
  - split; [contradiction|intros H; inversion H].
  - split; [contradiction|intros H; inversion H].
Qed.

Lemma create_fits srcs : zlen srcs <= 65536 -> forall dstS,
  createRecipe dstS srcs <> None <->
  forall dm, In dm dstS -> exists s sm, first_source srcs (mname dm) s sm /\ fits (mtype dm) (mtype sm) (offset dm) (offset sm).
Proof.
  intros Hlen. induction dstS as [|dm dstS IH]; cbn [createRecipe].
  - split; [intros _ dm []|discriminate].
  - pose proof (findSource_ok (mname dm) srcs 0) as Hs. destruct (findSource (mname dm) srcs 0) as [[i sm]|].
    + destruct Hs as (k & -> & Hfirst).
      assert (Hk : (k < List.length srcs)%nat) by (destruct Hfirst as (a & b & H1 & _); apply nth_error_Some; congruence).
      assert (Ed : demotes [0 + Z.of_nat k] = true). { apply demotes_spec. intros x [<-|[]]. unfold zlen in Hlen. lia. }
      rewrite Ed. pose proof (make_fits (mtype dm) (mtype sm) (offset dm) (offset sm)) as Hm. split.
      * intros H dm' [<-|Hin].
        -- exists k, sm. split; [exact Hfirst|]. apply Hm. destruct (makeRecipe (mtype dm) (mtype sm) (offset dm) (offset sm)); [discriminate|contradiction].
        -- apply (proj1 IH); [|exact Hin]. destruct (makeRecipe (mtype dm) (mtype sm) (offset dm) (offset sm)); [|contradiction].
           destruct (createRecipe dstS srcs); [discriminate|contradiction].
      * intros H. destruct (H dm (or_introl eq_refl)) as (s & sm' & Hf & Hfit). destruct (first_unique _ _ _ _ _ _ Hfirst Hf) as [<- <-].
        apply Hm in Hfit. destruct (makeRecipe (mtype dm) (mtype sm) (offset dm) (offset sm)); [|contradiction].
        assert (Hr : createRecipe dstS srcs <> None) by (apply IH; intros dm' Hin; apply H; right; exact Hin).
        destruct (createRecipe dstS srcs); [discriminate|contradiction].
    + split; [contradiction|]. intros H. destruct (H dm (or_introl eq_refl)) as (s & sm & (a & b & H1 & H2 & _) & _). exfalso.
      apply (Hs (a ++ sm :: b) sm); [apply nth_error_In in H1; exact H1|apply in_or_app; right; left; reflexivity|exact H2].
Qed.

(** ** Arrays on the heap *)
Lemma iter_nothing k (m : mem) : Nat.iter k convertNoBlock m = m.
Proof. induction k as [|k IH]; [reflexivity|]. cbn. exact IH. Qed.

Lemma heap_wrong dm rest srcs s sm n st size p l m dst ptrs : first_source srcs (mname dm) s sm ->
  mtype dm = TFixed TFloat n st -> mtype sm = TArr TFloat size -> nth_error ptrs s = Some p ->
  createRecipe (dm :: rest) srcs = Some l -> applyRecipe l m dst ptrs = Some (copy4 m (dst + 0) (p + 0)).
Proof.
  intros Hf Ht Hu Hp E. cbn [createRecipe] in E.
  pose proof (findSource_ok (mname dm) srcs 0) as Hs. destruct (findSource (mname dm) srcs 0) as [[i sm']|]; [|discriminate].
  destruct Hs as (k & -> & Hfirst). destruct (first_unique _ _ _ _ _ _ Hfirst Hf) as [-> ->].
  destruct (demotes [0 + Z.of_nat s]); [|discriminate]. rewrite Ht, Hu in E. cbn [makeRecipe] in E.
  destruct (demotes [offset dm; offset sm; st; size; n]); [|discriminate]. cbn [isFloat andb] in E.
  destruct (demotes [0; 0]); [|discriminate]. destruct (createRecipe rest srcs) as [l2|]; [|discriminate]. injection E as <-.
  unfold applyRecipe. cbn [convert app]. rewrite ?Z.add_0_l, Nat2Z.id, Hp. cbn [convert]. rewrite iter_nothing. reflexivity.
Qed.
