(* Proofs about the model of HashMap. *)
From Verif Require Import Base ListUpd UtilModel UtilSpec UtilProofs HashMapModel HashMapSpec.
From Coq Require Import ZifyBool ZifyNat Znumtheory.
Ltac Zify.zify_post_hook ::= idtac.

Section Proofs.
Context {K V : Type} (eqb : K -> K -> bool) (hash : K -> Z) (dflt : V).
Hypothesis Heqb : forall a b, eqb a b = true <-> a = b.
Hypothesis Hhash : forall k, 0 <= hash k < 2 ^ 32.
Notation cell := (@cell K V).
Notation table := (list cell).
Implicit Types (t : table) (c : cell).

Definition okn t := exists e, 2 <= e <= 31 /\ zlen t = 2 ^ e.

Lemma okn_pos t : okn t -> 4 <= zlen t.
Proof.
  intros (e & He & ->). change 4 with (2 ^ 2). apply Z.pow_le_mono_r; lia.
Qed.
Lemma okn_max t : okn t -> zlen t <= 2 ^ 31.
Proof. intros (e & He & ->). apply Z.pow_le_mono_r; lia. Qed.

Lemma slot_mod t i : okn t -> slot t i = Z.to_nat (i mod zlen t).
Proof.
  intros (e & He & E). unfold slot, sizeMask. rewrite E, land_mod by lia. reflexivity.
Qed.

Lemma u32_mod t x : okn t -> u32 x mod zlen t = x mod zlen t.
Proof.
  intros H. pose proof (okn_pos t H). destruct H as (e & He & E). unfold u32. symmetry.
  apply Zmod_div_mod; [lia|lia|]. exists (2 ^ (32 - e)). rewrite E, <- Z.pow_add_r by lia.
  f_equal. lia.
Qed.

Lemma getc_cong t i j : okn t -> i mod zlen t = j mod zlen t -> getc t i = getc t j.
Proof. intros H E. unfold getc. rewrite !slot_mod, E by assumption. reflexivity. Qed.

Lemma setc_len t i c : zlen (setc t i c) = zlen t.
Proof. unfold zlen, setc. rewrite upd_length. reflexivity. Qed.

Lemma setc_okn t i c : okn t -> okn (setc t i c).
Proof. unfold okn. rewrite setc_len. auto. Qed.

Lemma slot_lt t i : okn t -> (slot t i < length t)%nat.
Proof.
  intros H. rewrite slot_mod by assumption. pose proof (okn_pos t H).
  pose proof (Z.mod_pos_bound i (zlen t)). unfold zlen in *. lia.
Qed.

Lemma getc_setc t i j c : okn t ->
  getc (setc t i c) j = if i mod zlen t =? j mod zlen t then c else getc t j.
Proof.
  intros H. unfold getc. rewrite (slot_mod (setc t i c)) by (apply setc_okn; assumption).
  rewrite setc_len. unfold setc. rewrite !slot_mod by assumption.
  pose proof (okn_pos t H). pose proof (Z.mod_pos_bound i (zlen t)). pose proof (Z.mod_pos_bound j (zlen t)).
  rewrite !nth_default_eq || idtac.
  assert (G : forall (l : table) q x, nth q l fresh = x <-> match nth_error l q with Some y => y | None => fresh end = x).
  { intros l q x. rewrite <- nth_default_eq. unfold nth_default. reflexivity. }
  apply G. rewrite nth_upd. unfold zlen in *.
  destruct (Nat.eqb_spec (Z.to_nat (i mod Z.of_nat (length t))) (Z.to_nat (j mod Z.of_nat (length t)))) as [E|E];
    destruct (Z.eqb_spec (i mod Z.of_nat (length t)) (j mod Z.of_nat (length t))) as [E'|E']; try lia.
  - destruct (Nat.ltb_spec (Z.to_nat (i mod Z.of_nat (length t))) (length t)); [reflexivity|lia].
  - symmetry. apply G. reflexivity.
Qed.

(* items *)
Ltac case_if := match goal with |- context [if ?c then _ else _] => destruct c end.
Definition opt c : list (K * V) := match it c with Some x => [x] | None => [] end.
Definition items t : list (K * V) := flat_map opt t.

Lemma getc_split t i : okn t -> exists a b, t = a ++ getc t i :: b /\ forall c, setc t i c = a ++ c :: b.
Proof.
  intros H. pose proof (slot_lt t i H) as Hl.
  exists (firstn (slot t i) t), (skipn (S (slot t i)) t). split.
  - apply nth_split_eq. unfold getc. apply nth_error_nth'. assumption.
  - intros c. unfold setc. apply upd_split. assumption.
Qed.

Lemma items_setc t i c : okn t ->
  Permutation (opt (getc t i) ++ items (setc t i c)) (opt c ++ items t).
Proof.
  intros H. destruct (getc_split t i H) as (a & b & E1 & E2). rewrite E2. rewrite E1 at 2.
  unfold items. rewrite !flat_map_app. cbn [flat_map].
  rewrite !(Permutation_app_swap_app (opt (getc t i))), !(Permutation_app_swap_app (opt c)).
  apply Permutation_app_head.
  rewrite Permutation_app_swap_app. apply Permutation_refl.
Qed.

Lemma in_items t x : okn t -> In x (items t) <-> exists p, it (getc t p) = Some x.
Proof.
  intros H. unfold items. rewrite in_flat_map. split.
  - intros (c & Hc & Hx). apply In_nth with (d := fresh) in Hc. destruct Hc as (q & Hq & E).
    exists (Z.of_nat q). replace (getc t (Z.of_nat q)) with c.
    + unfold opt in Hx. destruct (it c); cbn in Hx; [|contradiction]. destruct Hx as [->|[]]. reflexivity.
    + unfold getc. rewrite slot_mod by assumption. rewrite Z.mod_small by (unfold zlen; lia).
      rewrite Nat2Z.id. auto.
  - intros (p & E). exists (getc t p). split; [apply nth_In, slot_lt; assumption|].
    unfold opt. rewrite E. left. reflexivity.
Qed.

(* fields after the basic updates *)
Lemma wr_len t l v : zlen (wr t l v) = zlen t.
Proof. destruct l; cbn; apply setc_len. Qed.
Lemma wr_okn t l v : okn t -> okn (wr t l v).
Proof. unfold okn. rewrite wr_len. auto. Qed.
Lemma occ_len t i h x : zlen (occupy t i h x) = zlen t.
Proof. apply setc_len. Qed.
Lemma occ_okn t i h x : okn t -> okn (occupy t i h x).
Proof. unfold okn. rewrite occ_len. auto. Qed.
Lemma vac_len t i : zlen (vacate t i) = zlen t.
Proof. apply setc_len. Qed.
Lemma vac_okn t i : okn t -> okn (vacate t i).
Proof. unfold okn. rewrite vac_len. auto. Qed.

Ltac cong := apply f_equal; apply getc_cong; [assumption|congruence].
Lemma nx_wr t l v j : okn t -> nx (getc (wr t l v) j) =
  match l with Next i => if i mod zlen t =? j mod zlen t then v else nx (getc t j) | First _ => nx (getc t j) end.
Proof.
  intros H. unfold wr. cbv zeta. destruct l; rewrite getc_setc by assumption;
  destruct (Z.eqb_spec (idx mod zlen t) (j mod zlen t)); cbn; try reflexivity. cong.
Qed.
Lemma fs_wr t l v j : okn t -> fs (getc (wr t l v) j) =
  match l with First i => if i mod zlen t =? j mod zlen t then v else fs (getc t j) | Next _ => fs (getc t j) end.
Proof.
  intros H. unfold wr. cbv zeta. destruct l; rewrite getc_setc by assumption;
  destruct (Z.eqb_spec (idx mod zlen t) (j mod zlen t)); cbn; try reflexivity. cong.
Qed.
Lemma hs_wr t l v j : okn t -> hs (getc (wr t l v) j) = hs (getc t j).
Proof.
  intros H. unfold wr. cbv zeta. destruct l; rewrite getc_setc by assumption;
  destruct (Z.eqb_spec (idx mod zlen t) (j mod zlen t)); cbn; try reflexivity; cong.
Qed.
Lemma it_wr t l v j : okn t -> it (getc (wr t l v) j) = it (getc t j).
Proof.
  intros H. unfold wr. cbv zeta. destruct l; rewrite getc_setc by assumption;
  destruct (Z.eqb_spec (idx mod zlen t) (j mod zlen t)); cbn; try reflexivity; cong.
Qed.
Lemma items_wr t l v : okn t -> Permutation (items (wr t l v)) (items t).
Proof.
  intros H. apply (Permutation_app_inv_l (opt (getc t (match l with First i | Next i => i end)))).
  unfold wr. cbv zeta. destruct l; rewrite items_setc by assumption; reflexivity.
Qed.

Lemma nx_occ t i h x j : okn t -> nx (getc (occupy t i h x) j) =
  if i mod zlen t =? j mod zlen t then 0 else nx (getc t j).
Proof. intros H. unfold occupy. rewrite getc_setc by assumption. case_if; reflexivity. Qed.
Lemma fs_occ t i h x j : okn t -> fs (getc (occupy t i h x) j) = fs (getc t j).
Proof.
  intros H. unfold occupy. rewrite getc_setc by assumption.
  destruct (Z.eqb_spec (i mod zlen t) (j mod zlen t)); cbn; [cong|reflexivity].
Qed.
Lemma hs_occ t i h x j : okn t -> hs (getc (occupy t i h x) j) =
  if i mod zlen t =? j mod zlen t then h else hs (getc t j).
Proof. intros H. unfold occupy. rewrite getc_setc by assumption. case_if; reflexivity. Qed.
Lemma it_occ t i h x j : okn t -> it (getc (occupy t i h x) j) =
  if i mod zlen t =? j mod zlen t then Some x else it (getc t j).
Proof. intros H. unfold occupy. rewrite getc_setc by assumption. case_if; reflexivity. Qed.
Lemma items_occ t i h x : okn t -> it (getc t i) = None ->
  Permutation (items (occupy t i h x)) (x :: items t).
Proof.
  intros H E. pose proof (items_setc t i (mkc 0 (fs (getc t i)) h (Some x)) H) as P.
  unfold opt in P at 1 2. rewrite E in P. cbn in P. exact P.
Qed.

Lemma nx_vac t i j : okn t -> nx (getc (vacate t i) j) =
  if i mod zlen t =? j mod zlen t then 255 else nx (getc t j).
Proof. intros H. unfold vacate. cbv zeta. rewrite getc_setc by assumption. case_if; reflexivity. Qed.
Lemma fs_vac t i j : okn t -> fs (getc (vacate t i) j) = fs (getc t j).
Proof.
  intros H. unfold vacate. cbv zeta. rewrite getc_setc by assumption.
  destruct (Z.eqb_spec (i mod zlen t) (j mod zlen t)); cbn; [cong|reflexivity].
Qed.
Lemma hs_vac t i j : okn t -> hs (getc (vacate t i) j) = hs (getc t j).
Proof.
  intros H. unfold vacate. cbv zeta. rewrite getc_setc by assumption.
  destruct (Z.eqb_spec (i mod zlen t) (j mod zlen t)); cbn; [cong|reflexivity].
Qed.
Lemma it_vac t i j : okn t -> it (getc (vacate t i) j) =
  if i mod zlen t =? j mod zlen t then None else it (getc t j).
Proof. intros H. unfold vacate. cbv zeta. rewrite getc_setc by assumption. case_if; reflexivity. Qed.
Lemma items_vac t i x : okn t -> it (getc t i) = Some x ->
  Permutation (x :: items (vacate t i)) (items t).
Proof.
  intros H E. pose proof (items_setc t i (mkc EmptySlot (fs (getc t i)) (hs (getc t i)) None) H) as P.
  unfold opt in P at 1 2. rewrite E in P. cbn in P. exact P.
Qed.

(* chains *)
Fixpoint seg t (b l d : Z) (ds : list Z) : Prop :=
  match ds with
  | [] => True
  | x :: r => l = x - d /\ 0 < l < 255 /\ x < zlen t /\ nx (getc t (b + x)) <> 255 /\
              hs (getc t (b + x)) mod zlen t = b /\ seg t b (nx (getc t (b + x))) x r
  end.
Fixpoint endlink t (b l : Z) (ds : list Z) : Z :=
  match ds with [] => l | x :: r => endlink t b (nx (getc t (b + x))) r end.
Fixpoint lst (d : Z) (ds : list Z) : Z := match ds with [] => d | x :: r => lst x r end.
Fixpoint lnk (h : Z) (prev : link) (ds : list Z) : link :=
  match ds with [] => prev | x :: r => lnk h (Next (u32 (h + x))) r end.
Definition chain t b ds := seg t b (fs (getc t b)) 0 ds /\ endlink t b (fs (getc t b)) ds = 0.

Lemma seg_app t b l d ds1 ds2 :
  seg t b l d (ds1 ++ ds2) <-> seg t b l d ds1 /\ seg t b (endlink t b l ds1) (lst d ds1) ds2.
Proof. revert l d. induction ds1 as [|x r IH]; intros l d; cbn; [tauto|]. rewrite IH. tauto. Qed.
Lemma endlink_app t b l ds1 ds2 : endlink t b l (ds1 ++ ds2) = endlink t b (endlink t b l ds1) ds2.
Proof. revert l. induction ds1 as [|x r IH]; intros l; cbn; auto. Qed.
Lemma lst_app d ds1 ds2 : lst d (ds1 ++ ds2) = lst (lst d ds1) ds2.
Proof. revert d. induction ds1 as [|x r IH]; intros d; cbn; auto. Qed.
Lemma lnk_app h p ds1 ds2 : lnk h p (ds1 ++ ds2) = lnk h (lnk h p ds1) ds2.
Proof. revert p. induction ds1 as [|x r IH]; intros p; cbn; auto. Qed.
Lemma lnk_cases h ds : (ds = [] /\ lnk h (First h) ds = First h) \/
  (ds <> [] /\ lnk h (First h) ds = Next (u32 (h + lst 0 ds)) /\ In (lst 0 ds) ds).
Proof.
  destruct ds as [|x r]; [left; auto|right]. split; [discriminate|]. cbn [lnk lst].
  revert x. induction r as [|y r IH]; intros x; cbn; [auto|]. destruct (IH y) as [E I].
  split; [exact E|]. right. exact I.
Qed.
Lemma seg_lst t b l d ds : 0 <= d < zlen t -> seg t b l d ds -> d <= lst d ds < zlen t.
Proof.
  revert l d. induction ds as [|x r IH]; intros l d Hd H; cbn in *; [lia|].
  destruct H as (-> & H1 & H2 & _ & _ & H). apply IH in H; lia.
Qed.
Lemma seg_in t b l d ds x : 0 <= d -> seg t b l d ds -> In x ds ->
  d < x <= lst d ds /\ x < zlen t /\ nx (getc t (b + x)) <> 255 /\ hs (getc t (b + x)) mod zlen t = b.
Proof.
  revert l d. induction ds as [|y r IH]; intros l d Hd H Hi; [destruct Hi|].
  cbn in H. destruct H as (-> & H1 & H2 & H3 & H4 & H). destruct Hi as [<-|Hi].
  - assert (y < zlen t) by lia. pose proof (seg_lst t b _ y r ltac:(lia) H). cbn. repeat split; try assumption; lia.
  - destruct (IH _ y ltac:(lia) H Hi) as (A & B). cbn. split; [lia|]. exact B.
Qed.
Lemma seg_le t b l d ds : 0 <= d -> seg t b l d ds -> d + Z.of_nat (length ds) <= lst d ds.
Proof.
  revert l d. induction ds as [|y r IH]; intros l d Hd H; [cbn; lia|].
  cbn [seg lst length] in *. destruct H as (-> & H1 & H2 & H3 & H4 & H). apply IH in H; lia.
Qed.

Lemma seg_frame t t' b l d ds : zlen t' = zlen t -> 0 <= d ->
  (forall x, In x ds -> nx (getc t' (b + x)) <> 255 /\ hs (getc t' (b + x)) = hs (getc t (b + x)) /\
             (nx (getc t' (b + x)) = nx (getc t (b + x)) \/ x = lst d ds)) ->
  seg t b l d ds -> seg t' b l d ds.
Proof.
  intros HL. revert l d. induction ds as [|x r IH]; intros l d Hd F H; cbn in *; [exact I|].
  destruct H as (E & H1 & H2 & H3 & H4 & H). rewrite HL. destruct (F x (or_introl eq_refl)) as (F1 & F2 & F3).
  rewrite F2. do 5 (split; [assumption|]).
  destruct r as [|y r]; [exact I|].
  assert (Hx : x < lst x (y :: r)).
  { pose proof (seg_le t b _ x (y :: r) ltac:(lia) H). cbn [length] in *. lia. }
  destruct F3 as [F3|F3]; [|lia]. rewrite F3.
  apply IH; [lia| |exact H]. intros z Hz. apply F. right. exact Hz.
Qed.

Lemma endlink_frame t t' b l ds :
  (forall x, In x ds -> nx (getc t' (b + x)) = nx (getc t (b + x))) -> endlink t' b l ds = endlink t b l ds.
Proof.
  revert l. induction ds as [|x r IH]; intros l F; cbn; [reflexivity|].
  rewrite F by (left; reflexivity). apply IH. intros y Hy. apply F. right. exact Hy.
Qed.

Lemma rd_lnk t b h p ds : okn t -> h mod zlen t = b -> rd t (lnk h p ds) = endlink t b (rd t p) ds.
Proof.
  intros H E. revert p. induction ds as [|x r IH]; intros p; cbn; [reflexivity|]. rewrite IH. cbn.
  f_equal. f_equal. apply getc_cong; [assumption|]. rewrite u32_mod by assumption.
  rewrite <- E, Z.add_mod_idemp_l; [reflexivity|]. pose proof (okn_pos t H). lia.
Qed.

Lemma pos_inj t b x y : 0 <= x < zlen t -> 0 <= y < zlen t -> (b + x) mod zlen t = (b + y) mod zlen t -> x = y.
Proof.
  intros Hx Hy E. set (n := zlen t) in *.
  assert (D : (x - y) mod n = 0).
  { replace (x - y) with ((b + x) - (b + y)) by lia. rewrite Zminus_mod, E, Z.sub_diag. apply Z.mod_0_l. lia. }
  apply Z.mod_divide in D; [|lia]. destruct D as (q & D).
  destruct (Z.eq_dec q 0) as [->|Hq]; [lia|]. exfalso. assert (q <= -1 \/ 1 <= q) as [Q|Q] by lia; nia.
Qed.

Record inv t (C : Z -> list Z) : Prop := {
  I_n : okn t;
  I_chain : forall b, 0 <= b < zlen t -> chain t b (C b);
  I_home : forall p, nx (getc t p) <> 255 ->
     (p mod zlen t = hs (getc t p) mod zlen t /\ nx (getc t p) = 0) \/
     exists d, In d (C (hs (getc t p) mod zlen t)) /\ (hs (getc t p) mod zlen t + d) mod zlen t = p mod zlen t;
  I_it : forall p, it (getc t p) = None <-> nx (getc t p) = 255;
  I_hs : forall p k v, it (getc t p) = Some (k, v) -> hs (getc t p) = hash k }.

Lemma u32_add a b : u32 (u32 a + b) = u32 (a + b).
Proof. unfold u32. apply Z.add_mod_idemp_l. lia. Qed.
Lemma u32_small a : 0 <= a < 2 ^ 32 -> u32 a = a.
Proof. apply Z.mod_small. Qed.
Lemma getc_h t h x : okn t -> getc t (u32 (h + x)) = getc t (h mod zlen t + x).
Proof.
  intros H. pose proof (okn_pos t H). apply getc_cong; [assumption|].
  rewrite u32_mod by assumption. rewrite Z.add_mod_idemp_l by lia. reflexivity.
Qed.
Lemma getc_h0 t h : okn t -> getc t h = getc t (h mod zlen t).
Proof. intros H. pose proof (okn_pos t H). apply getc_cong; [assumption|]. rewrite Z.mod_mod by lia. reflexivity. Qed.

Lemma walk_ok t h k ds : forall fuel l d prev, okn t -> 0 <= d ->
  seg t (h mod zlen t) l d ds -> endlink t (h mod zlen t) l ds = 0 -> rd t prev = l -> (length ds <= fuel)%nat ->
  (exists ds1 x ds2, ds = ds1 ++ x :: ds2 /\
     walk eqb fuel t h k (u32 (h + d)) prev = Hit (u32 (h + x)) (lnk h prev ds1) /\
     matches eqb (getc t (h mod zlen t + x)) h k = true) \/
  (walk eqb fuel t h k (u32 (h + d)) prev = End (u32 (h + lst d ds)) (lnk h prev ds) /\
   forall x, In x ds -> matches eqb (getc t (h mod zlen t + x)) h k = false).
Proof.
  induction ds as [|x r IH]; intros fuel l d prev Hn Hd S E R F.
  - right. cbn in E. destruct fuel; cbn; rewrite R, E; cbn; split; auto; intros ? [].
  - cbn in S, E. destruct S as (E1 & S1 & S2 & S3 & S4 & S5). destruct fuel; [cbn in F; lia|].
    cbn [walk]. rewrite R. destruct (Z.eqb_spec l 0); [lia|]. cbv zeta.
    rewrite u32_add. replace (h + d + l) with (h + x) by lia. rewrite getc_h by assumption.
    destruct (Z.eqb_spec (nx (getc t (h mod zlen t + x))) EmptySlot) as [e|_]; [exfalso; auto|].
    destruct (matches eqb (getc t (h mod zlen t + x)) h k) eqn:M.
    + left. exists [], x, r. auto.
    + destruct (IH fuel _ x (Next (u32 (h + x))) Hn ltac:(lia) S5 E) as [(ds1 & y & ds2 & A & B & D)|[A B]].
      * cbn. rewrite getc_h by assumption. reflexivity.
      * cbn in F. lia.
      * left. exists (x :: ds1), y, ds2. subst r. auto.
      * right. split; [exact A|]. intros y [<-|Hy]; auto.
Qed.

Lemma walk_end_ok t h ds : forall fuel l d prev, okn t -> 0 <= d ->
  seg t (h mod zlen t) l d ds -> endlink t (h mod zlen t) l ds = 0 -> rd t prev = l -> (length ds <= fuel)%nat ->
  walk_end fuel t (u32 (h + d)) prev = Some (u32 (h + lst d ds), lnk h prev ds).
Proof.
  induction ds as [|x r IH]; intros fuel l d prev Hn Hd S E R F.
  - cbn in E. destruct fuel; cbn; rewrite R, E; reflexivity.
  - cbn in S, E. destruct S as (E1 & S1 & S2 & S3 & S4 & S5). destruct fuel; [cbn in F; lia|].
    cbn [walk_end]. rewrite R. destruct (Z.eqb_spec l 0); [lia|]. cbv zeta.
    rewrite u32_add. replace (h + d + l) with (h + x) by lia. rewrite getc_h by assumption.
    destruct (Z.eqb_spec (nx (getc t (h mod zlen t + x))) EmptySlot) as [e|_]; [exfalso; auto|].
    apply IH with (l := nx (getc t (h mod zlen t + x))); auto; [lia| |cbn in F; lia].
    cbn. rewrite getc_h by assumption. reflexivity.
Qed.

Lemma chain_len t b ds : okn t -> chain t b ds -> (length ds <= length t)%nat.
Proof.
  intros H [S _]. pose proof (okn_pos t H). pose proof (seg_le _ _ _ _ _ (Z.le_refl 0) S).
  assert (0 <= 0 < zlen t) by lia. pose proof (seg_lst t b _ 0 ds ltac:(lia) S). unfold zlen in *. lia.
Qed.

Lemma probe_spec t h m : forall d, okn t ->
  (exists x, d < x <= d + Z.of_nat m /\ probe m t h (u32 (h + d)) = Free (u32 (h + x)) /\
     nx (getc t (h mod zlen t + x)) = 255 /\ forall y, d < y < x -> nx (getc t (h mod zlen t + y)) <> 255) \/
  (probe m t h (u32 (h + d)) = Full /\ forall y, d < y <= d + Z.of_nat m -> nx (getc t (h mod zlen t + y)) <> 255) \/
  (exists x, d < x <= d + Z.of_nat m /\ probe m t h (u32 (h + d)) = ProbeBad /\
     nx (getc t (h mod zlen t + x)) <> 255 /\ hs (getc t (h mod zlen t + x)) = h /\
     forall y, d < y < x -> nx (getc t (h mod zlen t + y)) <> 255).
Proof.
  induction m as [|m IH]; intros d Hn.
  - right. left. split; [reflexivity|]. lia.
  - cbn [probe]. cbv zeta. rewrite u32_add. replace (h + d + 1) with (h + (d + 1)) by lia.
    rewrite getc_h by assumption.
    unfold EmptySlot. destruct (Z.eqb_spec (nx (getc t (h mod zlen t + (d + 1)))) 255) as [e|e].
    + left. exists (d + 1). repeat split; auto; try lia; intros; lia.
    + destruct (Z.eqb_spec (hs (getc t (h mod zlen t + (d + 1)))) h) as [f|f].
      * right. right. exists (d + 1). repeat split; auto; try lia; intros; lia.
      * assert (G : forall y, y = d + 1 \/ (d + 1 < y -> nx (getc t (h mod zlen t + y)) <> 255) ->
                    d < y -> nx (getc t (h mod zlen t + y)) <> 255).
        { intros y [->|Q] L; [exact e|]. destruct (Z.eq_dec y (d + 1)) as [->|]; [exact e|]. apply Q. lia. }
        destruct (IH (d + 1) Hn) as [(x & A & B & D & E)|[(A & B)|(x & A & B & D & E & E')]].
        -- left. exists x. repeat split; auto; try lia. intros y Hy. apply G; [|lia]. right. intros. apply E. lia.
        -- right. left. split; [exact A|]. intros y Hy. apply G; [|lia]. right. intros. apply B. lia.
        -- right. right. exists x. repeat split; auto; try lia. intros y Hy. apply G; [|lia]. right. intros. apply E'. lia.
Qed.

Definition absent t k := forall v, ~ In (k, v) (items t).

Lemma matches_true t C p h k : inv t C -> matches eqb (getc t p) h k = true ->
  exists v, it (getc t p) = Some (k, v).
Proof.
  intros HI M. unfold matches in M. apply andb_true_iff in M. destruct M as [_ M].
  destruct (it (getc t p)) as [[k' v]|]; [|discriminate]. apply Heqb in M. subst. eauto.
Qed.

Lemma home_match t C p k v : inv t C -> it (getc t p) = Some (k, v) ->
  nx (getc t p) <> 255 /\ matches eqb (getc t p) (hash k) k = true.
Proof.
  intros HI E. split.
  - intros N. apply (I_it t C HI) in N. congruence.
  - unfold matches. rewrite E, (I_hs t C HI p k v E), Z.eqb_refl. cbn. apply Heqb. reflexivity.
Qed.

(* where the cell of key k can be *)
Lemma located t C p k v : inv t C -> it (getc t p) = Some (k, v) ->
  let b := hash k mod zlen t in
  getc t p = getc t (hash k) \/ exists d, In d (C b) /\ getc t p = getc t (b + d).
Proof.
  intros HI E b. pose proof (I_n _ _ HI) as Hn. destruct (home_match t C p k v HI E) as [N M].
  destruct (I_home _ _ HI p N) as [[A _]|(d & A & B)]; rewrite (I_hs _ _ HI p k v E) in *.
  - left. apply getc_cong; assumption.
  - right. exists d. split; [exact A|]. apply getc_cong; auto.
Qed.

Lemma absent_when t C k : inv t C -> let b := hash k mod zlen t in
  (nx (getc t (hash k)) = 255 \/ matches eqb (getc t (hash k)) (hash k) k = false) ->
  (forall x, In x (C b) -> matches eqb (getc t (b + x)) (hash k) k = false) -> absent t k.
Proof.
  intros HI b H1 H2 v Hi. pose proof (I_n _ _ HI) as Hn. apply in_items in Hi; [|assumption].
  destruct Hi as (p & E). destruct (home_match t C p k v HI E) as [N M].
  destruct (located t C p k v HI E) as [L|(d & A & L)]; rewrite L in *.
  - destruct H1; congruence.
  - rewrite H2 in M by assumption. discriminate.
Qed.

Definition at_cell (t : table) (C : Z -> list Z) (h p : Z) (prev : option link) : Prop :=
  (prev = None /\ p = h) \/
  (exists ds1 x ds2, C (h mod zlen t) = ds1 ++ x :: ds2 /\ p = u32 (h + x) /\ prev = Some (lnk h (First h) ds1)).

Lemma mod_range t h : okn t -> 0 <= h mod zlen t < zlen t.
Proof. intros H. pose proof (okn_pos t H). apply Z.mod_pos_bound. lia. Qed.

Lemma find_ok t C k : inv t C ->
  (exists p prev v, insertOrFind eqb hash dflt t k false = Found p prev /\ it (getc t p) = Some (k, v) /\
     at_cell t C (hash k) p prev) \/
  (insertOrFind eqb hash dflt t k false = NotFound /\ absent t k).
Proof.
  intros HI. pose proof (I_n _ _ HI) as Hn. unfold insertOrFind. cbn [andb]. cbv zeta. unfold EmptySlot.
  pose proof (I_chain _ _ HI _ (mod_range t (hash k) Hn)) as Hc. pose proof (chain_len _ _ _ Hn Hc) as Hl. destruct Hc as [S E].
  destruct (negb (nx (getc t (hash k)) =? 255) && matches eqb (getc t (hash k)) (hash k) k) eqn:B.
  - left. apply andb_true_iff in B. destruct B as [_ B]. destruct (matches_true _ _ _ _ _ HI B) as (v & Ev).
    exists (hash k), None, v. repeat split; auto. left. auto.
  - destruct (walk_ok t (hash k) k (C (hash k mod zlen t)) (length t) _ 0 (First (hash k)) Hn ltac:(lia) S E)
      as [(ds1 & x & ds2 & A1 & A2 & A3)|[A1 A2]].
    + cbn. rewrite getc_h0 by assumption. reflexivity.
    + assumption.
    + left. rewrite Z.add_0_r, u32_small in A2 by apply Hhash. rewrite A2.
      destruct (matches_true _ _ _ _ _ HI A3) as (v & Ev).
      exists (u32 (hash k + x)), (Some (lnk (hash k) (First (hash k)) ds1)), v.
      rewrite getc_h by assumption. repeat split; auto. right. exists ds1, x, ds2. auto.
    + right. rewrite Z.add_0_r, u32_small in A1 by apply Hhash. rewrite A1. cbn [negb]. split; [reflexivity|].
      apply (absent_when t C k HI); [|exact A2].
      apply andb_false_iff in B. destruct B as [B|B]; [left|right; exact B].
      apply negb_false_iff, Z.eqb_eq in B. exact B.
Qed.

Definition isnil (l : list Z) := match l with [] => true | _ => false end.
Lemma isnil_t l : isnil l = true -> l = [].
Proof. destruct l; [auto|discriminate]. Qed.
Lemma isnil_f l : isnil l = false -> l <> [].
Proof. destruct l; [discriminate|congruence]. Qed.

Definition addC (C : Z -> list Z) b dn : Z -> list Z := fun b' => if b' =? b then C b ++ [dn] else C b'.

Lemma link_ok t C x dn h b dl t' v : inv t C -> h = hash (fst x) -> b = h mod zlen t -> dl = lst 0 (C b) ->
  dl < dn < zlen t -> v = dn - dl -> v < 255 -> nx (getc t (b + dn)) = 255 ->
  t' = wr (occupy t (u32 (h + dn)) h x) (lnk h (First h) (C b)) v ->
  inv t' (addC C b dn) /\ Permutation (items t') (x :: items t) /\ it (getc t' (u32 (h + dn))) = Some x /\
  (forall p, nx (getc t p) <> 255 -> nx (getc t' p) <> 255).
Proof.
  intros HI Hh Hbd Hdef Hdn Hvd Hd He Ht'. pose proof (I_n _ _ HI) as Hn. pose proof (okn_pos t Hn) as Hp.
  pose proof (mod_range t h Hn) as Hb. rewrite <- Hbd in Hb.
  destruct (I_chain _ _ HI _ Hb) as [S E].
  pose proof (seg_lst t b _ 0 (C b) ltac:(lia) S) as Hdl. rewrite <- Hdef in Hdl.
  assert (Hn1 : okn (occupy t (u32 (h + dn)) h x)) by (apply occ_okn; assumption).
  assert (HL : zlen t' = zlen t) by (subst t'; rewrite wr_len, occ_len; reflexivity).
  assert (Hi : u32 (h + dn) mod zlen t = (b + dn) mod zlen t).
  { rewrite u32_mod by assumption. rewrite Hbd, Z.add_mod_idemp_l by lia. reflexivity. }
  assert (Hv : 0 < v < 255) by lia. assert (Hv' : v <> 255) by lia.
  (* fields *)
  assert (Fnx : forall j, nx (getc t' j) =
     if (b + dn) mod zlen t =? j mod zlen t then 0
     else if (negb (isnil (C b)) && ((b + dl) mod zlen t =? j mod zlen t)) then v
     else nx (getc t j)).
  { intros j. rewrite Ht'. rewrite nx_wr, occ_len by assumption.
    destruct (lnk_cases h (C b)) as [[L1 ->]|(L1 & -> & L3)].
    - replace (isnil (C b)) with true by (rewrite L1; reflexivity). cbn [negb andb]. rewrite nx_occ, Hi by assumption. reflexivity.
    - replace (isnil (C b)) with false by (destruct (C b); [congruence|reflexivity]). cbn [negb andb]. rewrite <- Hdef in *.
      rewrite nx_occ, Hi by assumption. rewrite u32_mod by assumption.
      replace ((h + dl) mod zlen t) with ((b + dl) mod zlen t)
        by (rewrite Hbd, Z.add_mod_idemp_l by lia; reflexivity).
      destruct (Z.eqb_spec ((b + dl) mod zlen t) (j mod zlen t)) as [e1|e1];
      destruct (Z.eqb_spec ((b + dn) mod zlen t) (j mod zlen t)) as [e2|e2]; auto.
      exfalso. assert (dl = dn); [|lia]. apply (pos_inj t b); [lia|lia|congruence]. }
  assert (Ffs : forall j, fs (getc t' j) =
     if (isnil (C b)) && (b =? j mod zlen t) then v else fs (getc t j)).
  { intros j. rewrite Ht'. rewrite fs_wr, occ_len by assumption.
    destruct (lnk_cases h (C b)) as [[L1 ->]|(L1 & -> & L3)].
    - replace (isnil (C b)) with true by (rewrite L1; reflexivity). cbn [andb]. rewrite <- Hbd. rewrite fs_occ by assumption. reflexivity.
    - replace (isnil (C b)) with false by (destruct (C b); [congruence|reflexivity]). cbn [andb]. rewrite fs_occ by assumption. reflexivity. }
  assert (Fhs : forall j, hs (getc t' j) = if (b + dn) mod zlen t =? j mod zlen t then h else hs (getc t j)).
  { intros j. rewrite Ht'. rewrite hs_wr, hs_occ, Hi by assumption. reflexivity. }
  assert (Fit : forall j, it (getc t' j) = if (b + dn) mod zlen t =? j mod zlen t then Some x else it (getc t j)).
  { intros j. rewrite Ht'. rewrite it_wr, it_occ, Hi by assumption. reflexivity. }
  assert (Hempty : forall j, (b + dn) mod zlen t = j mod zlen t -> nx (getc t j) = 255).
  { intros j Hj. rewrite <- He. f_equal. apply getc_cong; auto. }
  assert (Hlast : forall j, C b <> [] -> (b + dl) mod zlen t = j mod zlen t ->
             nx (getc t j) <> 255 /\ hs (getc t j) mod zlen t = b /\ 0 < dl).
  { intros j HC Hj. destruct (lnk_cases h (C b)) as [[L1 _]|(_ & _ & L3)]; [congruence|]. rewrite <- Hdef in L3.
    destruct (seg_in _ _ _ _ _ _ (Z.le_refl 0) S L3) as (Q1 & Q2 & Q3 & Q4).
    replace (getc t j) with (getc t (b + dl)) by (apply getc_cong; auto). repeat split; auto; lia. }
  assert (Hn' : okn t') by (unfold okn; rewrite HL; exact Hn).
  (* cells of chains other than the new one *)
  assert (Fother : forall b' y, 0 <= b' < zlen t -> In y (C b') ->
      nx (getc t' (b' + y)) <> 255 /\ hs (getc t' (b' + y)) = hs (getc t (b' + y)) /\
      (nx (getc t' (b' + y)) = nx (getc t (b' + y)) \/ (b' = b /\ y = dl))).
  { intros b' y Hb' Hy. destruct (I_chain _ _ HI _ Hb') as [S' _].
    destruct (seg_in _ _ _ _ _ _ (Z.le_refl 0) S' Hy) as (Q1 & Q2 & Q3 & Q4).
    rewrite Fnx, Fhs. destruct (Z.eqb_spec ((b + dn) mod zlen t) ((b' + y) mod zlen t)) as [e|e].
    { exfalso. apply Q3. apply Hempty. exact e. }
    split; [|split; [reflexivity|]].
    - case_if; [exact Hv'|exact Q3].
    - destruct (isnil (C b)) eqn:EC; [left; reflexivity|]. apply isnil_f in EC. cbn [negb andb].
      destruct (Z.eqb_spec ((b + dl) mod zlen t) ((b' + y) mod zlen t)) as [f|f]; [|left; reflexivity].
      right. destruct (Hlast _ ltac:(congruence) f) as (_ & Q5 & Q6). rewrite Q4 in Q5. subst b'.
      split; [reflexivity|]. apply (pos_inj t b); [lia|lia|congruence]. }
  split; [|split; [|split]].
  - constructor; auto.
    + intros b' Hb'. rewrite HL in Hb'. unfold addC. destruct (Z.eqb_spec b' b) as [->|Hne].
      * assert (EL : endlink t' b (fs (getc t' b)) (C b) = v).
        {          replace (fs (getc t' b)) with (rd t' (First h)).
          - rewrite <- (rd_lnk t' b h (First h)); [|exact Hn'|rewrite HL; auto].
            rewrite Ht'. destruct (lnk_cases h (C b)) as [[L1 ->]|(L1 & -> & L3)]; cbn [rd].
            + rewrite fs_wr by assumption. rewrite Z.eqb_refl. reflexivity.
            + rewrite nx_wr by assumption. rewrite Z.eqb_refl. reflexivity.
          - cbn. rewrite (getc_h0 t' h Hn'). rewrite HL, <- Hbd. reflexivity. }
        split.
        -- apply seg_app. split.
           ++ destruct (isnil (C b)) eqn:EC; [apply isnil_t in EC; rewrite EC; exact I|].
              apply (seg_frame t t'); [exact HL|exact (Z.le_refl 0)| |].
              ** intros y Hy. destruct (Fother b y Hb Hy) as (G1 & G2 & G3). repeat split; auto.
                 destruct G3 as [G3|[_ G3]]; [auto|right; congruence].
              ** rewrite Ffs. rewrite ?EC. cbn [andb]. exact S.
           ++ rewrite EL. cbn. rewrite <- Hdef. rewrite Fnx, Z.eqb_refl, Fhs, Z.eqb_refl, HL.
              repeat split; try lia; auto.
        -- rewrite endlink_app, EL. cbn. rewrite Fnx, Z.eqb_refl. reflexivity.
      * destruct (I_chain _ _ HI _ Hb') as [S' E'].
        assert (Ef : fs (getc t' b') = fs (getc t b')).
        { rewrite Ffs. rewrite (Z.mod_small b') by lia. rewrite (proj2 (Z.eqb_neq b b')) by congruence.
          rewrite andb_false_r. reflexivity. }
        split; rewrite Ef.
        -- apply (seg_frame t t'); [exact HL|exact (Z.le_refl 0)| |exact S'].
           intros y Hy. destruct (Fother b' y Hb' Hy) as (G1 & G2 & G3). repeat split; auto.
           destruct G3 as [G3|[G3 _]]; [auto|congruence].
        -- rewrite <- E'. apply endlink_frame. intros y Hy. destruct (Fother b' y Hb' Hy) as (G1 & G2 & G3).
           destruct G3 as [G3|[G3 _]]; [auto|congruence].
    + intros p. rewrite HL, Fhs. destruct (Z.eqb_spec ((b + dn) mod zlen t) (p mod zlen t)) as [e|e].
      * intros _. right. rewrite <- Hbd. exists dn. unfold addC. rewrite Z.eqb_refl. split; [|exact e].
        apply in_or_app. right. left. reflexivity.
      * intros N. assert (N' : nx (getc t p) <> 255).
        { rewrite Fnx in N. rewrite (proj2 (Z.eqb_neq _ _) e) in N.
          destruct (isnil (C b)) eqn:EC; [exact N|]. apply isnil_f in EC. cbn [negb andb] in N.
          destruct (Z.eqb_spec ((b + dl) mod zlen t) (p mod zlen t)) as [f|f]; [|exact N].
          apply Hlast; [congruence|exact f]. }
        destruct (I_home _ _ HI p N') as [[A1 A2]|(d & A1 & A2)].
        -- left. split; [exact A1|]. rewrite Fnx. rewrite (proj2 (Z.eqb_neq _ _) e).
           destruct (isnil (C b)) eqn:EC; [exact A2|]. apply isnil_f in EC. cbn [negb andb].
           destruct (Z.eqb_spec ((b + dl) mod zlen t) (p mod zlen t)) as [f|f]; [|exact A2].
           exfalso. destruct (Hlast p ltac:(congruence) f) as (_ & Q5 & Q6). rewrite Q5 in A1.
           rewrite A1 in f. replace b with ((b + 0) mod zlen t) in f at 2 by (rewrite Z.add_0_r; apply Z.mod_small; lia).
           apply pos_inj in f; lia.
        -- right. exists d. split; [|exact A2]. unfold addC.
           destruct (Z.eqb_spec (hs (getc t p) mod zlen t) b) as [f|f]; [|exact A1].
           rewrite f in A1. apply in_or_app. left. exact A1.
    + intros p. rewrite Fit, Fnx. case_if; [split; [discriminate|discriminate]|].
      destruct (isnil (C b)) eqn:EC; [cbn [negb andb]; apply (I_it _ _ HI)|]. apply isnil_f in EC. cbn [negb andb].
      destruct (Z.eqb_spec ((b + dl) mod zlen t) (p mod zlen t)) as [f|f]; [|apply (I_it _ _ HI)].
      split; [|intros Q; exfalso; exact (Hv' Q)]. intros Q. apply (I_it _ _ HI) in Q.
      destruct (Hlast p ltac:(congruence) f) as (Q5 & _). congruence.
    + intros p k' v'. rewrite Fit, Fhs. case_if; [|apply (I_hs _ _ HI)].
      intros Q. injection Q as ->. exact Hh.
  - rewrite Ht'. rewrite items_wr by assumption. apply items_occ; [assumption|]. apply (I_it _ _ HI).
    rewrite getc_h, <- Hbd by assumption. exact He.
  - rewrite Fit. rewrite Hi. rewrite Z.eqb_refl. reflexivity.
  - intros p N. rewrite Fnx. case_if; [discriminate|]. case_if; [exact Hv'|exact N].
Qed.

Lemma head_ok t C x h b t' : inv t C -> h = hash (fst x) -> b = h mod zlen t ->
  nx (getc t h) = 255 -> fs (getc t h) = 0 -> t' = occupy t h h x ->
  inv t' C /\ C b = [] /\ Permutation (items t') (x :: items t) /\ it (getc t' h) = Some x /\
  (forall p, nx (getc t p) <> 255 -> nx (getc t' p) <> 255).
Proof.
  intros HI Hh Hbd He Hf Ht'. pose proof (I_n _ _ HI) as Hn. pose proof (okn_pos t Hn) as Hp.
  pose proof (mod_range t h Hn) as Hb. rewrite <- Hbd in Hb.
  assert (HL : zlen t' = zlen t) by (subst t'; apply occ_len).
  assert (HC : C b = []).
  { destruct (I_chain _ _ HI _ Hb) as [S E]. destruct (C b) as [|y r]; [reflexivity|exfalso].
    cbn in S. rewrite Hbd, <- getc_h0 in S by assumption. lia. }
  assert (Fnx : forall j, nx (getc t' j) = if b =? j mod zlen t then 0 else nx (getc t j))
    by (intros; rewrite Ht', nx_occ, <- Hbd by assumption; reflexivity).
  assert (Ffs : forall j, fs (getc t' j) = fs (getc t j)) by (intros; rewrite Ht', fs_occ by assumption; reflexivity).
  assert (Fhs : forall j, hs (getc t' j) = if b =? j mod zlen t then h else hs (getc t j))
    by (intros; rewrite Ht', hs_occ, <- Hbd by assumption; reflexivity).
  assert (Fit : forall j, it (getc t' j) = if b =? j mod zlen t then Some x else it (getc t j))
    by (intros; rewrite Ht', it_occ, <- Hbd by assumption; reflexivity).
  assert (Hempty : forall j, b = j mod zlen t -> nx (getc t j) = 255).
  { intros j Hj. rewrite <- He. f_equal. apply getc_cong; congruence. }
  assert (Fother : forall b' y, 0 <= b' < zlen t -> In y (C b') ->
      nx (getc t' (b' + y)) = nx (getc t (b' + y)) /\ hs (getc t' (b' + y)) = hs (getc t (b' + y)) /\
      nx (getc t (b' + y)) <> 255).
  { intros b' y Hb' Hy. destruct (I_chain _ _ HI _ Hb') as [S' _].
    destruct (seg_in _ _ _ _ _ _ (Z.le_refl 0) S' Hy) as (Q1 & Q2 & Q3 & Q4).
    rewrite Fnx, Fhs. destruct (Z.eqb_spec b ((b' + y) mod zlen t)) as [e|e]; [|auto].
    exfalso. apply Q3. apply Hempty. exact e. }
  split; [|split; [exact HC|split; [|split]]].
  - constructor.
    + unfold okn. rewrite HL. exact Hn.
    + intros b' Hb'. rewrite HL in Hb'. destruct (I_chain _ _ HI _ Hb') as [S' E']. split; rewrite Ffs.
      * apply (seg_frame t t'); [exact HL|exact (Z.le_refl 0)| |exact S']. intros y Hy.
        destruct (Fother b' y Hb' Hy) as (G1 & G2 & G3). repeat split; [congruence|exact G2|left; exact G1].
      * rewrite <- E'. apply endlink_frame. intros y Hy. apply (Fother b' y Hb' Hy).
    + intros p. rewrite HL, Fhs, Fnx. destruct (Z.eqb_spec b (p mod zlen t)) as [e|e].
      * intros _. left. split; congruence.
      * apply (I_home _ _ HI).
    + intros p. rewrite Fit, Fnx. case_if; [split; discriminate|apply (I_it _ _ HI)].
    + intros p k v. rewrite Fit, Fhs. case_if; [|apply (I_hs _ _ HI)].
      intros Q. injection Q as ->. exact Hh.
  - rewrite Ht'. apply items_occ; [assumption|]. apply (I_it _ _ HI). exact He.
  - rewrite Fit, <- Hbd, Z.eqb_refl. reflexivity.
  - intros p N. rewrite Fnx. case_if; [discriminate|exact N].
Qed.

Lemma no_stray t C h x : inv t C -> let b := h mod zlen t in
  lst 0 (C b) < x < zlen t -> nx (getc t (b + x)) <> 255 -> hs (getc t (b + x)) = h -> False.
Proof.
  intros HI b Hx N E. pose proof (I_n _ _ HI) as Hn. pose proof (okn_pos t Hn).
  pose proof (mod_range t h Hn) as Hb. fold b in Hb. destruct (I_chain _ _ HI _ Hb) as [S _].
  pose proof (seg_lst t b _ 0 (C b) ltac:(lia) S) as Hl.
  destruct (I_home _ _ HI _ N) as [[A _]|(d & A & B)]; rewrite E in *; fold b in A.
  - replace b with ((b + 0) mod zlen t) in A at 2 by (rewrite Z.add_0_r; apply Z.mod_small; lia).
    apply pos_inj in A; lia.
  - fold b in B. destruct (seg_in _ _ _ _ _ _ (Z.le_refl 0) S A) as (Q1 & Q2 & _).
    apply pos_inj in B; lia.
Qed.

Lemma u32_sub a b : u32 (u32 a - b) = u32 (a - b).
Proof. unfold u32. apply Zminus_mod_idemp_l. Qed.
Lemma u32_sub2 a b : u32 (u32 a - u32 b) = u32 (a - b).
Proof. rewrite u32_sub. unfold u32. apply Zminus_mod_idemp_r. Qed.
Lemma u8_small x : 0 <= x < 256 -> u8 x = x.
Proof. apply Z.mod_small. Qed.

Lemma iof_ok t C k : inv t C -> let b := hash k mod zlen t in
  match insertOrFind eqb hash dflt t k true with
  | Found p _ => exists v, it (getc t p) = Some (k, v)
  | Inserted t' p => absent t k /\ (exists C', inv t' C') /\ Permutation (items t') ((k, dflt) :: items t) /\
      it (getc t' p) = Some (k, dflt) /\ zlen t' = zlen t
  | Overflow => absent t k /\
      (zlen t <= 129 -> forall x, lst 0 (C b) < x < zlen t -> nx (getc t (b + x)) <> 255) /\
      (nx (getc t b) <> 255 \/ C b <> [])
  | NotFound | Bad => False
  end.
Proof.
  intros HI b. pose proof (I_n _ _ HI) as Hn. pose proof (okn_pos t Hn) as Hp. pose proof (okn_max t Hn) as Hm.
  unfold insertOrFind. cbn [andb negb]. cbv zeta. unfold EmptySlot.
  pose proof (mod_range t (hash k) Hn) as Hb.
  pose proof (I_chain _ _ HI _ Hb) as Hc. pose proof (chain_len _ _ _ Hn Hc) as Hl. destruct Hc as [S E]. fold b in Hb, Hl, S, E.
  destruct ((nx (getc t (hash k)) =? 255) && (fs (getc t (hash k)) =? 0)) eqn:B0.
  { apply andb_true_iff in B0. destruct B0 as [B1 B2]. apply Z.eqb_eq in B1, B2.
    destruct (head_ok t C (k, dflt) (hash k) b _ HI eq_refl eq_refl B1 B2 eq_refl) as (G1 & G2 & G3 & G4 & _).
    split; [|split; [exists C; exact G1|split; [exact G3|split; [exact G4|apply occ_len]]]].
    apply (absent_when t C k HI); [left; exact B1|]. fold b. rewrite G2. intros x []. }
  destruct (negb (nx (getc t (hash k)) =? 255) && matches eqb (getc t (hash k)) (hash k) k) eqn:B.
  { apply andb_true_iff in B. destruct B as [_ B]. exact (matches_true _ _ _ _ _ HI B). }
  pose proof (walk_ok t (hash k) k (C b) (length t) _ 0 (First (hash k)) Hn (Z.le_refl 0) S E) as W.
  rewrite Z.add_0_r, u32_small in W by apply Hhash. fold b in W.
  destruct W as [(ds1 & x & ds2 & A1 & A2 & A3)|[A1 A2]].
  { cbn. rewrite getc_h0 by assumption. reflexivity. }
  { assumption. }
  { rewrite A2. destruct (matches_true _ _ _ _ _ HI A3) as (v & Ev). exists v. rewrite getc_h by assumption. exact Ev. }
  rewrite A1. clear A1. pose proof (seg_lst t b _ 0 (C b) ltac:(lia) S) as Hdl.
  assert (Habs : absent t k).
  { apply (absent_when t C k HI); [|exact A2].
    apply andb_false_iff in B. destruct B as [B|B]; [left|right; exact B].
    apply negb_false_iff, Z.eqb_eq in B. exact B. }
  set (dl := lst 0 (C b)) in *. assert (Hdef : dl = lst 0 (C b)) by reflexivity. clearbody dl.
  rewrite u32_sub. replace (hash k + dl - hash k) with dl by lia.
  rewrite (u32_small dl) by lia. unfold sizeMask. destruct (Z.ltb_spec (zlen t - 1) dl); [lia|].
  unfold LinearSearchLimit. set (m := Z.to_nat (Z.min (zlen t - 1 - dl) 128)).
  assert (Hmm : Z.of_nat m = Z.min (zlen t - 1 - dl) 128) by lia. clearbody m.
  destruct (probe_spec t (hash k) m dl Hn) as [(x & P1 & P2 & P3 & P4)|[(P1 & P2)|(x & P1 & P2 & P3 & P4 & P5)]].
  - rewrite P2. rewrite u32_sub2. replace (hash k + x - (hash k + dl)) with (x - dl) by lia.
    rewrite (u32_small (x - dl)), u8_small by lia.
    destruct (link_ok t C (k, dflt) x (hash k) b dl _ (x - dl) HI eq_refl eq_refl Hdef ltac:(lia) eq_refl ltac:(lia) P3 eq_refl)
      as (G1 & G2 & G3 & _).
    split; [exact Habs|]. split; [eexists; exact G1|]. split; [exact G2|]. split; [exact G3|].
    rewrite wr_len, occ_len. reflexivity.
  - rewrite P1. split; [exact Habs|]. split.
    + intros Hs x Hx. apply P2. lia.
    + apply andb_false_iff in B0. destruct B0 as [B0|B0]; apply Z.eqb_neq in B0.
      * left. rewrite getc_h0 in B0 by assumption. exact B0.
      * right. intros HC. apply B0. rewrite HC in E. cbn in E. rewrite getc_h0 by assumption. exact E.
  - exfalso. rewrite Hdef in P1. apply (no_stray t C (hash k) x HI); auto. fold b. lia.
Qed.

(* a table whose cells are all occupied *)
Lemma all_full t : okn t -> (forall p, it (getc t p) <> None) -> zlen (items t) = zlen t.
Proof.
  intros Hn H. assert (G : forall c, In c t -> it c <> None).
  { intros c Hc. apply In_nth with (d := fresh) in Hc. destruct Hc as (q & Hq & E).
    specialize (H (Z.of_nat q)). unfold getc in H. rewrite slot_mod in H by assumption.
    rewrite Z.mod_small, Nat2Z.id, E in H by (unfold zlen; lia). exact H. }
  clear - G. unfold zlen, items. induction t as [|c r IH]; [reflexivity|]. cbn [flat_map].
  rewrite app_length, Nat2Z.inj_add, IH by (intros; apply G; right; assumption).
  unfold opt. specialize (G c (or_introl eq_refl)). destruct (it c); [cbn [length]; lia|congruence].
Qed.

Lemma full_from t C b : inv t C -> 0 <= b < zlen t ->
  (forall x, 0 <= x < zlen t -> nx (getc t (b + x)) <> 255) -> zlen (items t) = zlen t.
Proof.
  intros HI Hb H. pose proof (I_n _ _ HI) as Hn. apply all_full; [assumption|]. intros p N.
  apply (I_it _ _ HI) in N. apply (H ((p - b) mod zlen t)); [apply mod_range; assumption|].
  rewrite <- N. f_equal. apply getc_cong; [assumption|]. rewrite Z.add_mod_idemp_r by lia. f_equal. lia.
Qed.

Definition packed t (C : Z -> list Z) := forall b d x, 0 <= b < zlen t -> In d (C b) -> 0 <= x <= d ->
  nx (getc t (b + x)) <> 255.

Lemma packed_upto t C b x : inv t C -> packed t C -> 0 <= b < zlen t -> (nx (getc t b) <> 255 \/ C b <> []) ->
  0 <= x <= lst 0 (C b) -> nx (getc t (b + x)) <> 255.
Proof.
  intros HI HP Hb H Hx. destruct (lnk_cases 0 (C b)) as [[L1 _]|(_ & _ & L3)].
  - rewrite L1 in *. cbn in Hx. replace x with 0 by lia. rewrite Z.add_0_r. destruct H; congruence.
  - exact (HP b _ x Hb L3 Hx).
Qed.

Lemma mig_ok t C x : inv t C -> packed t C -> zlen (items t) < zlen t ->
  match insertForMigration t (hash (fst x)) x with
  | Some t' => exists C', inv t' C' /\ packed t' C' /\ Permutation (items t') (x :: items t) /\ zlen t' = zlen t
  | None => 129 < zlen t
  end.
Proof.
  intros HI HP HF. pose proof (I_n _ _ HI) as Hn. pose proof (okn_pos t Hn) as Hp. pose proof (okn_max t Hn) as Hm.
  unfold insertForMigration. cbv zeta. unfold EmptySlot.
  remember (hash (fst x)) as h eqn:Hh. remember (h mod zlen t) as b eqn:Hbd.
  pose proof (mod_range t h Hn) as Hb. rewrite <- Hbd in Hb.
  pose proof (I_chain _ _ HI _ Hb) as Hc. pose proof (chain_len _ _ _ Hn Hc) as Hl. destruct Hc as [S E].
  assert (Hh32 : 0 <= h < 2 ^ 32) by (subst h; apply Hhash).
  destruct (Z.eqb_spec (nx (getc t h)) 255) as [B1|B1].
  - assert (HC : C b = []).
    { destruct (C b) as [|y r] eqn:EC; [reflexivity|exfalso].
      apply (HP b y 0 Hb); [rewrite EC; left; reflexivity| |].
      - destruct (seg_in _ _ _ _ _ y (Z.le_refl 0) S (or_introl eq_refl)). lia.
      - rewrite Z.add_0_r, Hbd, <- getc_h0 by assumption. exact B1. }
    assert (B2 : fs (getc t h) = 0).
    { rewrite HC in E. cbn in E. rewrite getc_h0, <- Hbd by assumption. exact E. }
    rewrite B2. cbn.
    destruct (head_ok t C x h b _ HI Hh Hbd B1 B2 eq_refl) as (G1 & G2 & G3 & G4 & G5).
    exists C. split; [exact G1|]. split; [|split; [exact G3|apply occ_len]].
    intros b' d y Hb' Hd Hy. rewrite occ_len in Hb'. apply G5. exact (HP b' d y Hb' Hd Hy).
  - pose proof (walk_end_ok t h (C b) (length t) (fs (getc t b)) 0 (First h) Hn (Z.le_refl 0)) as W.
    rewrite <- Hbd in W. rewrite Z.add_0_r, u32_small in W by assumption.
    rewrite W; [|assumption|assumption|cbn; rewrite getc_h0, <- Hbd by assumption; reflexivity|assumption]. clear W.
    pose proof (seg_lst t b _ 0 (C b) ltac:(lia) S) as Hdl.
    remember (lst 0 (C b)) as dl eqn:Hdef. unfold sizeMask, LinearSearchLimit.
    set (m := Z.to_nat (Z.min (zlen t - 1) 128)).
    assert (Hmm : Z.of_nat m = Z.min (zlen t - 1) 128) by lia. clearbody m.
    assert (Hpk : forall y, 0 <= y <= dl -> nx (getc t (b + y)) <> 255).
    { intros y Hy. apply (packed_upto t C b y HI HP Hb); [|lia]. left.
      rewrite Hbd, <- getc_h0 by assumption. exact B1. }
    assert (Hstop : forall z, dl < z -> (forall y, dl < y < z -> nx (getc t (b + y)) <> 255) -> z <= zlen t - 1 \/
               z > zlen t - 1 /\ False).
    { intros z Hz Hy. destruct (Z.le_gt_cases z (zlen t - 1)); [left; lia|exfalso].
      rewrite (full_from t C b HI Hb) in HF; [lia|]. intros y Hy'.
      destruct (Z.le_gt_cases y dl); [apply Hpk; lia|apply Hy; lia]. }
    destruct (probe_spec t h m dl Hn) as [(z & P1 & P2 & P3 & P4)|[(P1 & P2)|(z & P1 & P2 & P3 & P4 & P5)]];
      rewrite <- Hbd in *.
    + rewrite P2. destruct (Hstop z ltac:(lia) P4) as [Hz|[_ []]].
      rewrite u32_sub2. replace (h + z - (h + dl)) with (z - dl) by lia.
      rewrite (u32_small (z - dl)), u8_small by lia.
      destruct (link_ok t C x z h b dl _ (z - dl) HI Hh Hbd Hdef ltac:(lia) eq_refl ltac:(lia) P3 eq_refl)
        as (G1 & G2 & G3 & G4).
      eexists. split; [exact G1|]. split; [|split; [exact G2|rewrite wr_len, occ_len; reflexivity]].
      intros b' d y Hb' Hd Hy. rewrite wr_len, occ_len in Hb'. unfold addC in Hd.
      destruct (Z.eqb_spec b' b) as [->|Hne]; [|apply G4; exact (HP b' d y Hb' Hd Hy)].
      apply in_app_or in Hd. destruct Hd as [Hd|[<-|[]]]; [apply G4; exact (HP b d y Hb Hd Hy)|].
      destruct (Z.eq_dec y z) as [->|Hyz].
      * intros N. apply (I_it _ _ G1) in N. rewrite getc_h in G3 by exact (I_n _ _ G1).
        rewrite wr_len, occ_len, <- Hbd in G3. congruence.
      * apply G4. destruct (Z.le_gt_cases y dl); [apply Hpk; lia|apply P4; lia].
    + rewrite P1. destruct (Z.le_gt_cases (zlen t) 129); [exfalso|lia].
      destruct (Hstop (dl + Z.of_nat m + 1) ltac:(lia)) as [Hz|[_ []]]; [intros y Hy; apply P2; lia|lia].
    + exfalso. destruct (Hstop z ltac:(lia) P5) as [Hz|[_ []]].
      apply (no_stray t C h z HI); rewrite <- Hbd; auto. lia.
Qed.

Lemma zlen_perm {A} (l r : list A) : Permutation l r -> zlen l = zlen r.
Proof. intros H. unfold zlen. rewrite (Permutation_length H). reflexivity. Qed.

Lemma migrate_cells_ok src : forall t C, inv t C -> packed t C ->
  (forall c, In c src -> nx c = 255 -> it c = None) ->
  (forall c, In c src -> nx c <> 255 -> exists x, it c = Some x /\ hs c = hash (fst x)) ->
  zlen (items t) + zlen (items src) < zlen t ->
  match migrate_cells src t with
  | Some t' => exists C', inv t' C' /\ packed t' C' /\ Permutation (items t') (items src ++ items t) /\ zlen t' = zlen t
  | None => 129 < zlen t
  end.
Proof.
  induction src as [|c r IH]; intros t C HI HP H1 H2 HF; cbn [migrate_cells].
  - exists C. auto.
  - unfold EmptySlot. destruct (Z.eqb_spec (nx c) 255) as [e|e].
    + assert (Eo : opt c = []) by (unfold opt; rewrite (H1 c (or_introl eq_refl) e); reflexivity).
      assert (Ei : items (c :: r) = items r) by (unfold items; cbn [flat_map]; rewrite Eo; reflexivity).
      rewrite Ei in *. apply (IH t C); auto; intros; [apply H1|apply H2]; auto; right; assumption.
    + destruct (H2 c (or_introl eq_refl) e) as (x & E1 & E2). rewrite E1, E2.
      assert (Ei : items (c :: r) = x :: items r) by (unfold items, opt; cbn [flat_map]; rewrite E1; reflexivity).
      rewrite Ei in *.
      assert (HF' : zlen (items t) + 1 + zlen (items r) < zlen t) by (unfold zlen in *; cbn [length] in *; lia).
      assert (0 <= zlen (items r)) by (unfold zlen; lia).
      pose proof (mig_ok t C x HI HP ltac:(lia)) as G.
      destruct (insertForMigration t (hash (fst x)) x) as [t1|]; [|exact G].
      destruct G as (C1 & G1 & G2 & G3 & G4).
      assert (zlen (items t1) = zlen (items t) + 1) by (rewrite (zlen_perm _ _ G3); unfold zlen; cbn [length]; lia).
      specialize (IH t1 C1 G1 G2). rewrite G4 in IH.
      assert (IH' := IH ltac:(intros; apply H1; auto; right; assumption)
        ltac:(intros; apply H2; auto; right; assumption) ltac:(lia)). clear IH.
      destruct (migrate_cells r t1) as [t2|]; [|exact IH'].
      destruct IH' as (C2 & K1 & K2 & K3 & K4). exists C2. split; [exact K1|]. split; [exact K2|]. split; [|exact K4].
      rewrite K3, G3. symmetry. apply Permutation_middle.
Qed.

Lemma fresh_ok e : 2 <= e <= 31 -> exists t, createTable (2 ^ e) = Some t /\ zlen t = 2 ^ e /\
  inv t (fun _ => []) /\ packed t (fun _ => []) /\ items t = [].
Proof.
  intros He. assert (2 ^ 2 <= 2 ^ e <= 2 ^ 31) by (split; apply Z.pow_le_mono_r; lia).
  exists (repeat fresh (Z.to_nat (2 ^ e))). unfold createTable.
  rewrite (proj2 (isPowerOf2_iff 32 (2 ^ e) ltac:(lia) ltac:(lia))) by (right; exists e; split; [lia|reflexivity]).
  destruct (Z.leb_spec 4 (2 ^ e)); [|lia]. split; [reflexivity|].
  assert (HL : zlen (repeat (@fresh K V) (Z.to_nat (2 ^ e))) = 2 ^ e) by (unfold zlen; rewrite repeat_length; lia).
  split; [exact HL|].
  set (t := repeat (@fresh K V) (Z.to_nat (2 ^ e))) in *.
  assert (G : forall j, getc t j = fresh) by (intros; unfold getc, t; apply nth_repeat).
  split; [|split].
  - constructor.
    + exists e. auto.
    + intros b Hb. split; [exact I|]. cbn. rewrite G. reflexivity.
    + intros p N. rewrite G in N. exfalso. apply N. reflexivity.
    + intros p. rewrite G. cbn. split; reflexivity.
    + intros p k v E. rewrite G in E. discriminate.
  - intros b d x _ [].
  - unfold t. generalize (Z.to_nat (2 ^ e)). induction n as [|n IH]; [reflexivity|]. exact IH.
Qed.

Lemma in_getc t c : okn t -> In c t -> exists p, getc t p = c.
Proof.
  intros Hn Hc. apply In_nth with (d := fresh) in Hc. destruct Hc as (q & Hq & E). exists (Z.of_nat q).
  unfold getc. rewrite slot_mod by assumption. rewrite Z.mod_small, Nat2Z.id by (unfold zlen; lia). exact E.
Qed.

Lemma migrate_ok (m : hmap) C : inv (cells m) C -> pop m = zlen (items (cells m)) -> pop m <= 2 ^ 30 ->
  match migrate m with
  | Some m' => exists C', inv (cells m') C' /\ packed (cells m') C' /\
      Permutation (items (cells m')) (items (cells m)) /\ pop m' = pop m /\ clob m' = clob m /\
      pop m < zlen (cells m') /\ (pop m <= 64 -> zlen (cells m') <= 128)
  | None => 64 < pop m
  end.
Proof.
  intros HI HP Hm. pose proof (I_n _ _ HI) as Hn. unfold migrate.
  assert (H0 : 0 <= pop m) by (rewrite HP; unfold zlen; lia).
  assert (HS : exists e, 2 <= e <= 31 /\ Z.max InitialSize (roundUpPowerOf2_32 (u32 (pop m * 2))) = 2 ^ e /\
                pop m < 2 ^ e /\ (pop m <= 64 -> 2 ^ e <= 128)).
  { rewrite u32_small by lia. unfold InitialSize. destruct (Z.eq_dec (pop m) 0) as [E0|E0].
    - rewrite E0. change (roundUpPowerOf2_32 (0 * 2)) with 0. exists 2. repeat split; lia.
    - destruct (roundUp32_ok (pop m * 2) ltac:(lia)) as ((e & He & ->) & L1 & L2).
      assert (Hpow : e <= 31).
      { specialize (L2 31 ltac:(lia) ltac:(lia)). destruct (Z.le_gt_cases e 31); [assumption|exfalso].
        assert (2 ^ 32 <= 2 ^ e) by (apply Z.pow_le_mono_r; lia). lia. }
      destruct (Z.le_gt_cases 2 e).
      + exists e. assert (2 ^ 2 <= 2 ^ e) by (apply Z.pow_le_mono_r; lia). repeat split; try lia.
        intros. apply (L2 7); lia.
      + exists 2. assert (2 ^ e <= 2 ^ 1) by (apply Z.pow_le_mono_r; lia). repeat split; try lia. }
  destruct HS as (e & He & -> & Hlt & Hs). destruct (fresh_ok e He) as (t & -> & Ht & F1 & F2 & F3).
  pose proof (migrate_cells_ok (cells m) t _ F1 F2) as G.
  rewrite F3 in G. specialize (G ltac:(intros c Hc; destruct (in_getc _ _ Hn Hc) as (p & <-); apply (I_it _ _ HI))).
  assert (G' : forall c, In c (cells m) -> nx c <> 255 -> exists x, it c = Some x /\ hs c = hash (fst x)).
  { intros c Hc N. destruct (in_getc _ _ Hn Hc) as (p & <-).
    destruct (it (getc (cells m) p)) as [[k v]|] eqn:E.
    - exists (k, v). split; [reflexivity|]. exact (I_hs _ _ HI p k v E).
    - apply (I_it _ _ HI) in E. contradiction. }
  specialize (G G'). rewrite <- HP in G. specialize (G ltac:(unfold zlen in *; cbn [length] in *; lia)).
  destruct (migrate_cells (cells m) t) as [t'|].
  - destruct G as (C' & K1 & K2 & K3 & K4). exists C'. cbn [cells pop clob]. rewrite app_nil_r in K3.
    split; [exact K1|]. split; [exact K2|]. split; [exact K3|]. do 2 (split; [reflexivity|]). split; [lia|]. intros. specialize (Hs ltac:(lia)). lia.
  - destruct (Z.le_gt_cases (pop m) 64); [|lia]. specialize (Hs ltac:(lia)). lia.
Qed.

Definition state_ok (m : hmap) := exists C, inv (cells m) C /\ pop m = zlen (items (cells m)).

Definition insert_post (m : hmap) k (m' : hmap) idx (b : bool) :=
  state_ok m' /\ clob m' = clob m /\
  ((b = true /\ Permutation (items (cells m')) (items (cells m)) /\ exists v, it (getc (cells m') idx) = Some (k, v)) \/
   (b = false /\ absent (cells m) k /\ Permutation (items (cells m')) ((k, dflt) :: items (cells m)) /\
    it (getc (cells m') idx) = Some (k, dflt))).

Lemma absent_perm t t' k : Permutation (items t') (items t) -> absent t' k -> absent t k.
Proof. intros P H v Hv. apply (H v). rewrite P. exact Hv. Qed.

Lemma insert_ok rounds : forall (m : hmap) k, state_ok m -> pop m < 2 ^ 30 ->
  match insert eqb hash dflt rounds m k with
  | Some (m', idx, b) => insert_post m k m' idx b /\ (zlen (cells m) <= 128 -> pop m <= 64 -> zlen (cells m') <= 128)
  | None => True
  end.
Proof.
  induction rounds as [|rounds IH]; intros m k (C & HI & HP) Hm; cbn [insert]; [exact I|].
  pose proof (iof_ok (cells m) C k HI) as G. cbv zeta in G.
  assert (H0 : 0 <= pop m) by (rewrite HP; unfold zlen; lia).
  destruct (insertOrFind eqb hash dflt (cells m) k true) as [p prev| |t' p| |]; try exact I.
  - split; [|auto]. split; [exists C; auto|]. split; [reflexivity|]. left. auto.
  - destruct G as (G1 & (C' & G2) & G3 & G4 & G5). split; [|cbn [cells]; intros; lia].
    split; [|split; [reflexivity|right; cbn [cells]; auto]].
    exists C'. cbn [cells pop]. split; [exact G2|]. rewrite (zlen_perm _ _ G3), u32_small, HP by lia. unfold zlen. cbn [length]. lia.
  - destruct G as (Ga & _). pose proof (migrate_ok m C HI HP ltac:(lia)) as M. destruct (migrate m) as [m1|]; [|exact I].
    destruct M as (C1 & M1 & M2 & M3 & M4 & M5 & M6 & M7).
    assert (S1 : state_ok m1) by (exists C1; split; [exact M1|]; rewrite M4, HP; symmetry; apply zlen_perm; exact M3).
    specialize (IH m1 k S1 ltac:(lia)). destruct (insert eqb hash dflt rounds m1 k) as [[[m2 idx] b]|]; [|exact I].
    destruct IH as ((J1 & J2 & J3) & J4). split; [|intros; apply J4; lia].
    split; [exact J1|]. split; [congruence|]. destruct J3 as [(-> & J5 & J6)|(-> & J5 & J6 & J7)].
    + left. rewrite J5. auto.
    + right. split; [reflexivity|]. split; [exact Ga|]. split; [|exact J7].
      rewrite J6. apply perm_skip. exact M3.
Qed.

Lemma insert_total rounds (m : hmap) k : state_ok m -> zlen (cells m) <= 128 -> pop m <= 64 -> (2 <= rounds)%nat ->
  insert eqb hash dflt rounds m k <> None.
Proof.
  intros (C & HI & HP) Hs Hm Hr. destruct rounds as [|[|rounds]]; [lia|lia|]. cbn [insert].
  pose proof (iof_ok (cells m) C k HI) as G. cbv zeta in G.
  destruct (insertOrFind eqb hash dflt (cells m) k true) as [p prev| |t' p| |]; try discriminate; try contradiction.
  pose proof (migrate_ok m C HI HP ltac:(lia)) as M. destruct (migrate m) as [m1|]; [|lia].
  destruct M as (C1 & M1 & M2 & M3 & M4 & M5 & M6 & M7).
  pose proof (iof_ok (cells m1) C1 k M1) as G1. cbv zeta in G1.
  destruct (insertOrFind eqb hash dflt (cells m1) k true) as [p prev| |t' p| |]; try discriminate; try contradiction.
  exfalso. destruct G1 as (_ & G2 & G3). specialize (G2 ltac:(lia)).
  pose proof (I_n _ _ M1) as Hn. pose proof (mod_range (cells m1) (hash k) Hn) as Hb.
  assert (F : zlen (items (cells m1)) = zlen (cells m1)).
  { apply (full_from _ C1 _ M1 Hb). intros x Hx.
    destruct (Z.le_gt_cases x (lst 0 (C1 (hash k mod zlen (cells m1))))).
    - apply (packed_upto _ C1); auto. lia.
    - apply G2. lia. }
  rewrite (zlen_perm _ _ M3), <- HP in F. lia.
Qed.

Definition nextv (ds2 : list Z) (dl : Z) : Z := match ds2 with [] => 0 | y :: _ => y - dl end.
Definition setC (C : Z -> list Z) b l : Z -> list Z := fun b' => if b' =? b then l else C b'.

Lemma unlink_ok t C x h b ds1 d ds2 t' v : inv t C -> b = h mod zlen t -> C b = ds1 ++ d :: ds2 ->
  v = nextv ds2 (lst 0 ds1) -> v < 255 -> it (getc t (b + d)) = Some x ->
  t' = wr (vacate t (u32 (h + d))) (lnk h (First h) ds1) v ->
  inv t' (setC C b (ds1 ++ ds2)) /\ Permutation (x :: items t') (items t) /\ zlen t' = zlen t.
Proof.
  intros HI Hbd HC Hvd Hd Hx Ht'. pose proof (I_n _ _ HI) as Hn. pose proof (okn_pos t Hn) as Hp.
  pose proof (mod_range t h Hn) as Hb. rewrite <- Hbd in Hb.
  destruct (I_chain _ _ HI _ Hb) as [S E]. rewrite HC in S, E.
  pose proof S as SS. apply seg_app in SS. destruct SS as [S1 S2].
  rewrite endlink_app in E. remember (lst 0 ds1) as dl eqn:Hdef.
  pose proof (seg_lst t b _ 0 ds1 ltac:(lia) S1) as Hdl. rewrite <- Hdef in Hdl.
  cbn in S2. destruct S2 as (K1 & K2 & K3 & K4 & K5 & S2).
  assert (In1 : forall y, In y ds1 -> 0 < y <= dl /\ y < zlen t /\ nx (getc t (b + y)) <> 255 /\ hs (getc t (b + y)) mod zlen t = b).
  { intros y Hy. destruct (seg_in _ _ _ _ _ _ (Z.le_refl 0) S1 Hy) as (Q1 & Q). rewrite <- Hdef in Q1. auto. }
  assert (Hd0 : 0 < d) by lia.
  assert (In2 : forall y, In y ds2 -> d < y /\ y < zlen t /\ nx (getc t (b + y)) <> 255 /\ hs (getc t (b + y)) mod zlen t = b).
  { intros y Hy. destruct (seg_in _ _ _ _ _ _ (Z.lt_le_incl _ _ Hd0) S2 Hy) as (Q1 & Q). split; [lia|exact Q]. }
  assert (Hv' : v <> 255) by lia. assert (Hdlt : dl < d) by lia. assert (Hdd : dl <> d) by lia. assert (Rdl : 0 <= dl < zlen t) by lia.
  assert (Rd : 0 <= d < zlen t) by lia.
  assert (HL : zlen t' = zlen t) by (subst t'; rewrite wr_len; apply vac_len).
  assert (Hn1 : okn (vacate t (u32 (h + d)))) by (apply vac_okn; assumption).
  assert (Hi : u32 (h + d) mod zlen t = (b + d) mod zlen t).
  { rewrite u32_mod by assumption. rewrite Hbd, Z.add_mod_idemp_l by lia. reflexivity. }
  assert (Hnil : isnil ds1 = false -> In dl ds1).
  { intros Q. apply isnil_f in Q. destruct (lnk_cases h ds1) as [[L1 _]|(_ & _ & L3)]; [congruence|].
    rewrite <- Hdef in L3. exact L3. }
  assert (Fnx : forall j, nx (getc t' j) =
     if (b + d) mod zlen t =? j mod zlen t then 255
     else if (negb (isnil ds1) && ((b + dl) mod zlen t =? j mod zlen t)) then v
     else nx (getc t j)).
  { intros j. rewrite Ht'. rewrite nx_wr, vac_len by assumption.
    destruct (lnk_cases h ds1) as [[L1 ->]|(L1 & -> & L3)].
    - replace (isnil ds1) with true by (rewrite L1; reflexivity). cbn [negb andb]. rewrite nx_vac, Hi by assumption. reflexivity.
    - replace (isnil ds1) with false by (destruct ds1; [congruence|reflexivity]). cbn [negb andb]. rewrite <- Hdef in *.
      rewrite nx_vac, Hi by assumption. rewrite u32_mod by assumption.
      replace ((h + dl) mod zlen t) with ((b + dl) mod zlen t)
        by (rewrite Hbd, Z.add_mod_idemp_l by lia; reflexivity).
      destruct (Z.eqb_spec ((b + dl) mod zlen t) (j mod zlen t)) as [e1|e1];
      destruct (Z.eqb_spec ((b + d) mod zlen t) (j mod zlen t)) as [e2|e2]; auto.
      exfalso. apply Hdd. apply (pos_inj t b); [exact Rdl|exact Rd|congruence]. }
  assert (Ffs : forall j, fs (getc t' j) =
     if isnil ds1 && (b =? j mod zlen t) then v else fs (getc t j)).
  { intros j. rewrite Ht'. rewrite fs_wr, vac_len by assumption.
    destruct (lnk_cases h ds1) as [[L1 ->]|(L1 & -> & L3)].
    - replace (isnil ds1) with true by (rewrite L1; reflexivity). cbn [andb]. rewrite <- Hbd. rewrite fs_vac by assumption. reflexivity.
    - replace (isnil ds1) with false by (destruct ds1; [congruence|reflexivity]). cbn [andb]. rewrite fs_vac by assumption. reflexivity. }
  assert (Fhs : forall j, hs (getc t' j) = hs (getc t j)).
  { intros j. rewrite Ht'. rewrite hs_wr, hs_vac by assumption. reflexivity. }
  assert (Fit : forall j, it (getc t' j) = if (b + d) mod zlen t =? j mod zlen t then None else it (getc t j)).
  { intros j. rewrite Ht'. rewrite it_wr, it_vac, Hi by assumption. reflexivity. }
  assert (Hcur : forall j, (b + d) mod zlen t = j mod zlen t -> hs (getc t j) mod zlen t = b).
  { intros j Hj. replace (getc t j) with (getc t (b + d)) by (apply getc_cong; auto). exact K5. }
  assert (Hlast : forall j, isnil ds1 = false -> (b + dl) mod zlen t = j mod zlen t ->
             nx (getc t j) <> 255 /\ hs (getc t j) mod zlen t = b /\ 0 < dl).
  { intros j HN Hj. destruct (In1 dl (Hnil HN)) as (Q1 & Q2 & Q3 & Q4).
    replace (getc t j) with (getc t (b + dl)) by (apply getc_cong; auto). repeat split; auto; lia. }
  assert (Hn' : okn t') by (unfold okn; rewrite HL; exact Hn).
  assert (Fother : forall b' y, 0 <= b' < zlen t -> In y (C b') -> (b' = b -> y <> d) ->
      nx (getc t' (b' + y)) <> 255 /\ hs (getc t' (b' + y)) = hs (getc t (b' + y)) /\
      (nx (getc t' (b' + y)) = nx (getc t (b' + y)) \/ (b' = b /\ y = dl))).
  { intros b' y Hb' Hy Hne. destruct (I_chain _ _ HI _ Hb') as [S' _].
    destruct (seg_in _ _ _ _ _ _ (Z.le_refl 0) S' Hy) as (Q1 & Q2 & Q3 & Q4).
    rewrite Fnx, Fhs. destruct (Z.eqb_spec ((b + d) mod zlen t) ((b' + y) mod zlen t)) as [e|e].
    { exfalso. pose proof (Hcur _ e) as Q5. rewrite Q4 in Q5. apply (Hne Q5). subst b'.
      symmetry. apply (pos_inj t b); [lia|lia|exact e]. }
    split; [|split; [reflexivity|]].
    - case_if; [exact Hv'|exact Q3].
    - destruct (isnil ds1) eqn:EC; [left; reflexivity|]. cbn [negb andb].
      destruct (Z.eqb_spec ((b + dl) mod zlen t) ((b' + y) mod zlen t)) as [f|f]; [|left; reflexivity].
      right. destruct (Hlast _ eq_refl f) as (_ & Q5 & Q6). rewrite Q4 in Q5. subst b'.
      split; [reflexivity|]. symmetry. apply (pos_inj t b); [lia|lia|exact f]. }
  assert (Inb : forall y, In y ds1 \/ In y ds2 -> In y (C b)).
  { intros y Hy. rewrite HC. apply in_or_app. destruct Hy; [left|right; right]; assumption. }
  split; [|split; [|exact HL]].
  - constructor; auto.
    + intros b' Hb'. rewrite HL in Hb'. unfold setC. destruct (Z.eqb_spec b' b) as [->|Hne].
      * assert (EL : endlink t' b (fs (getc t' b)) ds1 = v).
        { replace (fs (getc t' b)) with (rd t' (First h)).
          - rewrite <- (rd_lnk t' b h (First h)); [|exact Hn'|rewrite HL; auto].
            rewrite Ht'. destruct (lnk_cases h ds1) as [[L1 ->]|(L1 & -> & L3)]; cbn [rd].
            + rewrite fs_wr by assumption. rewrite Z.eqb_refl. reflexivity.
            + rewrite nx_wr by assumption. rewrite Z.eqb_refl. reflexivity.
          - cbn. rewrite (getc_h0 t' h Hn'). rewrite HL, <- Hbd. reflexivity. }
        assert (G2 : forall y, In y ds2 -> nx (getc t' (b + y)) = nx (getc t (b + y)) /\
                        hs (getc t' (b + y)) = hs (getc t (b + y)) /\ nx (getc t' (b + y)) <> 255).
        { intros y Hy. destruct (In2 y Hy) as (Q1 & _).
          destruct (Fother b y Hb (Inb y (or_intror Hy)) (fun _ => not_eq_sym (Z.lt_neq _ _ Q1))) as (G1 & G2 & [G3|[_ G3]]); [auto|].
          exfalso. clear - Q1 Hdlt G3. lia. }
        assert (HH : seg t' b v dl ds2 /\ endlink t' b v ds2 = 0).
        { destruct ds2 as [|y r]; [cbn; auto|]. destruct S2 as (Z1 & Z2 & Z3 & Z4 & Z5 & Z6).
          destruct (In2 y (or_introl eq_refl)) as (Q1 & Q2 & Q3 & Q4).
          destruct (G2 y (or_introl eq_refl)) as (G4 & G5 & G6). split.
          - cbn [seg]. rewrite HL, G5, G4. split; [exact Hvd|]. split; [cbn in Hvd; clear - Hvd Q1 Hdlt Hd; lia|]. split; [exact Z3|]. split; [exact Z4|].
            split; [exact Z5|]. apply (seg_frame t t'); [exact HL|clear - Q1 Rd; lia| |exact Z6].
            intros z Hz. destruct (G2 z (or_intror Hz)) as (G7 & G8 & G9). auto.
          - cbn [endlink]. cbn [endlink] in E. rewrite <- E, G4. apply endlink_frame. intros z Hz. apply G2. right. exact Hz. }
        destruct HH as [HH1 HH2].
        split.
        -- apply seg_app. split.
           ++ destruct (isnil ds1) eqn:EC; [apply isnil_t in EC; rewrite EC; exact I|].
              apply (seg_frame t t'); [exact HL|exact (Z.le_refl 0)| |].
              ** intros y Hy. destruct (In1 y Hy) as (Q1 & _).
                 destruct (Fother b y Hb (Inb y (or_introl Hy)) (fun _ => Z.lt_neq _ _ (Z.le_lt_trans _ _ _ (proj2 Q1) Hdlt))) as (G1 & G2' & G3). repeat split; auto.
                 destruct G3 as [G3|[_ G3]]; [auto|right; congruence].
              ** rewrite Ffs. cbn [andb]. exact S1.
           ++ rewrite EL, <- Hdef. exact HH1.
        -- rewrite endlink_app, EL. exact HH2.
      * destruct (I_chain _ _ HI _ Hb') as [S' E'].
        assert (Ef : fs (getc t' b') = fs (getc t b')).
        { rewrite Ffs. rewrite (Z.mod_small b') by lia. rewrite (proj2 (Z.eqb_neq b b')) by congruence.
          rewrite andb_false_r. reflexivity. }
        split; rewrite Ef.
        -- apply (seg_frame t t'); [exact HL|exact (Z.le_refl 0)| |exact S'].
           intros y Hy. destruct (Fother b' y Hb' Hy ltac:(congruence)) as (G1 & G2 & G3). repeat split; auto.
           destruct G3 as [G3|[G3 _]]; [auto|congruence].
        -- rewrite <- E'. apply endlink_frame. intros y Hy.
           destruct (Fother b' y Hb' Hy ltac:(congruence)) as (G1 & G2 & G3).
           destruct G3 as [G3|[G3 _]]; [auto|congruence].
    + intros p. rewrite HL, Fhs, Fnx. destruct (Z.eqb_spec ((b + d) mod zlen t) (p mod zlen t)) as [e|e].
      * intros N. exfalso. apply N. reflexivity.
      * intros N. assert (N' : nx (getc t p) <> 255).
        { destruct (isnil ds1) eqn:EC; [exact N|]. cbn [negb andb] in N.
          destruct (Z.eqb_spec ((b + dl) mod zlen t) (p mod zlen t)) as [f|f]; [|exact N].
          apply Hlast; auto. }
        destruct (I_home _ _ HI p N') as [[A1 A2]|(d0 & A1 & A2)].
        -- left. split; [exact A1|].
           destruct (isnil ds1) eqn:EC; [exact A2|]. cbn [negb andb].
           destruct (Z.eqb_spec ((b + dl) mod zlen t) (p mod zlen t)) as [f|f]; [|exact A2].
           exfalso. destruct (Hlast p eq_refl f) as (_ & Q5 & Q6). rewrite Q5 in A1.
           rewrite A1 in f. replace b with ((b + 0) mod zlen t) in f at 2 by (rewrite Z.add_0_r; apply Z.mod_small; lia).
           apply pos_inj in f; lia.
        -- right. exists d0. split; [|exact A2]. unfold setC.
           destruct (Z.eqb_spec (hs (getc t p) mod zlen t) b) as [f|f]; [|exact A1].
           rewrite f in A1, A2. rewrite HC in A1. apply in_app_or in A1. apply in_or_app.
           destruct A1 as [A1|[A1|A1]]; [left; exact A1| |right; exact A1]. subst d0. contradiction.
    + intros p. rewrite Fit, Fnx. case_if; [split; reflexivity|].
      destruct (isnil ds1) eqn:EC; [cbn [negb andb]; apply (I_it _ _ HI)|]. cbn [negb andb].
      destruct (Z.eqb_spec ((b + dl) mod zlen t) (p mod zlen t)) as [f|f]; [|apply (I_it _ _ HI)].
      split; [|intros Q; exfalso; exact (Hv' Q)]. intros Q. apply (I_it _ _ HI) in Q.
      destruct (Hlast p eq_refl f) as (Q5 & _). congruence.
    + intros p k' v'. rewrite Fit, Fhs. case_if; [discriminate|apply (I_hs _ _ HI)].
  - rewrite Ht'. rewrite items_wr by assumption. apply items_vac; [assumption|].
    rewrite getc_h, <- Hbd by assumption. exact Hx.
Qed.

Lemma vacate_head t C x h t' : inv t C -> it (getc t h) = Some x -> hash (fst x) = h -> t' = vacate t h ->
  nx (getc t h) = 0 /\ inv t' C /\ Permutation (x :: items t') (items t) /\ zlen t' = zlen t.
Proof.
  intros HI Hx Hh Ht'. pose proof (I_n _ _ HI) as Hn. pose proof (okn_pos t Hn) as Hp.
  remember (h mod zlen t) as b eqn:Hbd.
  pose proof (mod_range t h Hn) as Hb. rewrite <- Hbd in Hb.
  assert (Hhs : hs (getc t h) = h).
  { destruct x as [k v]. cbn in Hh. rewrite (I_hs _ _ HI h k v Hx). exact Hh. }
  assert (Hzero : forall d, In d (C b) -> (b + d) mod zlen t = b -> False).
  { intros d Hd Q. destruct (I_chain _ _ HI _ Hb) as [S _].
    destruct (seg_in _ _ _ _ _ _ (Z.le_refl 0) S Hd) as (Q1 & Q2 & _).
    replace b with ((b + 0) mod zlen t) in Q at 2 by (rewrite Z.add_0_r; apply Z.mod_small; lia).
    apply pos_inj in Q; lia. }
  assert (N : nx (getc t h) <> 255) by (intros Q; apply (I_it _ _ HI) in Q; congruence).
  assert (HL : zlen t' = zlen t) by (subst t'; apply vac_len).
  assert (N0 : nx (getc t h) = 0).
  { destruct (I_home _ _ HI h N) as [[_ A]|(d & A & B)]; [exact A|exfalso].
    rewrite Hhs, <- Hbd in A, B. exact (Hzero d A B). }
  split; [exact N0|].
  assert (Fnx : forall j, nx (getc t' j) = if b =? j mod zlen t then 255 else nx (getc t j))
    by (intros; rewrite Ht', nx_vac, <- Hbd by assumption; reflexivity).
  assert (Ffs : forall j, fs (getc t' j) = fs (getc t j)) by (intros; rewrite Ht', fs_vac by assumption; reflexivity).
  assert (Fhs : forall j, hs (getc t' j) = hs (getc t j)) by (intros; rewrite Ht', hs_vac by assumption; reflexivity).
  assert (Fit : forall j, it (getc t' j) = if b =? j mod zlen t then None else it (getc t j))
    by (intros; rewrite Ht', it_vac, <- Hbd by assumption; reflexivity).
  assert (Fother : forall b' y, 0 <= b' < zlen t -> In y (C b') ->
      nx (getc t' (b' + y)) = nx (getc t (b' + y)) /\ nx (getc t (b' + y)) <> 255).
  { intros b' y Hb' Hy. destruct (I_chain _ _ HI _ Hb') as [S' _].
    destruct (seg_in _ _ _ _ _ _ (Z.le_refl 0) S' Hy) as (Q1 & Q2 & Q3 & Q4).
    rewrite Fnx. destruct (Z.eqb_spec b ((b' + y) mod zlen t)) as [e|e]; [|auto].
    exfalso. replace (getc t (b' + y)) with (getc t h) in Q4 by (apply getc_cong; congruence).
    rewrite Hhs, <- Hbd in Q4. subst b'. exact (Hzero y Hy (eq_sym e)). }
  split; [|split; [|exact HL]].
  - constructor.
    + unfold okn. rewrite HL. exact Hn.
    + intros b' Hb'. rewrite HL in Hb'. destruct (I_chain _ _ HI _ Hb') as [S' E']. split; rewrite Ffs.
      * apply (seg_frame t t'); [exact HL|exact (Z.le_refl 0)| |exact S']. intros y Hy.
        destruct (Fother b' y Hb' Hy) as (G1 & G3). split; [congruence|]. split; [apply Fhs|left; exact G1].
      * rewrite <- E'. apply endlink_frame. intros y Hy. apply (Fother b' y Hb' Hy).
    + intros p. rewrite HL, Fhs, Fnx. destruct (Z.eqb_spec b (p mod zlen t)) as [e|e].
      * intros Q. exfalso. apply Q. reflexivity.
      * apply (I_home _ _ HI).
    + intros p. rewrite Fit, Fnx. case_if; [split; reflexivity|apply (I_it _ _ HI)].
    + intros p k v. rewrite Fit, Fhs. case_if; [discriminate|apply (I_hs _ _ HI)].
  - rewrite Ht'. apply items_vac; assumption.
Qed.

Lemma erase_ok t C k v p prev : inv t C -> at_cell t C (hash k) p prev -> it (getc t p) = Some (k, v) ->
  match erase_cell t p prev with
  | Some (t', c) => (c = false -> (exists C', inv t' C') /\ Permutation ((k, v) :: items t') (items t) /\ zlen t' = zlen t) /\
                    (zlen t <= 128 -> c = false)
  | None => 128 < zlen t
  end.
Proof.
  intros HI HA Hx. pose proof (I_n _ _ HI) as Hn. pose proof (okn_pos t Hn) as Hp. pose proof (okn_max t Hn) as Hm.
  remember (hash k) as h eqn:Hh. pose proof (Hhash k) as Hh32. rewrite <- Hh in Hh32.
  destruct HA as [[-> ->]|(ds1 & d & ds2 & HC & -> & ->)].
  - unfold erase_cell. cbn [negb]. cbv zeta.
    destruct (vacate_head t C (k, v) h _ HI Hx (eq_sym Hh) eq_refl) as (G1 & G2 & G3 & G4).
    rewrite G1. cbn. split; [|reflexivity]. intros _. split; [exists C; exact G2|]. auto.
  - rewrite getc_h in Hx by assumption. remember (h mod zlen t) as b eqn:Hbd.
    pose proof (mod_range t h Hn) as Hb. rewrite <- Hbd in Hb.
    destruct (I_chain _ _ HI _ Hb) as [S E]. rewrite HC in S, E. apply seg_app in S. destruct S as [S1 S2].
    rewrite endlink_app in E.
    pose proof (seg_lst t b _ 0 ds1 ltac:(lia) S1) as Hdl. cbn in S2. destruct S2 as (K1 & K2 & K3 & K4 & K5 & S2).
    assert (Hrd : rd t (lnk h (First h) ds1) = d - lst 0 ds1).
    { rewrite (rd_lnk t b) by auto. cbn [rd]. rewrite getc_h0, <- Hbd by assumption. exact K1. }
    unfold erase_cell. rewrite Hrd. rewrite (proj2 (Z.eqb_neq (d - lst 0 ds1) 0)) by lia. cbn [negb andb].
    rewrite u32_sub. replace (h + d - (d - lst 0 ds1)) with (h + lst 0 ds1) by lia.
    assert (Hslot : (slot t (u32 (h + lst 0 ds1)) =? slot t match lnk h (First h) ds1 with First i | Next i => i end)%nat = true).
    { apply Nat.eqb_eq. destruct (lnk_cases h ds1) as [[-> ->]|(_ & -> & _)]; [|reflexivity].
      cbn [lst lnk]. rewrite Z.add_0_r, u32_small by assumption. reflexivity. }
    rewrite Hslot. cbn [negb]. rewrite getc_h, <- Hbd by assumption. clear Hslot.
    destruct ds2 as [|y r].
    + cbn in E. rewrite E. cbn.
      split; [|reflexivity]. intros _.
      destruct (unlink_ok t C (k, v) h b ds1 d [] _ 0 HI Hbd HC eq_refl ltac:(lia) Hx eq_refl) as (G1 & G2 & G3).
      split; [eexists; exact G1|]. auto.
    + destruct S2 as (Z1 & Z2 & Z3 & Z4 & Z5 & Z6).
      rewrite (proj2 (Z.eqb_neq (nx (getc t (b + d))) 0)) by lia. cbv zeta.
      rewrite u32_add, u32_sub2. replace (h + d + nx (getc t (b + d)) - (h + lst 0 ds1)) with (y - lst 0 ds1) by lia.
      rewrite u32_small by lia. unfold EmptySlot.
      destruct (Z.ltb_spec (y - lst 0 ds1) 256); [|lia].
      split; [|intros; apply Z.eqb_neq; lia].
      intros Q. apply Z.eqb_neq in Q.
      destruct (unlink_ok t C (k, v) h b ds1 d (y :: r) _ (y - lst 0 ds1) HI Hbd HC eq_refl ltac:(lia) Hx eq_refl) as (G1 & G2 & G3).
      split; [eexists; exact G1|]. auto.
Qed.

Lemma assign_ok t C p k v v' : inv t C -> it (getc t p) = Some (k, v) ->
  inv (assign t p (k, v')) C /\ Permutation ((k, v) :: items (assign t p (k, v'))) ((k, v') :: items t) /\
  zlen (assign t p (k, v')) = zlen t.
Proof.
  intros HI Hx. pose proof (I_n _ _ HI) as Hn. unfold assign. cbv zeta.
  set (c' := mkc _ _ _ _). set (t' := setc t p c').
  assert (HL : zlen t' = zlen t) by apply setc_len.
  assert (F : forall j, getc t' j = if p mod zlen t =? j mod zlen t then c' else getc t j)
    by (intros; apply getc_setc; assumption).
  assert (Same : forall j, nx (getc t' j) = nx (getc t j) /\ fs (getc t' j) = fs (getc t j) /\ hs (getc t' j) = hs (getc t j)).
  { intros j. rewrite F. destruct (Z.eqb_spec (p mod zlen t) (j mod zlen t)) as [e|e]; [|auto].
    rewrite <- (getc_cong t p j Hn e). auto. }
  split; [|split; [|exact HL]].
  - constructor.
    + unfold okn. rewrite HL. exact Hn.
    + intros b Hb. rewrite HL in Hb. destruct (I_chain _ _ HI _ Hb) as [S E].
      destruct (Same b) as (_ & Sf & _). split; rewrite Sf.
      * apply (seg_frame t t'); [exact HL|exact (Z.le_refl 0)| |exact S]. intros y Hy.
        destruct (Same (b + y)) as (G1 & _ & G2). rewrite G1. split; [|auto].
        apply (seg_in _ _ _ _ _ _ (Z.le_refl 0) S Hy).
      * rewrite <- E. apply endlink_frame. intros y Hy. apply Same.
    + intros q. rewrite HL. destruct (Same q) as (-> & _ & ->). apply (I_home _ _ HI).
    + intros q. destruct (Same q) as (-> & _ & _). rewrite F.
      destruct (Z.eqb_spec (p mod zlen t) (q mod zlen t)) as [e|e]; [|apply (I_it _ _ HI)].
      rewrite <- (getc_cong t p q Hn e). cbn. split; [discriminate|]. intros Q. apply (I_it _ _ HI) in Q. congruence.
    + intros q k0 v0. destruct (Same q) as (_ & _ & ->). rewrite F.
      destruct (Z.eqb_spec (p mod zlen t) (q mod zlen t)) as [e|e]; [|apply (I_hs _ _ HI)].
      rewrite <- (getc_cong t p q Hn e). cbn. intros Q. injection Q as <- <-. exact (I_hs _ _ HI p k v Hx).
  - pose proof (items_setc t p c' Hn) as P. unfold opt in P. rewrite Hx in P. cbn in P. exact P.
Qed.

Lemma iter_ok t C : inv t C -> forall n i, (i + n = length t)%nat ->
  iter n t (Z.of_nat i) = Some (items (skipn i t)).
Proof.
  intros HI. pose proof (I_n _ _ HI) as Hn. induction n as [|n IH]; intros i Hi.
  - rewrite skipn_all2 by lia. reflexivity.
  - cbn [iter]. cbv zeta.
    assert (E : nth_error t i = Some (getc t (Z.of_nat i))).
    { unfold getc. rewrite slot_mod by assumption. rewrite Z.mod_small, Nat2Z.id by (unfold zlen; lia).
      apply nth_error_nth'. lia. }
    assert (Es : skipn i t = getc t (Z.of_nat i) :: skipn (S i) t).
    { clear - E. revert i E. generalize (getc t (Z.of_nat 0)). intros _.
      assert (G : forall (l : table) i c, nth_error l i = Some c -> skipn i l = c :: skipn (S i) l).
      { induction l as [|a l IH]; intros [|i] c H; try discriminate; cbn in *.
        - injection H as ->. reflexivity.
        - apply IH. exact H. }
      intros i E. apply G. exact E. }
    rewrite Es. replace (Z.of_nat i + 1) with (Z.of_nat (S i)) by lia. rewrite IH by lia.
    unfold items. cbn [flat_map]. fold (items (skipn (S i) t)). unfold EmptySlot, opt.
    destruct (Z.eqb_spec (nx (getc t (Z.of_nat i))) 255) as [e|e].
    + apply (I_it _ _ HI) in e. rewrite e. reflexivity.
    + destruct (it (getc t (Z.of_nat i))) eqn:Ei; [reflexivity|]. apply (I_it _ _ HI) in Ei. contradiction.
Qed.

(* the specification's lists *)
Notation alist := (list (K * V)).
Lemma lookup_in (s : alist) k v : lookup eqb s k = Some v -> In (k, v) s.
Proof.
  induction s as [|[k' v'] r IH]; cbn; [discriminate|]. destruct (eqb k' k) eqn:E.
  - intros H. injection H as ->. apply Heqb in E. subst. auto.
  - auto.
Qed.
Lemma lookup_none (s : alist) k : lookup eqb s k = None <-> forall v, ~ In (k, v) s.
Proof.
  induction s as [|[k' v'] r IH]; cbn; [split; auto|]. destruct (eqb k' k) eqn:E.
  - apply Heqb in E. subst. split; [discriminate|]. intros H. exfalso. apply (H v'). auto.
  - rewrite IH. split; intros H v Hv.
    + destruct Hv as [Q|Hv]; [|exact (H v Hv)]. injection Q as -> ->.
      rewrite (proj2 (Heqb k k) eq_refl) in E. discriminate.
    + apply (H v). auto.
Qed.
Lemma in_lookup (s : alist) k v : NoDup (map fst s) -> In (k, v) s -> lookup eqb s k = Some v.
Proof.
  intros N H. destruct (lookup eqb s k) as [v'|] eqn:E.
  - apply lookup_in in E. f_equal. clear - N H E. induction s as [|[k0 v0] r IH]; [destruct H|].
    cbn in N. apply NoDup_cons_iff in N. destruct N as [N1 N2]. destruct H as [H|H], E as [E|E].
    + congruence.
    + exfalso. apply N1. injection H as -> ->. change k with (fst (k, v')). apply in_map. exact E.
    + exfalso. apply N1. injection E as -> ->. change k with (fst (k, v)). apply in_map. exact H.
    + auto.
  - exfalso. rewrite lookup_none in E. exact (E v H).
Qed.
Lemma remove_cons (r : alist) k' v' k : remove eqb ((k', v') :: r) k = if eqb k' k then remove eqb r k else (k', v') :: remove eqb r k.
Proof. unfold remove. cbn. destruct (eqb k' k); reflexivity. Qed.
Lemma remove_absent (s : alist) k : (forall v, ~ In (k, v) s) -> remove eqb s k = s.
Proof.
  intros H. induction s as [|[k' v'] r IH]; [reflexivity|]. cbn. destruct (eqb k' k) eqn:E; cbn.
  - apply Heqb in E. subst. exfalso. apply (H v'). left. reflexivity.
  - f_equal. apply IH. intros v Hv. apply (H v). right. exact Hv.
Qed.
Lemma remove_present (s : alist) k v : NoDup (map fst s) -> In (k, v) s -> Permutation s ((k, v) :: remove eqb s k).
Proof.
  induction s as [|[k' v'] r IH]; intros N H; [destruct H|]. cbn in N. apply NoDup_cons_iff in N. destruct N as [N1 N2].
  destruct H as [H|H].
  - injection H as -> ->. rewrite remove_cons, (proj2 (Heqb k k) eq_refl). apply perm_skip.
    rewrite remove_absent; [reflexivity|]. intros v0 H0. apply N1. change k with (fst (k, v0)). apply in_map. exact H0.
  - rewrite remove_cons. destruct (eqb k' k) eqn:E.
    + apply Heqb in E. subst. exfalso. apply N1. change k with (fst (k, v)). apply in_map. exact H.
    + rewrite (IH N2 H) at 1. apply perm_swap.
Qed.
Lemma remove_not_in (s : alist) k : ~ In k (map fst (remove eqb s k)).
Proof.
  intros H. apply in_map_iff in H. destruct H as ([k' v'] & E & H). cbn in E. subst k'.
  unfold remove in H. apply filter_In in H. destruct H as [_ H]. cbn in H.
  rewrite (proj2 (Heqb k k) eq_refl) in H. discriminate.
Qed.
Lemma remove_nodup (s : alist) k : NoDup (map fst s) -> NoDup (map fst (remove eqb s k)).
Proof.
  induction s as [|[k' v'] r IH]; intros N; [constructor|]. cbn in N. apply NoDup_cons_iff in N. destruct N as [N1 N2].
  rewrite remove_cons. destruct (eqb k' k); cbn [map fst]; [auto|]. constructor; [|auto]. intros H. apply N1.
  apply in_map_iff in H. destruct H as (x & E & H). rewrite <- E. apply in_map.
  unfold remove in H. apply filter_In in H. apply H.
Qed.
Lemma store_nodup (s : alist) k v : NoDup (map fst s) -> NoDup (map fst (store eqb s k v)).
Proof. intros N. unfold store. cbn [map fst]. constructor; [apply remove_not_in|apply remove_nodup; exact N]. Qed.
Lemma after_nodup (s : alist) o : NoDup (map fst s) -> NoDup (map fst (after eqb dflt s o)).
Proof.
  intros N. destruct o; cbn [after]; try exact N.
  - destruct (lookup eqb s k); [exact N|]. apply store_nodup. exact N.
  - apply store_nodup. exact N.
  - apply remove_nodup. exact N.
Qed.

Definition sim (m : hmap) (s : alist) := state_ok m /\ Permutation (items (cells m)) s /\ NoDup (map fst s).

Lemma absent_lookup t s k : Permutation (items t) s -> absent t k -> lookup eqb s k = None.
Proof. intros P H. apply lookup_none. intros v Hv. apply (H v). rewrite P. exact Hv. Qed.

Lemma insert_sim rounds m s k m' idx b : sim m s -> zlen s < 2 ^ 30 ->
  insert eqb hash dflt rounds m k = Some (m', idx, b) ->
  state_ok m' /\ clob m' = clob m /\
  ((b = true /\ Permutation (items (cells m')) s /\ exists v, lookup eqb s k = Some v /\ it (getc (cells m') idx) = Some (k, v)) \/
   (b = false /\ lookup eqb s k = None /\ Permutation (items (cells m')) ((k, dflt) :: s) /\
    it (getc (cells m') idx) = Some (k, dflt))) /\
  (zlen (cells m) <= 128 -> zlen s <= 64 -> zlen (cells m') <= 128).
Proof.
  intros (HS & HP & HN) Hz E. assert (Hpop : pop m = zlen s).
  { destruct HS as (C & _ & ->). apply zlen_perm. exact HP. }
  pose proof (insert_ok rounds m k HS ltac:(lia)) as G. rewrite E in G.
  destruct G as ((G1 & G2 & G3) & G4). split; [exact G1|]. split; [exact G2|]. split; [|intros; apply G4; lia].
  destruct G3 as [(-> & G5 & v & G6)|(-> & G5 & G6 & G7)].
  - left. split; [reflexivity|]. assert (P : Permutation (items (cells m')) s) by (rewrite G5; exact HP).
    split; [exact P|]. exists v. split; [|exact G6]. apply in_lookup; [exact HN|]. rewrite <- P.
    apply in_items; [|eauto]. destruct G1 as (C & HI & _). exact (I_n _ _ HI).
  - right. split; [reflexivity|]. split; [exact (absent_lookup _ s k HP G5)|]. split; [|exact G7].
    rewrite G6, HP. reflexivity.
Qed.

Lemma step_ok rounds m s o m' y : sim m s -> zlen s < 2 ^ 30 -> clob m = false ->
  step eqb hash dflt rounds m o = Some (m', y) -> clob m' = false ->
  spec_step eqb dflt s o y (after eqb dflt s o) /\ sim m' (after eqb dflt s o) /\
  (zlen (cells m) <= 128 -> zlen s <= 64 -> zlen (cells m') <= 128).
Proof.
  intros HS Hz Hc0 E Hc. pose proof HS as (HS0 & HP & HN). destruct HS0 as (C & HI & Hpop).
  destruct o as [k|k v|k|k| |]; cbn [step] in E.
  - destruct (insert eqb hash dflt rounds m k) as [[[m1 idx] b]|] eqn:E1; [|discriminate].
    destruct (insert_sim rounds m s k m1 idx b HS Hz E1) as (G1 & G2 & G3 & G4). unfold item in E.
    destruct G3 as [(-> & G5 & v & G6 & G7)|(-> & G5 & G6 & G7)]; rewrite G7 in E; injection E as <- <-.
    + cbn [after]. rewrite G6. split; [constructor; exact G6|]. split; [|exact G4]. split; [exact G1|]. auto.
    + split; [cbn [after]; rewrite G5; constructor; exact G5|]. split; [|exact G4]. split; [exact G1|].
      split; [|apply after_nodup; exact HN]. cbn [after]. rewrite G5. unfold store.
      rewrite remove_absent by (apply lookup_none; exact G5). exact G6.
  - destruct (insert eqb hash dflt rounds m k) as [[[m1 idx] b]|] eqn:E1; [|discriminate].
    destruct (insert_sim rounds m s k m1 idx b HS Hz E1) as (G1 & G2 & G3 & G4). unfold item in E.
    assert (exists v0, it (getc (cells m1) idx) = Some (k, v0) /\ Permutation (items (cells m1)) ((k, v0) :: remove eqb s k) /\
              b = (match lookup eqb s k with Some _ => true | None => false end)) as (v0 & G7 & G8 & G9).
    { destruct G3 as [(-> & G5 & v0 & G6 & G7)|(-> & G5 & G6 & G7)].
      - exists v0. split; [exact G7|]. split; [|rewrite G6; reflexivity]. rewrite G5.
        apply remove_present; [exact HN|]. apply lookup_in. exact G6.
      - exists dflt. split; [exact G7|]. split; [|rewrite G5; reflexivity].
        rewrite remove_absent by (apply lookup_none; exact G5). exact G6. }
    rewrite G7 in E. injection E as <- <-. cbn [cells pop clob] in *.
    destruct G1 as (C1 & I1 & P1). destruct (assign_ok _ C1 idx k v0 v I1 G7) as (A1 & A2 & A3).
    split; [cbn [after]; rewrite G9; constructor|]. split; [|rewrite A3; exact G4].
    assert (A4 : Permutation (items (assign (cells m1) idx (k, v))) ((k, v) :: remove eqb s k)).
    { apply (Permutation_cons_inv (a := (k, v0))). rewrite A2, G8. apply perm_swap. }
    split; [|split; [exact A4|apply after_nodup; exact HN]].
    exists C1. cbn [cells pop]. split; [exact A1|]. rewrite P1.
    pose proof (zlen_perm _ _ A2) as L. unfold zlen in *. cbn [length] in L. lia.
  - destruct (find_ok (cells m) C k HI) as [(p & prev & v & F1 & F2 & F3)|[F1 F2]]; rewrite F1 in E.
    + unfold item in E. rewrite F2 in E. injection E as <- <-. cbn [after].
      replace (Some v) with (lookup eqb s k).
      * split; [constructor|]. split; [exact HS|auto].
      * apply in_lookup; [exact HN|]. rewrite <- HP. apply in_items; [exact (I_n _ _ HI)|eauto].
    + injection E as <- <-. cbn [after]. rewrite <- (absent_lookup _ s k HP F2).
      split; [constructor|]. split; [exact HS|auto].
  - destruct (find_ok (cells m) C k HI) as [(p & prev & v & F1 & F2 & F3)|[F1 F2]]; rewrite F1 in E.
    + assert (Hl : lookup eqb s k = Some v).
      { apply in_lookup; [exact HN|]. rewrite <- HP. apply in_items; [exact (I_n _ _ HI)|eauto]. }
      pose proof (erase_ok _ C k v p prev HI F3 F2) as G.
      destruct (erase_cell (cells m) p prev) as [[t' c]|]; [|discriminate].
      destruct (pop m <=? 0); [discriminate|]. injection E as <- <-. cbn [clob cells pop] in *.
      rewrite Hc0 in Hc. cbn [orb] in Hc. destruct G as [G _]. destruct (G Hc) as ((C' & G1) & G2 & G3).
      split; [|split; [|rewrite G3; auto]].
      * replace true with (match lookup eqb s k with Some _ => true | None => false end) by (rewrite Hl; reflexivity). constructor.
      * split; [|split; [|apply after_nodup; exact HN]].
        -- exists C'. cbn [cells pop]. split; [exact G1|]. rewrite Hpop.
           pose proof (zlen_perm _ _ G2) as L. unfold zlen in *. cbn [length] in L. lia.
        -- cbn [cells after]. apply (Permutation_cons_inv (a := (k, v))). rewrite G2, HP.
           apply remove_present; [exact HN|]. apply lookup_in. exact Hl.
    + injection E as <- <-. pose proof (absent_lookup _ s k HP F2) as Hl.
      assert (Hr : remove eqb s k = s) by (apply remove_absent, lookup_none; exact Hl).
      cbn [after]. split; [|split; [|auto]].
      * replace false with (match lookup eqb s k with Some _ => true | None => false end) by (rewrite Hl; reflexivity). constructor.
      * rewrite Hr. exact HS.
  - injection E as <- <-. cbn [after]. split; [|split; [exact HS|auto]].
    rewrite Hpop, (zlen_perm _ _ HP). constructor.
  - pose proof (iter_ok _ C HI (length (cells m)) 0 eq_refl) as G. cbn [skipn Z.of_nat] in G. rewrite G in E.
    injection E as <- <-. cbn [after]. split; [constructor; exact HP|]. split; [exact HS|auto].
Qed.

Lemma step_clob rounds m o m' y : step eqb hash dflt rounds m o = Some (m', y) -> clob m = true -> clob m' = true.
Proof.
  assert (HI : forall r m k m1 idx b, insert eqb hash dflt r m k = Some (m1, idx, b) -> clob m1 = clob m).
  { induction r as [|r IH]; intros m0 k m1 idx b; cbn [insert]; [discriminate|].
    destruct (insertOrFind eqb hash dflt (cells m0) k true); try discriminate.
    - intros Q. injection Q as <- _ _. reflexivity.
    - intros Q. injection Q as <- _ _. reflexivity.
    - unfold migrate. destruct (createTable _); [|discriminate]. destruct (migrate_cells _ _); [|discriminate].
      intros Q. rewrite (IH _ _ _ _ _ Q). reflexivity. }
  intros E Hc. destruct o as [k|k v|k|k| |]; cbn [step] in E.
  - destruct (insert eqb hash dflt rounds m k) as [[[m1 idx] b]|] eqn:E1; [|discriminate].
    destruct (item _ _) as [[? ?]|]; [|discriminate]. injection E as <- _. rewrite (HI _ _ _ _ _ _ E1). exact Hc.
  - destruct (insert eqb hash dflt rounds m k) as [[[m1 idx] b]|] eqn:E1; [|discriminate].
    destruct (item _ _) as [[? ?]|]; [|discriminate]. injection E as <- _. cbn. rewrite (HI _ _ _ _ _ _ E1). exact Hc.
  - destruct (insertOrFind eqb hash dflt (cells m) k false); try discriminate.
    + destruct (item _ _) as [[? ?]|]; [|discriminate]. injection E as <- _. exact Hc.
    + injection E as <- _. exact Hc.
  - destruct (insertOrFind eqb hash dflt (cells m) k false); try discriminate.
    + destruct (erase_cell _ _ _) as [[? ?]|]; [|discriminate]. destruct (pop m <=? 0); [discriminate|].
      injection E as <- _. cbn. rewrite Hc. reflexivity.
    + injection E as <- _. exact Hc.
  - injection E as <- _. exact Hc.
  - destruct (iter _ _ _); [|discriminate]. injection E as <- _. exact Hc.
Qed.

Lemma run_clob rounds os : forall m m' ys, run eqb hash dflt rounds m os = Some (m', ys) -> clob m' = false -> clob m = false.
Proof.
  induction os as [|o os IH]; intros m m' ys E Hc; cbn [run] in E; [injection E as <- _; exact Hc|].
  destruct (step eqb hash dflt rounds m o) as [[m1 y]|] eqn:E1; [|discriminate].
  destruct (run eqb hash dflt rounds m1 os) as [[m2 ys2]|] eqn:E2; [|discriminate]. injection E as <- _.
  pose proof (IH _ _ _ E2 Hc) as H1. destruct (clob m) eqn:Ec; [|reflexivity].
  rewrite (step_clob _ _ _ _ _ E1 Ec) in H1. discriminate.
Qed.

Lemma run_partial rounds os : forall m s m' ys, sim m s -> clob m = false ->
  at_most eqb dflt (2 ^ 30 - 1) s os ->
  run eqb hash dflt rounds m os = Some (m', ys) -> clob m' = false ->
  exists s', spec_run eqb dflt s os ys s' /\ sim m' s'.
Proof.
  induction os as [|o os IH]; intros m s m' ys HS Hc0 HA E Hc; cbn [run] in E.
  - injection E as <- <-. exists s. split; [constructor|exact HS].
  - destruct (step eqb hash dflt rounds m o) as [[m1 y]|] eqn:E1; [|discriminate].
    destruct (run eqb hash dflt rounds m1 os) as [[m2 ys2]|] eqn:E2; [|discriminate]. injection E as <- <-.
    cbn [at_most] in HA. destruct HA as [HA1 HA2].
    pose proof (run_clob _ _ _ _ _ E2 Hc) as Hc1.
    destruct (step_ok rounds m s o m1 y HS ltac:(lia) Hc0 E1 Hc1) as (G1 & G2 & _).
    destruct (IH m1 _ m2 ys2 G2 Hc1 HA2 E2 Hc) as (s' & G3 & G4).
    exists s'. split; [|exact G4]. econstructor; eassumption.
Qed.

Lemma step_total rounds m s o : sim m s -> zlen (cells m) <= 128 -> zlen s <= 64 -> (2 <= rounds)%nat -> clob m = false ->
  exists m' y, step eqb hash dflt rounds m o = Some (m', y) /\ clob m' = false.
Proof.
  intros HS Hs Hz Hr Hc. pose proof HS as (HS0 & HP & HN).
  assert (Hpop : pop m = zlen s).
  { destruct HS0 as (C & _ & ->). apply zlen_perm. exact HP. }
  destruct o as [k|k v|k|k| |]; cbn [step].
  - pose proof (insert_total rounds m k HS0 Hs ltac:(lia) Hr) as G.
    destruct (insert eqb hash dflt rounds m k) as [[[m1 idx] b]|] eqn:E1; [|congruence].
    destruct (insert_sim rounds m s k m1 idx b HS ltac:(lia) E1) as (G1 & G2 & G3 & G4). unfold item.
    destruct G3 as [(-> & G5 & v & G6 & G7)|(-> & G5 & G6 & G7)]; rewrite G7; eexists _, _; (split; [reflexivity|congruence]).
  - pose proof (insert_total rounds m k HS0 Hs ltac:(lia) Hr) as G.
    destruct (insert eqb hash dflt rounds m k) as [[[m1 idx] b]|] eqn:E1; [|congruence].
    destruct (insert_sim rounds m s k m1 idx b HS ltac:(lia) E1) as (G1 & G2 & G3 & G4). unfold item.
    destruct G3 as [(-> & G5 & v0 & G6 & G7)|(-> & G5 & G6 & G7)]; rewrite G7; eexists _, _; (split; [reflexivity|cbn; congruence]).
  - destruct HS0 as (C & HI & _).
    destruct (find_ok (cells m) C k HI) as [(p & prev & v & F1 & F2 & F3)|[F1 F2]]; rewrite F1.
    + unfold item. rewrite F2. eexists _, _. split; [reflexivity|exact Hc].
    + eexists _, _. split; [reflexivity|exact Hc].
  - destruct HS0 as (C & HI & HP0).
    destruct (find_ok (cells m) C k HI) as [(p & prev & v & F1 & F2 & F3)|[F1 F2]]; rewrite F1.
    + pose proof (erase_ok _ C k v p prev HI F3 F2) as G.
      destruct (erase_cell (cells m) p prev) as [[t' c]|]; [|lia].
      destruct G as [_ G]. specialize (G Hs). subst c.
      assert (Hpos : 0 < pop m).
      { rewrite HP0. assert (Hin : In (k, v) (items (cells m))) by (apply in_items; [exact (I_n _ _ HI)|eauto]).
        unfold zlen. destruct (items (cells m)); [destruct Hin|cbn [length]; lia]. }
      destruct (Z.leb_spec (pop m) 0); [lia|]. eexists _, _. split; [reflexivity|]. cbn. rewrite Hc. reflexivity.
    + eexists _, _. split; [reflexivity|exact Hc].
  - eexists _, _. split; [reflexivity|exact Hc].
  - destruct HS0 as (C & HI & _).
    pose proof (iter_ok _ C HI (length (cells m)) 0 eq_refl) as G. cbn [skipn Z.of_nat] in G. rewrite G.
    eexists _, _. split; [reflexivity|exact Hc].
Qed.

Lemma run_total rounds os : forall m s, sim m s -> clob m = false -> zlen (cells m) <= 128 -> (2 <= rounds)%nat ->
  at_most eqb dflt 64 s os ->
  exists m' ys s', run eqb hash dflt rounds m os = Some (m', ys) /\ spec_run eqb dflt s os ys s' /\ sim m' s'.
Proof.
  induction os as [|o os IH]; intros m s HS Hc Hs Hr HA; cbn [run].
  - exists m, [], s. split; [reflexivity|]. split; [constructor|exact HS].
  - cbn [at_most] in HA. destruct HA as [HA1 HA2].
    destruct (step_total rounds m s o HS Hs HA1 Hr Hc) as (m1 & y & E1 & Hc1). rewrite E1.
    destruct (step_ok rounds m s o m1 y HS ltac:(lia) Hc E1 Hc1) as (G1 & G2 & G3).
    destruct (IH m1 _ G2 Hc1 ltac:(auto) Hr HA2) as (m2 & ys & s' & E2 & G4 & G5). rewrite E2.
    exists m2, (y :: ys), s'. split; [reflexivity|]. split; [|exact G5]. econstructor; eassumption.
Qed.

Lemma create_sim e : 2 <= e <= 31 -> exists m, create (2 ^ e) = Some m /\ sim m [] /\ clob m = false /\ zlen (cells m) = 2 ^ e.
Proof.
  intros He. destruct (fresh_ok e He) as (t & E & HL & G1 & G2 & G3). unfold create. rewrite E. cbn [option_map].
  eexists. split; [reflexivity|]. cbn [cells pop clob]. split; [|split; [reflexivity|exact HL]].
  split; [|split; [cbn [cells]; rewrite G3; reflexivity|constructor]].
  eexists. split; [exact G1|]. cbn [cells pop]. rewrite G3. reflexivity.
Qed.

Lemma map_small rounds e os : 2 <= e <= 7 -> (2 <= rounds)%nat -> at_most eqb dflt 64 [] os ->
  exists m0 m ys s, create (2 ^ e) = Some m0 /\ run eqb hash dflt rounds m0 os = Some (m, ys) /\
    spec_run eqb dflt [] os ys s /\ sim m s.
Proof.
  intros He Hr HA. destruct (create_sim e ltac:(lia)) as (m0 & E & HS & Hc & HL).
  assert (2 ^ e <= 2 ^ 7) by (apply Z.pow_le_mono_r; lia).
  destruct (run_total rounds os m0 [] HS Hc ltac:(lia) Hr HA) as (m & ys & s & G1 & G2 & G3).
  exists m0, m, ys, s. auto.
Qed.

Lemma map_large rounds e os m0 m ys : 2 <= e <= 31 -> at_most eqb dflt (2 ^ 30 - 1) [] os ->
  create (2 ^ e) = Some m0 -> run eqb hash dflt rounds m0 os = Some (m, ys) -> clob m = false ->
  exists s, spec_run eqb dflt [] os ys s /\ sim m s.
Proof.
  intros He HA E R Hc. destruct (create_sim e He) as (m0' & E' & HS & Hc0 & HL).
  rewrite E in E'. injection E' as <-. exact (run_partial rounds os m0 [] m ys HS Hc0 HA R Hc).
Qed.

Lemma iterate_once rounds m s : sim m s -> exists l, step eqb hash dflt rounds m Iterate = Some (m, Items l) /\
  NoDup (map fst l) /\ forall k v, In (k, v) l <-> lookup eqb s k = Some v.
Proof.
  intros (HS0 & HP & HN). destruct HS0 as (C & HI & _). exists (items (cells m)).
  pose proof (iter_ok _ C HI (length (cells m)) 0 eq_refl) as G. cbn [skipn Z.of_nat] in G. cbn [step]. rewrite G.
  split; [reflexivity|]. split.
  - apply (Permutation_NoDup (l := map fst s)); [|exact HN]. apply Permutation_map. symmetry. exact HP.
  - intros k v. rewrite HP. split; [apply in_lookup; exact HN|apply lookup_in].
Qed.

Lemma small_map rounds e os : 2 <= e <= 7 -> (2 <= rounds)%nat -> at_most eqb dflt 64 [] os ->
  exists m0 m ys s, create (2 ^ e) = Some m0 /\ run eqb hash dflt rounds m0 os = Some (m, ys) /\ spec_run eqb dflt [] os ys s.
Proof. intros H1 H2 H3. destruct (map_small rounds e os H1 H2 H3) as (m0 & m & ys & s & A & B & D & _). exists m0, m, ys, s. auto. Qed.
Lemma large_map rounds e os m0 m ys : 2 <= e <= 31 -> at_most eqb dflt (2 ^ 30 - 1) [] os ->
  create (2 ^ e) = Some m0 -> run eqb hash dflt rounds m0 os = Some (m, ys) -> clob m = false ->
  exists s, spec_run eqb dflt [] os ys s.
Proof. intros H1 H2 H3 H4 H5. destruct (map_large rounds e os m0 m ys H1 H2 H3 H4 H5) as (s & A & _). eauto. Qed.
Lemma small_iter rounds e os : 2 <= e <= 7 -> (2 <= rounds)%nat -> at_most eqb dflt 64 [] os ->
  exists m0 m ys s l, create (2 ^ e) = Some m0 /\ run eqb hash dflt rounds m0 os = Some (m, ys) /\ spec_run eqb dflt [] os ys s /\
    step eqb hash dflt rounds m Iterate = Some (m, Items l) /\ NoDup (map fst l) /\
    forall k v, In (k, v) l <-> lookup eqb s k = Some v.
Proof.
  intros H1 H2 H3. destruct (map_small rounds e os H1 H2 H3) as (m0 & m & ys & s & A & B & D & F).
  destruct (iterate_once rounds m s F) as (l & G). exists m0, m, ys, s, l. auto.
Qed.
Lemma large_iter rounds e os m0 m ys : 2 <= e <= 31 -> at_most eqb dflt (2 ^ 30 - 1) [] os ->
  create (2 ^ e) = Some m0 -> run eqb hash dflt rounds m0 os = Some (m, ys) -> clob m = false ->
  exists s l, spec_run eqb dflt [] os ys s /\
    step eqb hash dflt rounds m Iterate = Some (m, Items l) /\ NoDup (map fst l) /\
    forall k v, In (k, v) l <-> lookup eqb s k = Some v.
Proof.
  intros H1 H2 H3 H4 H5. destruct (map_large rounds e os m0 m ys H1 H2 H3 H4 H5) as (s & A & B).
  destruct (iterate_once rounds m s B) as (l & G). exists s, l. auto.
Qed.
End Proofs.

(* Concrete maps: keys are pairs hashed by their first component. *)
Definition pkey : Type := Z * Z.
Definition peqb (a b : pkey) : bool := (fst a =? fst b) && (snd a =? snd b).
Definition phash (k : pkey) : Z := u32 (fst k).
Lemma peqb_ok a b : peqb a b = true <-> a = b.
Proof.
  destruct a as [a1 a2], b as [b1 b2]. unfold peqb. cbn [fst snd]. rewrite andb_true_iff, !Z.eqb_eq.
  split; [intros [-> ->]; reflexivity|intros H; injection H; auto].
Qed.
Lemma phash_ok k : 0 <= phash k < 2 ^ 32.
Proof. apply Z.mod_pos_bound. lia. Qed.
Definition touches (from n : nat) : list (@op pkey Z) := map (fun i => Touch (Z.of_nat i, 0)) (seq from n).
Definition prun := run peqb phash 0.

Lemma insert_mono {K V} (eqb : K -> K -> bool) hash (dflt : V) r r' m k x : (r <= r')%nat ->
  insert eqb hash dflt r m k = Some x -> insert eqb hash dflt r' m k = Some x.
Proof.
  revert r' m. induction r as [|r IH]; intros r' m L; cbn [insert]; [discriminate|].
  destruct r' as [|r']; [lia|]. cbn [insert].
  destruct (insertOrFind eqb hash dflt (cells m) k true); auto.
  destruct (migrate m); [|auto]. apply IH. lia.
Qed.
Lemma run_mono {K V} (eqb : K -> K -> bool) hash (dflt : V) r r' os : forall m x, (r <= r')%nat ->
  run eqb hash dflt r m os = Some x -> run eqb hash dflt r' m os = Some x.
Proof.
  induction os as [|o os IH]; intros m x L; cbn [run]; [auto|].
  assert (G : forall y, step eqb hash dflt r m o = Some y -> step eqb hash dflt r' m o = Some y).
  { intros y. destruct o; cbn [step]; auto; destruct (insert eqb hash dflt r m k) as [z|] eqn:E; try discriminate;
      rewrite (insert_mono _ _ _ _ _ _ _ _ L E); auto. }
  destruct (step eqb hash dflt r m o) as [[m1 y]|]; [|discriminate]. rewrite (G _ eq_refl).
  destruct (run eqb hash dflt r m1 os) as [[m2 ys]|] eqn:E; [|discriminate]. rewrite (IH _ _ L E). auto.
Qed.

(* An insertion that never ends: 129 keys in consecutive cells, and one more with the hash of the first. *)
Definition stuck : @hmap pkey Z :=
  match create 512 with
  | Some m => match prun 1 m (touches 0 129) with Some (m, _) => m | None => m end
  | None => mkm [] 0 false
  end.
Lemma stuck_eq : exists m ys, create 512 = Some m /\ prun 1 m (touches 0 129) = Some (stuck, ys).
Proof. eexists _, _. split; [vm_compute; reflexivity|]. vm_compute. reflexivity. Qed.
Lemma stuck_full : insertOrFind peqb phash 0 (cells stuck) (0, 1) true = Overflow.
Proof. vm_compute. reflexivity. Qed.
Lemma stuck_migrate : migrate stuck = Some stuck.
Proof. vm_compute. reflexivity. Qed.
Lemma stuck_insert r : insert peqb phash 0 r stuck (0, 1) = None.
Proof. induction r as [|r IH]; [reflexivity|]. cbn [insert]. rewrite stuck_full, stuck_migrate. exact IH. Qed.
Lemma run_app {K V} (eqb : K -> K -> bool) hash (dflt : V) r os1 os2 : forall m m1 ys, run eqb hash dflt r m os1 = Some (m1, ys) ->
  run eqb hash dflt r m (os1 ++ os2) =
  match run eqb hash dflt r m1 os2 with Some (m2, ys2) => Some (m2, ys ++ ys2) | None => None end.
Proof.
  induction os1 as [|o os1 IH]; intros m m1 ys E; cbn [run app] in *.
  - injection E as <- <-. destruct (run eqb hash dflt r m os2) as [[? ?]|]; reflexivity.
  - destruct (step eqb hash dflt r m o) as [[m2 y]|]; [|discriminate].
    destruct (run eqb hash dflt r m2 os1) as [[m3 ys3]|] eqn:E3; [|discriminate]. injection E as <- <-.
    rewrite (IH _ _ _ E3). destruct (run eqb hash dflt r m3 os2) as [[? ?]|]; reflexivity.
Qed.
Lemma hangs : exists m0, create 512 = Some m0 /\ (exists m1, prun 1 m0 (touches 0 129) = Some m1) /\
  forall rounds, prun rounds m0 (touches 0 129 ++ [Touch (0, 1)]) = None.
Proof.
  destruct stuck_eq as (m0 & ys & E & R). exists m0. split; [exact E|]. split; [eauto|].
  intros [|r]; [vm_compute in E; injection E as <-; reflexivity|].
  unfold prun in *. apply (run_mono _ _ _ 1 (S r)) in R; [|lia]. rewrite (run_app _ _ _ _ _ _ _ _ _ R).
  cbn [run step]. rewrite stuck_insert. reflexivity.
Qed.

(* Erasing from a long chain: the keys of hash 0 lie at distances 0, 1, 128 and 256. *)
Definition long_chain : list (@op pkey Z) :=
  [Touch (0, 0); Touch (0, 1)] ++ touches 2 126 ++ [Touch (0, 2)] ++ touches 129 127 ++ [Touch (0, 3)].
Lemma iter_count {K V} (eqb : K -> K -> bool) (dflt : V) os : forall s s' ys,
  spec_run eqb dflt s (os ++ [Iterate; Count]) ys s' -> exists ys0 l, ys = ys0 ++ [Items l; Num (zlen l)].
Proof.
  induction os as [|o os IH]; intros s s' ys H; cbn [app] in H.
  - inversion H as [|? ? ? ? ? ? ? H1 H2]; subst. inversion H2 as [|? ? ? ? ? ? ? H3 H4]; subst.
    inversion H4; subst. inversion H1; subst. inversion H3; subst. exists [], l.
    unfold zlen. match goal with P : Permutation _ _ |- _ => rewrite (Permutation_length P) end. reflexivity.
  - inversion H as [|? ? ? ? ? ? ? H1 H2]; subst. destruct (IH _ _ _ H2) as (yz & lz & ->).
    eexists (_ :: yz), lz. reflexivity.
Qed.
Definition bad_tail (ys : list (@out pkey Z)) : bool :=
  match rev ys with Num n :: Items l :: _ => negb (n =? zlen l) | _ => false end.
Lemma loses : exists m0 m ys, create 512 = Some m0 /\
  prun 1 m0 (long_chain ++ [Erase (0, 2); Iterate; Count]) = Some (m, ys) /\
  ~ exists s, spec_run peqb 0 [] (long_chain ++ [Erase (0, 2); Iterate; Count]) ys s.
Proof.
  assert (exists m0 m ys, create 512 = Some m0 /\
    prun 1 m0 (long_chain ++ [Erase (0, 2); Iterate; Count]) = Some (m, ys) /\ bad_tail ys = true) as (m0 & m & ys & E1 & E2 & E3).
  { eexists _, _, _. split; [vm_compute; reflexivity|]. split; vm_compute; reflexivity. }
  exists m0, m, ys. split; [exact E1|]. split; [exact E2|].
  intros (s & H). change [Erase (0, 2); Iterate; Count] with ([Erase (K := pkey) (V := Z) (0, 2)] ++ [Iterate; Count]) in H.
  rewrite app_assoc in H. apply iter_count in H. destruct H as (ys0 & l & ->).
  unfold bad_tail in E3. rewrite rev_app_distr in E3. cbn [rev app] in E3. rewrite Z.eqb_refl in E3. discriminate.
Qed.
Definition longer_chain : list (@op pkey Z) :=
  [Touch (0, 0); Touch (0, 1)] ++ touches 2 127 ++ [Touch (0, 2)] ++ touches 130 127 ++ [Touch (0, 3)].
Lemma wrong_memory : exists m0 m ys, create 512 = Some m0 /\ prun 1 m0 longer_chain = Some (m, ys) /\
  forall rounds, prun rounds m0 (longer_chain ++ [Erase (0, 2)]) = None.
Proof.
  assert (exists m0 m ys, create 512 = Some m0 /\ prun 1 m0 longer_chain = Some (m, ys) /\ step peqb phash 0 1 m (Erase (0, 2)) = None)
    as (m0 & m & ys & E & R & N).
  { eexists _, _, _. split; [vm_compute; reflexivity|]. split; [vm_compute; reflexivity|]. vm_compute. reflexivity. }
  exists m0, m, ys. split; [exact E|]. split; [exact R|].
  intros [|r]; [vm_compute in E; injection E as <-; reflexivity|].
  unfold prun in *. apply (run_mono _ _ _ 1 (S r)) in R; [|lia]. rewrite (run_app _ _ _ _ _ _ _ _ _ R).
  cbn [run]. change (step peqb phash 0 (S r) m (Erase (0, 2))) with (step peqb phash 0 1 m (Erase (0, 2))). rewrite N. reflexivity.
Qed.
