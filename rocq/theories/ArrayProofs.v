From Verif Require Import UtilSpec UtilModel UtilProofs ListUpd ArrayModel ArraySpec.
From Coq Require Import ZifyBool ZifyNat.
Ltac Zify.zify_post_hook ::= Z.div_mod_to_equations.

Section P.
Context {A : Type}.
Variable dflt : A.
Notation arr := (@arr A).

(* Live items first, dead cells after: nothing else owns an object. *)
Definition rep (l : list A) (a : arr) : Prop :=
  num a = length l /\ exists k, cells a = map Some l ++ repeat None k.

Lemma zlimit : Z.of_nat limit = 2147483648.
Proof. unfold limit. rewrite Nat2Z.inj_pow. reflexivity. Qed.

Lemma reserve_shape (l : list A) k want : 0 <= want <= 2147483648 -> (length l <= length l + k)%nat ->
  exists k', reserve (map Some l ++ repeat None k) want = map Some l ++ repeat None k' /\
             (Z.to_nat want <= length l + k' \/ k' = k)%nat /\ (k <= k')%nat /\ (Z.to_nat want <= length l + k')%nat.
Proof.
  intros Hw _. unfold reserve. assert (Hz : zlen (map (@Some A) l ++ repeat None k) = Z.of_nat (length l + k)).
  { unfold zlen. rewrite app_length, map_length, repeat_length. reflexivity. }
  rewrite Hz. destruct (Z.ltb_spec (Z.of_nat (length l + k)) want) as [H|H].
  - assert (Hr : least_pow2_above want (roundUpPowerOf2_32 want)).
    { apply roundUp32_ok. change (2 ^ 31) with 2147483648. lia. }
    destruct Hr as (_ & Hge & _). set (cap := Z.to_nat (roundUpPowerOf2_32 want)).
    assert (Hc : (Z.to_nat want <= cap)%nat) by (unfold cap; lia).
    exists (cap - length l)%nat. unfold realloc. split; [|lia].
    rewrite firstn_all2 by (rewrite app_length, map_length, repeat_length; lia).
    rewrite app_length, map_length, repeat_length, <- app_assoc, <- repeat_app. f_equal. f_equal. lia.
  - exists k. split; [reflexivity|]. lia.
Qed.

(* Ranges of a block given in three pieces. *)
Lemma range_mid (x y z : list (option A)) pos n : length x = pos -> length y = n -> range (x ++ y ++ z) pos n = y.
Proof.
  intros <- <-. unfold range. rewrite skipn_app, skipn_all, Nat.sub_diag. cbn [app skipn].
  rewrite firstn_app, firstn_all, Nat.sub_diag. cbn. apply app_nil_r.
Qed.
Lemma put_mid (x y z v : list (option A)) pos : length x = pos -> length v = length y -> put (x ++ y ++ z) pos v = x ++ v ++ z.
Proof.
  intros <- Hv. unfold put. rewrite firstn_app, firstn_all, Nat.sub_diag. cbn [firstn]. rewrite app_nil_r. f_equal. f_equal.
  rewrite skipn_app. rewrite skipn_all2 by lia. cbn [app].
  rewrite skipn_app. rewrite skipn_all2 by lia. cbn [app].
  replace (length x + length v - length x - length y)%nat with 0%nat by lia. reflexivity.
Qed.
Lemma in_block_mid (x y z : list (option A)) pos n : length x = pos -> length y = n -> in_block (x ++ y ++ z) pos n = true.
Proof. intros <- <-. unfold in_block. rewrite !app_length. lia. Qed.

Lemma live_map (v : list A) : forallb live (map Some v) = true.
Proof. induction v; [reflexivity|assumption]. Qed.
Lemma dead_repeat n : existsb (@live A) (repeat None n) = false.
Proof. induction n; [reflexivity|assumption]. Qed.

Lemma destruct_mid x (y : list A) z pos n : length x = pos -> length y = n ->
  destructArray (x ++ map Some y ++ z) pos n = Some (x ++ repeat None n ++ z).
Proof.
  intros H1 H2. unfold destructArray. rewrite in_block_mid, range_mid, live_map by (rewrite ?map_length; assumption).
  cbn [andb]. rewrite put_mid by (rewrite ?map_length, ?repeat_length; auto). reflexivity.
Qed.
Lemma construct_mid x n (v : list A) z pos : length x = pos -> length v = n ->
  constructArray (x ++ repeat None n ++ z) pos v = Some (x ++ map Some v ++ z).
Proof.
  intros H1 H2. unfold constructArray. rewrite H2. rewrite in_block_mid, range_mid, dead_repeat by (rewrite ?repeat_length; auto).
  cbn [negb andb]. rewrite put_mid by (rewrite ?map_length, ?repeat_length; auto). reflexivity.
Qed.

(* Moving down over a gap. *)
Lemma move_down x g (y z : list (option A)) dst src n : length x = dst -> (dst + g)%nat = src -> length y = n ->
  move_cells (x ++ repeat None g ++ y ++ z) dst src n = Some (x ++ y ++ repeat None g ++ z).
Proof.
  intros H1 H2 H3. unfold move_cells.
  assert (E1 : x ++ repeat None g ++ y ++ z = (x ++ repeat None g) ++ y ++ z) by (rewrite <- app_assoc; reflexivity).
  rewrite E1 at 1. rewrite in_block_mid by (rewrite ?app_length, ?repeat_length; lia).
  assert (Hb : in_block (x ++ repeat None g ++ y ++ z) dst n = true).
  { unfold in_block. rewrite !app_length, repeat_length. lia. }
  rewrite Hb. cbn [andb]. rewrite E1. rewrite range_mid by (rewrite ?app_length, ?repeat_length; lia).
  rewrite put_mid by (rewrite ?app_length, ?repeat_length; lia).
  assert (E2 : (x ++ repeat None g) ++ repeat None n ++ z = x ++ repeat None n ++ repeat (@None A) g ++ z).
  { rewrite <- app_assoc. f_equal. rewrite !app_assoc. f_equal. rewrite <- !repeat_app. f_equal. lia. }
  rewrite E2. rewrite range_mid by (rewrite ?repeat_length; auto). rewrite dead_repeat.
  rewrite put_mid by (rewrite ?repeat_length; auto). reflexivity.
Qed.
(* Moving up into the free space. *)
Lemma move_up x (y : list (option A)) g z dst src n : length x = src -> (src + g)%nat = dst -> length y = n ->
  move_cells (x ++ y ++ repeat None g ++ z) dst src n = Some (x ++ repeat None g ++ y ++ z).
Proof.
  intros H1 H2 H3. unfold move_cells.
  rewrite in_block_mid by auto.
  assert (Hb : in_block (x ++ y ++ repeat None g ++ z) dst n = true).
  { unfold in_block. rewrite !app_length, repeat_length. lia. }
  rewrite Hb. cbn [andb]. rewrite range_mid by auto.
  rewrite put_mid by (rewrite ?repeat_length; auto).
  assert (E2 : x ++ repeat None n ++ repeat None g ++ z = (x ++ repeat None g) ++ repeat (@None A) n ++ z).
  { rewrite <- app_assoc. f_equal. rewrite !app_assoc. f_equal. rewrite <- !repeat_app. f_equal. lia. }
  rewrite E2. rewrite range_mid by (rewrite ?app_length, ?repeat_length; lia). rewrite dead_repeat.
  rewrite put_mid by (rewrite ?app_length, ?repeat_length; lia). rewrite <- app_assoc. reflexivity.
Qed.

Lemma u32_small v : 0 <= v <= 2147483648 -> u32 v = v.
Proof. intros H. unfold u32. change (2 ^ 32) with 4294967296. apply Z.mod_small. lia. Qed.

Lemma construct_end (l v : list A) k : (length v <= k)%nat ->
  constructArray (map Some l ++ repeat None k) (length l) v = Some (map Some (l ++ v) ++ repeat None (k - length v)).
Proof.
  intros H. replace k with (length v + (k - length v))%nat at 1 by lia. rewrite repeat_app.
  rewrite construct_mid by (rewrite ?map_length; reflexivity). rewrite map_app, <- app_assoc. reflexivity.
Qed.

Lemma length_le_limit (l : list A) : (length l <= limit)%nat -> Z.of_nat (length l) <= 2147483648.
Proof. pose proof zlimit. lia. Qed.

Lemma extend_ok l a v : rep l a -> (length l + length v <= limit)%nat ->
  exists a', extend a v = Some a' /\ rep (l ++ v) a'.
Proof.
  intros [Hn [k Hc]] Hl. pose proof zlimit. unfold extend. rewrite Hn, Hc.
  unfold zn, zlen. rewrite u32_small by lia.
  destruct (reserve_shape l k (Z.of_nat (length l) + Z.of_nat (length v)) ltac:(lia) ltac:(lia)) as (k' & -> & _ & _ & Hk).
  rewrite construct_end by lia. cbn [obind]. eexists. split; [reflexivity|]. split; cbn; [rewrite app_length; lia|eauto].
Qed.

Lemma append_ok l a x : rep l a -> (length l + 1 <= limit)%nat ->
  exists a', append a x = Some a' /\ rep (l ++ [x]) a'.
Proof.
  intros [Hn [k Hc]] Hl. pose proof zlimit. unfold append. rewrite Hn, Hc.
  set (c := if (length (map Some l ++ repeat None k) <=? length l)%nat then reserve (map Some l ++ repeat None k) (u32 (zn (length l) + 1)) else map Some l ++ repeat None k).
  assert (Hcs : exists k', c = map Some l ++ repeat None k' /\ (1 <= k')%nat).
  { unfold c. rewrite app_length, map_length, repeat_length. destruct (Nat.leb_spec (length l + k) (length l)) as [H1|H1].
    - unfold zn. rewrite u32_small by lia.
      destruct (reserve_shape l k (Z.of_nat (length l) + 1) ltac:(lia) ltac:(lia)) as (k' & -> & _ & _ & Hk).
      exists k'. split; [reflexivity|lia].
    - exists k. split; [reflexivity|lia]. }
  destruct Hcs as (k' & -> & Hk'). rewrite construct_end by (cbn; lia). cbn [obind].
  eexists. split; [reflexivity|]. split; cbn; [rewrite app_length; cbn; lia|eauto].
Qed.

Lemma cells_split (l : list A) p : map (@Some A) l = map Some (firstn p l) ++ map Some (skipn p l).
Proof. rewrite <- map_app, firstn_skipn. reflexivity. Qed.

Lemma resize_ok l a n : rep l a -> (n <= limit)%nat -> exists a', resize dflt a n = Some a' /\
  rep (firstn n l ++ repeat dflt (n - length l)) a'.
Proof.
  intros [Hn [k Hc]] Hl. pose proof zlimit. unfold resize. rewrite Hn, Hc.
  destruct (Nat.ltb_spec n (length l)) as [H1|H1].
  - rewrite (cells_split l n), <- app_assoc.
    rewrite destruct_mid by (rewrite ?map_length, ?firstn_length, ?skipn_length; lia). cbn [obind].
    rewrite <- repeat_app.
    destruct (reserve_shape (firstn n l) (length l - n + k) (zn n) ltac:(unfold zn; lia) ltac:(lia)) as (k' & -> & _ & _ & Hk).
    replace (length l <? n)%nat with false by lia. cbn [obind]. eexists. split; [reflexivity|].
    replace (n - length l)%nat with 0%nat by lia. cbn [repeat]. rewrite app_nil_r.
    split; cbn; [rewrite firstn_length; lia|eauto].
  - cbn [obind].
    destruct (reserve_shape l k (zn n) ltac:(unfold zn; lia) ltac:(lia)) as (k' & -> & _ & _ & Hk).
    rewrite firstn_all2 by lia. destruct (Nat.ltb_spec (length l) n) as [H2|H2].
    + rewrite construct_end by (rewrite repeat_length; unfold zn in *; lia). cbn [obind].
      eexists. split; [reflexivity|]. split; cbn; [rewrite app_length, repeat_length; lia|eauto].
    + cbn [obind]. eexists. split; [reflexivity|]. replace (n - length l)%nat with 0%nat by lia. cbn [repeat].
      rewrite app_nil_r. split; cbn; [lia|eauto].
Qed.

Lemma pop_ok l a n : rep l a -> (length l <= limit)%nat -> (n <= length l)%nat ->
  exists a', pop dflt a n = Some a' /\ rep (firstn (length l - n) l) a'.
Proof.
  intros Hr Hlim Hle. unfold pop. destruct Hr as [Hn Hc]. rewrite Hn. replace (n <=? length l)%nat with true by lia.
  destruct (resize_ok l a (length l - n) (conj Hn Hc) ltac:(lia)) as (a' & E & R). exists a'. split; [exact E|].
  replace (length l - n - length l)%nat with 0%nat in R by lia. cbn [repeat] in R. rewrite app_nil_r in R. exact R.
Qed.

Lemma insert_ok l a p n : rep l a -> (p <= length l)%nat -> (length l + n <= limit)%nat ->
  exists a', insert dflt a p n = Some a' /\ rep (firstn p l ++ repeat dflt n ++ skipn p l) a'.
Proof.
  intros [Hn [k Hc]] Hp Hl. pose proof zlimit. unfold insert. rewrite Hn, Hc. replace (p <=? length l)%nat with true by lia.
  unfold zn. rewrite u32_small by lia.
  destruct (reserve_shape l k (Z.of_nat (length l) + Z.of_nat n) ltac:(lia) ltac:(lia)) as (k' & -> & _ & _ & Hk).
  replace k' with (n + (k' - n))%nat by lia. rewrite repeat_app. rewrite (cells_split l p), <- app_assoc.
  rewrite (move_up _ _ n) by (rewrite ?map_length, ?firstn_length, ?skipn_length; lia). cbn [obind].
  rewrite construct_mid by (rewrite ?map_length, ?firstn_length, ?repeat_length; lia). cbn [obind].
  eexists. split; [reflexivity|]. split; cbn.
  - rewrite !app_length, repeat_length, firstn_length, skipn_length. lia.
  - exists (k' - n)%nat. rewrite !map_app, <- !app_assoc. reflexivity.
Qed.

Lemma mid_split (l : list A) p n : (p + n <= length l)%nat ->
  map (@Some A) l = map Some (firstn p l) ++ map Some (firstn n (skipn p l)) ++ map Some (skipn (p + n) l).
Proof.
  intros H. rewrite (cells_split l p) at 1. f_equal. rewrite (cells_split (skipn p l) n).
  f_equal. f_equal. rewrite skipn_skipn. f_equal. lia.
Qed.

Lemma erase_ok l a p n : rep l a -> (length l <= limit)%nat -> (p + n <= length l)%nat ->
  exists a', erase a p n = Some a' /\ rep (firstn p l ++ skipn (p + n) l) a'.
Proof.
  intros [Hn [k Hc]] Hlim Hp. pose proof zlimit. unfold erase. rewrite Hn, Hc.
  unfold zn. rewrite u32_small by lia. replace (Z.of_nat p + Z.of_nat n <=? Z.of_nat (length l)) with true by lia.
  rewrite (mid_split l p n Hp), <- !app_assoc.
  rewrite destruct_mid by (rewrite ?map_length, ?firstn_length, ?skipn_length; lia). cbn [obind].
  rewrite move_down by (rewrite ?map_length, ?firstn_length, ?skipn_length; lia). cbn [obind].
  eexists. split; [reflexivity|]. split; cbn.
  - rewrite app_length, firstn_length, skipn_length. lia.
  - exists (n + k)%nat. rewrite map_app, <- app_assoc, repeat_app. reflexivity.
Qed.

(* The last n items replace the erased ones: when they do not overlap, or when they are the erased ones. *)
Lemma eraseQuickN_ok l a p n : rep l a -> (length l <= limit)%nat ->
  (p + 2 * n <= length l \/ p + n = length l)%nat ->
  exists a', eraseQuickN a p n = Some a' /\
    rep (firstn (length l - n) (firstn p l ++ skipn (length l - n) l ++ skipn (p + n) l)) a'.
Proof.
  intros [Hn [k Hc]] Hlim Hp. pose proof zlimit. unfold eraseQuickN. rewrite Hn, Hc.
  unfold zn. rewrite u32_small by lia. replace (Z.of_nat p + Z.of_nat n <=? Z.of_nat (length l)) with true by lia.
  rewrite (mid_split l p n) by lia. rewrite <- !app_assoc.
  rewrite destruct_mid by (rewrite ?map_length, ?firstn_length, ?skipn_length; lia). cbn [obind].
  destruct (Nat.eq_dec (p + n) (length l)) as [He|He].
  - (* erasing the tail *)
    rewrite skipn_all2 by lia. cbn [map app].
    pose proof (move_down (map Some (firstn p l)) 0 (repeat None n) (repeat None k) p (length l - n) n) as Em.
    cbn [repeat app] in Em.
    rewrite Em by (rewrite ?map_length, ?firstn_length, ?repeat_length; lia).
    cbn [obind repeat app]. eexists. split; [reflexivity|].
    replace (firstn (length l - n) (firstn p l ++ skipn (length l - n) l ++ [])) with (firstn p l).
    2:{ replace (length l - n)%nat with p by lia. rewrite firstn_app, firstn_firstn, firstn_length.
        replace (p - Nat.min p (length l))%nat with 0%nat by lia. cbn [firstn]. rewrite app_nil_r. f_equal. lia. }
    split; cbn; [rewrite firstn_length; lia|]. exists (n + k)%nat. rewrite repeat_app. reflexivity.
  - (* disjoint *)
    assert (Hd : (p + 2 * n <= length l)%nat) by lia.
    set (m := (length l - n - (p + n))%nat).
    set (mid := firstn m (skipn (p + n) l)). set (last := skipn (length l - n) l).
    assert (Esk : skipn (p + n) l = mid ++ last).
    { unfold mid, last. rewrite <- (firstn_skipn m (skipn (p + n) l)) at 1. f_equal. rewrite skipn_skipn. f_equal. unfold m. lia. }
    assert (Lm : length mid = m) by (unfold mid; rewrite firstn_length, skipn_length; unfold m; lia).
    assert (Ll : length last = n) by (unfold last; rewrite skipn_length; lia).
    assert (Lp : length (firstn p l) = p) by (rewrite firstn_length; lia).
    rewrite Esk. rewrite map_app.
    assert (Em : move_cells (map Some (firstn p l) ++ repeat None n ++ (map Some mid ++ map Some last) ++ repeat None k) p (length l - n) n
                 = Some (map Some (firstn p l) ++ map Some last ++ map Some mid ++ repeat None n ++ repeat None k)).
    { unfold move_cells.
      assert (E1 : map Some (firstn p l) ++ repeat None n ++ (map Some mid ++ map Some last) ++ repeat None k =
                   (map Some (firstn p l) ++ repeat None n ++ map Some mid) ++ map Some last ++ repeat None k).
      { rewrite <- !app_assoc. reflexivity. }
      rewrite E1. rewrite in_block_mid by (rewrite ?app_length, ?map_length, ?repeat_length; unfold m in *; lia).
      assert (Hb : in_block ((map Some (firstn p l) ++ repeat None n ++ map Some mid) ++ map Some last ++ repeat None k) p n = true).
      { unfold in_block. rewrite !app_length, !map_length, !repeat_length. lia. }
      rewrite Hb. cbn [andb]. rewrite range_mid by (rewrite ?app_length, ?map_length, ?repeat_length; unfold m in *; lia).
      rewrite put_mid by (rewrite ?app_length, ?map_length, ?repeat_length; unfold m in *; lia).
      rewrite <- !app_assoc. rewrite range_mid by (rewrite ?map_length, ?repeat_length; lia). rewrite dead_repeat.
      rewrite put_mid by (rewrite ?map_length, ?repeat_length; lia). reflexivity. }
    rewrite <- app_assoc in Em. rewrite <- app_assoc. rewrite Em. cbn [obind]. eexists. split; [reflexivity|].
    assert (Ef : firstn (length l - n) (firstn p l ++ last ++ mid ++ last) = firstn p l ++ last ++ mid).
    { replace (firstn p l ++ last ++ mid ++ last) with ((firstn p l ++ last ++ mid) ++ last) by (rewrite <- !app_assoc; reflexivity).
      rewrite firstn_app. rewrite firstn_all2 by (rewrite !app_length; unfold m in *; lia).
      replace (length l - n - length (firstn p l ++ last ++ mid))%nat with 0%nat by (rewrite !app_length; unfold m in *; lia).
      cbn [firstn]. apply app_nil_r. }
    rewrite Ef. split; cbn.
    + rewrite !app_length. unfold m in *. lia.
    + exists (n + k)%nat. rewrite !map_app, <- !app_assoc, repeat_app. reflexivity.
Qed.

Lemma eraseQuick1_eq (a : arr) p : (num a <= limit)%nat -> (p < num a)%nat -> eraseQuick1 a p = eraseQuickN a p 1.
Proof.
  intros Hl Hp. pose proof zlimit. unfold eraseQuick1, eraseQuickN, zn. rewrite u32_small by lia.
  replace (p <? num a)%nat with true by lia. replace (Z.of_nat p + Z.of_nat 1 <=? Z.of_nat (num a)) with true by lia. reflexivity.
Qed.

Lemma assign_ok l a i x : rep l a -> (i < length l)%nat ->
  exists a', assign a i x = Some a' /\ rep (firstn i l ++ x :: skipn (i + 1) l) a'.
Proof.
  intros [Hn [k Hc]] Hi. unfold assign. rewrite Hn, Hc. replace (i <? length l)%nat with true by lia.
  destruct (nth_ex l i Hi) as [y Hy].
  rewrite nth_error_app1 by (rewrite map_length; exact Hi). rewrite (map_nth_error _ _ _ Hy).
  eexists. split; [reflexivity|]. split; cbn.
  - rewrite app_length, firstn_length. cbn. rewrite skipn_length. lia.
  - exists k. rewrite upd_app_l by (rewrite map_length; exact Hi). f_equal.
    rewrite upd_split by (rewrite map_length; exact Hi). rewrite map_app. cbn [map].
    rewrite <- firstn_map, <- skipn_map. replace (i + 1)%nat with (S i) by lia. reflexivity.
Qed.

Lemma step_ok l a o : rep l a -> (length l <= limit)%nat -> allowed l o ->
  exists a', step dflt a o = Some a' /\ rep (list_step dflt l o) a' /\ (length (list_step dflt l o) <= limit)%nat.
Proof.
  intros Hr Hlim Ha. assert (W : forall l', (exists a', step dflt a o = Some a' /\ rep l' a') -> (length l' <= limit)%nat ->
     exists a', step dflt a o = Some a' /\ rep l' a' /\ (length l' <= limit)%nat).
  { intros l' (a' & E & R) H. eauto. }
  apply W; clear W.
  - destruct o; cbn [step list_step allowed] in *.
    + apply append_ok; assumption.
    + apply extend_ok; assumption.
    + apply resize_ok; assumption.
    + apply pop_ok; assumption.
    + apply insert_ok; tauto.
    + apply erase_ok; assumption.
    + destruct Hr as [Hn Hc]. rewrite eraseQuick1_eq by lia.
      apply eraseQuickN_ok; [split; assumption|assumption|lia].
    + apply eraseQuickN_ok; assumption.
    + eexists. split; [reflexivity|]. destruct Hr as [Hn [k Hc]]. split; cbn; [exact Hn|]. rewrite Hc, Hn. unfold realloc.
      exists 0%nat. rewrite firstn_app, map_length, Nat.sub_diag, app_length, map_length. cbn [firstn repeat].
      rewrite firstn_all2 by (rewrite map_length; lia). replace (length l - (length l + _))%nat with 0%nat by lia. rewrite !app_nil_r. reflexivity.
    + unfold clear. destruct Hr as [Hn [k Hc]]. rewrite Hc, Hn.
      pose proof (destruct_mid [] l (repeat None k) 0 (length l) eq_refl eq_refl) as E. cbn [app] in E. rewrite E. cbn [obind].
      eexists. split; [reflexivity|]. split; [reflexivity|]. exists 0%nat. reflexivity.
    + eexists. split; [reflexivity|]. destruct Hr as [Hn [k Hc]]. split; cbn; [exact Hn|]. rewrite Hc.
      pose proof zlimit. destruct (reserve_shape l k (zn n) ltac:(unfold zn; lia) ltac:(lia)) as (k' & -> & _). eauto.
    + apply assign_ok; assumption.
  - destruct o; cbn [list_step allowed] in *; rewrite ?app_length, ?firstn_length, ?app_length, ?skipn_length, ?repeat_length; cbn [length]; rewrite ?skipn_length; lia.
Qed.

Theorem run_ok ops l a : rep l a -> (length l <= limit)%nat -> all_allowed dflt l ops ->
  exists a', run dflt a ops = Some a' /\ rep (list_run dflt l ops) a'.
Proof.
  revert l a. induction ops as [|o ops IH]; intros l a Hr Hl Ha; cbn [run list_run all_allowed] in *.
  - eauto.
  - destruct Ha as [Ha1 Ha2]. destruct (step_ok l a o Hr Hl Ha1) as (a' & -> & Hr' & Hl'). cbn [obind]. apply IH; assumption.
Qed.

Lemma rep_get l a i : rep l a -> get a i = nth_error l i.
Proof.
  intros [Hn [k Hc]]. unfold get. rewrite Hn, Hc. destruct (Nat.ltb_spec i (length l)) as [H|H].
  - rewrite nth_error_app1 by (rewrite map_length; exact H). destruct (nth_ex l i H) as [x Hx].
    rewrite (map_nth_error _ _ _ Hx). symmetry. exact Hx.
  - symmetry. apply nth_error_None. exact H.
Qed.

Theorem array_refines ops : all_allowed dflt [] ops ->
  exists a, run dflt empty_arr ops = Some a /\ num a = length (list_run dflt [] ops) /\
    (num a <= length (cells a))%nat /\ (forall i, get a i = nth_error (list_run dflt [] ops) i) /\
    Forall (fun c => c = None) (skipn (num a) (cells a)).
Proof.
  intros H. destruct (run_ok ops [] empty_arr) as (a & E & Hr).
  - split; [reflexivity|]. exists 0%nat. reflexivity.
  - apply Nat.le_0_l.
  - exact H.
  - exists a. split; [exact E|]. pose proof Hr as [Hn [k Hc]]. split; [exact Hn|]. split; [|split].
    + rewrite Hn, Hc, app_length, map_length. lia.
    + intros i. apply rep_get. exact Hr.
    + rewrite Hn, Hc, skipn_app, map_length, Nat.sub_diag. rewrite skipn_all2 by (rewrite map_length; lia).
      cbn. apply Forall_forall. intros c Hin. apply repeat_spec in Hin. exact Hin.
Qed.
End P.
