(* More proofs about the audio primitives: the pitched mix, and buffers. *)
From Verif Require Import Base AudioModel AudioSpec AudioProofs.

Ltac Zify.zify_post_hook ::= Z.div_mod_to_equations.

(* Between two samples. *)

Lemma lerp_bounds y0 y1 r :
  is_s16 y0 -> is_s16 y1 -> 0 <= r < 65536 ->
  -2147483648 <= y0 * (65536 - r) <= 2147483647 /\
  -2147483648 <= y1 * r <= 2147483647 /\
  -2147483648 <= y0 * (65536 - r) + y1 * r <= 2147418112.
Proof. unfold is_s16. intros. split; [nia|]. split; nia. Qed.

Lemma lerp_some y0 y1 r :
  is_s16 y0 -> is_s16 y1 -> 0 <= r < 65536 ->
  lerp16 y0 y1 r = Some ((y0 * (65536 - r) + y1 * r) / 65536).
Proof.
  intros H0 H1 Hr. destruct (lerp_bounds y0 y1 r H0 H1 Hr) as (A & B & C).
  unfold lerp16. rewrite s32op_some by lia. rewrite s32op_some by exact A.
  rewrite s32op_some by exact B. rewrite s32op_some by lia. reflexivity.
Qed.

Lemma lerp_s16 y0 y1 r :
  is_s16 y0 -> is_s16 y1 -> 0 <= r < 65536 ->
  is_s16 ((y0 * (65536 - r) + y1 * r) / 65536).
Proof.
  intros H0 H1 Hr. destruct (lerp_bounds y0 y1 r H0 H1 Hr) as (_ & _ & C).
  unfold is_s16. lia.
Qed.

Lemma pitchedStep_ok m d s r v :
  (d < length m)%nat -> (s + 2 < length m)%nat -> sound m ->
  0 <= r < 65536 -> -65535 <= v <= 65536 ->
  exists m1, pitchedStep m (2 * Z.of_nat d) (2 * Z.of_nat s) r v = Some m1 /\
             length m1 = length m /\
             cell m1 d = clamp16 (cell m d + readAt m s r * v / 65536) /\
             (forall j, j <> d -> cell m1 j = cell m j) /\ sound m1.
Proof.
  intros Hd Hs Hm Hr Hv. unfold pitchedStep. rewrite (load_ok m s) by lia.
  replace (2 * Z.of_nat s + 4) with (2 * Z.of_nat (s + 2)) by lia.
  rewrite (load_ok m (s + 2)) by lia.
  rewrite lerp_some by (try apply sound_cell; assumption).
  rewrite (load_ok m d) by exact Hd.
  assert (readAt m s r
          = (cell m s * (65536 - r) + cell m (s + 2) * r) / 65536) as Er.
  { unfold readAt. rewrite (Z.div_small r), (Z.mod_small r) by lia. cbn [Z.to_nat].
    rewrite Nat.mul_0_r, Nat.add_0_r. reflexivity. }
  rewrite <- Er.
  rewrite leveled_some.
  - apply one_sample; assumption.
  - apply product_fits; [|exact Hv]. rewrite Er.
    apply lerp_s16; try apply sound_cell; assumption.
Qed.

Lemma readAt_shift m s q p :
  0 <= q -> 0 <= p -> readAt m (s + 2 * Z.to_nat q) p = readAt m s (p + q * 65536).
Proof.
  intros Hq Hp. unfold readAt. rewrite Z.div_add, Z_mod_plus_full by lia.
  rewrite Z2Nat.inj_add by (try apply Z.div_pos; lia).
  f_equal. f_equal; f_equal; f_equal; lia.
Qed.

Lemma mod2_SS i : (S (S i) mod 2 = i mod 2)%nat.
Proof.
  replace (S (S i)) with (i + 1 * 2)%nat by lia. apply Nat.mod_add. lia.
Qed.

(* The frames that a pass of the loop reads do not lie in the destination. *)
Definition apart (s : nat) (e : Z) (d k : nat) : Prop :=
  e <= 2 * Z.of_nat d \/ (d + k <= s)%nat.

(* The rest of the destination is computed from the same source. *)
Lemma pitchedAt_next m m1 m2 d s sf sf1 q step v e n i :
  (forall j, j <> d -> cell m1 j = cell m j) ->
  (forall j, j <> S d -> cell m2 j = cell m1 j) ->
  e <= 2 * Z.of_nat d \/ (d + 2 * S n <= s)%nat ->
  0 <= q -> 0 <= sf1 < 65536 -> 0 <= step < 2147418112 ->
  sf + step = q * 65536 + sf1 ->
  2 * Z.of_nat s + 4 * ((sf1 + Z.of_nat (i / 2) * step) / 65536 + q + 2) <= e ->
  pitchedAt m2 (s + 2 * Z.to_nat q) sf1 step v i = pitchedAt m s sf step v (S (S i)).
Proof.
  intros O1 O2 Ha Hq Hsf1 Hst Hdm H1. unfold pitchedAt. rewrite mod2_SS, half_SS.
  f_equal. f_equal.
  assert (i mod 2 < 2)%nat as Hi3 by (apply Nat.mod_upper_bound; lia).
  revert H1. generalize (i / 2)%nat as f. intros f H1.
  revert Hi3. generalize (i mod 2)%nat as b. intros b Hb.
  rewrite Nat.add_shuffle0.
  assert (0 <= sf1 + Z.of_nat f * step) as Hp.
  { apply Z.add_nonneg_nonneg; [lia|]. apply Z.mul_nonneg_nonneg; lia. }
  rewrite readAt_shift by assumption.
  replace (sf + Z.of_nat (S f) * step) with (sf1 + Z.of_nat f * step + q * 65536)
    by (rewrite Nat2Z.inj_succ, Z.mul_succ_l; lia).
  revert Hp H1. generalize (sf1 + Z.of_nat f * step) as p. intros p Hp H1.
  unfold readAt. rewrite Z.div_add by lia.
  assert (0 <= p / 65536) as Hw by (apply Z.div_pos; lia).
  revert Hw H1. generalize (p / 65536) as w. intros w Hw H1.
  clear Hdm Hst Hsf1 Hp.
  rewrite !O2 by lia. rewrite !O1 by lia. reflexivity.
Qed.

Lemma pitchedLoop_ok step v e (Hst : 0 <= step < 2147418112) (Hv : -65535 <= v <= 65536) n :
  forall fuel m d s sf,
  (n < fuel)%nat -> (d + 2 * n <= length m)%nat -> e <= 2 * Z.of_nat (length m) ->
  apart s e d (2 * n) -> sound m -> 0 <= sf < 65536 ->
  (forall f, (f < n)%nat ->
     2 * Z.of_nat s + 4 * ((sf + Z.of_nat f * step) / 65536 + 2) <= e) ->
  exists m',
    pitchedLoop fuel m (2 * Z.of_nat d) (2 * Z.of_nat (d + 2 * n)) (2 * Z.of_nat s) e sf step v
    = Some (m', (2 * Z.of_nat s + 4 * ((sf + Z.of_nat n * step) / 65536),
                 (sf + Z.of_nat n * step) mod 65536)) /\
    added m d (2 * n) (pitchedAt m s sf step v) m'.
Proof.
  induction n as [|n IH]; intros fuel m d s sf Hf Hd He Ha Hm Hsf Hb;
    (destruct fuel as [|fuel]; [lia|]); cbn [pitchedLoop].
  - rewrite (proj2 (Z.ltb_ge _ _)) by lia. exists m. split; [|apply added_nil].
    cbn [Z.of_nat]. rewrite Z.mul_0_l, Z.add_0_r, Z.div_small, Z.mod_small by lia.
    rewrite Z.mul_0_r, Z.add_0_r. reflexivity.
  - rewrite (proj2 (Z.ltb_lt _ (2 * Z.of_nat (d + 2 * S n)))) by lia.
    pose proof (Hb O ltac:(lia)) as H0. cbn [Z.of_nat] in H0.
    rewrite Z.mul_0_l, Z.add_0_r, (Z.div_small sf) in H0 by lia.
    rewrite (proj2 (Z.ltb_lt _ e)) by lia.
    unfold apart in Ha.
    destruct (pitchedStep_ok m d s sf v ltac:(lia) ltac:(lia) Hm Hsf Hv)
      as (m1 & E1 & L1 & C1 & O1 & S1).
    rewrite E1. rewrite !step_addr.
    destruct (pitchedStep_ok m1 (S d) (S s) sf v ltac:(lia) ltac:(lia) S1 Hsf Hv)
      as (m2 & E2 & L2 & C2 & O2 & S2).
    rewrite E2. cbv zeta. rewrite toS32_id by lia.
    set (q := (sf + step) / 65536). set (sf1 := (sf + step) mod 65536).
    assert (0 <= q) as Hq by (unfold q; lia).
    assert (0 <= sf1 < 65536) as Hsf1 by (unfold sf1; lia).
    assert (sf + step = q * 65536 + sf1) as Hdm by (unfold q, sf1; lia).
    clearbody q sf1.
    replace (2 * Z.of_nat d + 4) with (2 * Z.of_nat (S (S d))) by lia.
    replace (2 * Z.of_nat s + 4 * q) with (2 * Z.of_nat (s + 2 * Z.to_nat q)) by lia.
    replace (d + 2 * S n)%nat with (S (S d) + 2 * n)%nat by lia.
    assert (forall f, (sf + Z.of_nat (S f) * step) / 65536
                      = (sf1 + Z.of_nat f * step) / 65536 + q) as Hd1.
    { intros f. replace (sf + Z.of_nat (S f) * step)
        with ((sf1 + Z.of_nat f * step) + q * 65536) by lia.
      apply Z.div_add. lia. }
    assert (forall f, (sf + Z.of_nat (S f) * step) mod 65536
                      = (sf1 + Z.of_nat f * step) mod 65536) as Hm1.
    { intros f. replace (sf + Z.of_nat (S f) * step)
        with ((sf1 + Z.of_nat f * step) + q * 65536) by lia.
      apply Z_mod_plus_full. }
    destruct (IH fuel m2 (S (S d)) (s + 2 * Z.to_nat q)%nat sf1) as (m' & E' & A).
    + lia.
    + lia.
    + rewrite L2, L1. exact He.
    + unfold apart. lia.
    + exact S2.
    + exact Hsf1.
    + intros f Hfn. pose proof (Hb (S f) ltac:(lia)) as H1. rewrite Hd1 in H1.
      rewrite Nat2Z.inj_add, Nat2Z.inj_mul, Z2Nat.id by exact Hq.
      cbn [Z.of_nat Pos.of_succ_nat Pos.succ]. lia.
    + exists m'. split.
      * rewrite E'. rewrite Hd1, Hm1.
        rewrite Nat2Z.inj_add, Nat2Z.inj_mul, Z2Nat.id by exact Hq.
        f_equal. f_equal. f_equal. cbn [Z.of_nat Pos.of_succ_nat Pos.succ]. lia.
      * replace (2 * S n)%nat with (S (S (2 * n))) by lia.
        apply (added_cons m m1 m' d _ _ L1); [|exact O1|].
        { unfold pitchedAt. cbn [Nat.div Nat.modulo Nat.divmod fst snd Nat.sub].
          rewrite Nat.add_0_r. cbn [Z.of_nat]. rewrite Z.mul_0_l, Z.add_0_r. exact C1. }
        cbv beta. apply (added_cons m1 m2 m' (S d) _ _ L2); [|exact O2|].
        { unfold pitchedAt. cbn [Nat.div Nat.modulo Nat.divmod fst snd Nat.sub].
          cbn [Z.of_nat]. rewrite Z.mul_0_l, Z.add_0_r.
          rewrite C2. f_equal. f_equal. f_equal. f_equal. rewrite Nat.add_1_r.
          unfold readAt. rewrite (Z.div_small sf) by lia. cbn [Z.to_nat].
          rewrite !O1 by lia. reflexivity. }
        cbv beta. apply (added_ext m2 (S (S d)) (2 * n)
            (pitchedAt m2 (s + 2 * Z.to_nat q) sf1 step v)); [|exact A].
        intros i Hi.
        assert (i / 2 < n)%nat as Hi2 by (apply Nat.div_lt_upper_bound; lia).
        pose proof (Hb (S (i / 2)) (proj1 (Nat.succ_lt_mono _ _) Hi2)) as H1.
        rewrite Hd1 in H1.
        apply (pitchedAt_next m m1 m2 d s sf sf1 q step v e n i); assumption.
Qed.

(* A frame outside the source is not read: the assertion fires. *)
Lemma pitchedLoop_none step v e (Hst : 0 <= step < 2147418112) (Hv : -65535 <= v <= 65536) f :
  forall fuel n m d s sf,
  (d + 2 * n <= length m)%nat -> e <= 2 * Z.of_nat (length m) ->
  sound m -> 0 <= sf < 65536 -> (f < n)%nat ->
  e < 2 * Z.of_nat s + 4 * ((sf + Z.of_nat f * step) / 65536 + 2) ->
  Z.even e = true -> apart s e d (2 * n) ->
  (exists c, e = 2 * Z.of_nat s + 4 * c) ->
  pitchedLoop fuel m (2 * Z.of_nat d) (2 * Z.of_nat (d + 2 * n)) (2 * Z.of_nat s) e sf step v
  = None.
Proof.
  induction f as [|f IH]; intros fuel n m d s sf Hd He Hm Hsf Hf Hb Hev Ha [c Hc];
    (destruct fuel as [|fuel]; [reflexivity|]); cbn [pitchedLoop];
    rewrite (proj2 (Z.ltb_lt _ (2 * Z.of_nat (d + 2 * n)))) by lia.
  - cbn [Z.of_nat] in Hb. rewrite Z.mul_0_l, Z.add_0_r, (Z.div_small sf) in Hb by lia.
    rewrite (proj2 (Z.ltb_ge _ e)) by lia. reflexivity.
  - destruct (Z.ltb_spec (2 * Z.of_nat s + 4) e) as [Hlt|]; [|reflexivity].
    unfold apart in Ha.
    destruct (pitchedStep_ok m d s sf v ltac:(lia) ltac:(lia) Hm Hsf Hv)
      as (m1 & E1 & L1 & C1 & O1 & S1).
    rewrite E1. rewrite !step_addr.
    destruct (pitchedStep_ok m1 (S d) (S s) sf v ltac:(lia) ltac:(lia) S1 Hsf Hv)
      as (m2 & E2 & L2 & C2 & O2 & S2).
    rewrite E2. cbv zeta. rewrite toS32_id by lia.
    set (q := (sf + step) / 65536). set (sf1 := (sf + step) mod 65536).
    assert (0 <= q) as Hq by (unfold q; lia).
    assert (0 <= sf1 < 65536) as Hsf1 by (unfold sf1; lia).
    assert (sf + step = q * 65536 + sf1) as Hdm by (unfold q, sf1; lia).
    clearbody q sf1.
    replace (2 * Z.of_nat d + 4) with (2 * Z.of_nat (S (S d))) by lia.
    replace (2 * Z.of_nat s + 4 * q) with (2 * Z.of_nat (s + 2 * Z.to_nat q)) by lia.
    destruct n as [|n]; [lia|].
    replace (d + 2 * S n)%nat with (S (S d) + 2 * n)%nat by lia.
    assert ((sf + Z.of_nat (S f) * step) / 65536
            = (sf1 + Z.of_nat f * step) / 65536 + q) as Hd1.
    { replace (sf + Z.of_nat (S f) * step)
        with ((sf1 + Z.of_nat f * step) + q * 65536) by lia.
      apply Z.div_add. lia. }
    rewrite Hd1 in Hb. clear Hd1.
    apply IH.
    + lia.
    + rewrite L2, L1. exact He.
    + exact S2.
    + exact Hsf1.
    + lia.
    + rewrite Nat2Z.inj_add, Nat2Z.inj_mul, Z2Nat.id by exact Hq.
      cbn [Z.of_nat Pos.of_succ_nat Pos.succ]. lia.
    + exact Hev.
    + unfold apart. lia.
    + exists (c - q). rewrite Nat2Z.inj_add, Nat2Z.inj_mul, Z2Nat.id by exact Hq.
      cbn [Z.of_nat Pos.of_succ_nat Pos.succ]. lia.
Qed.

Lemma pitched_ok m d s n c sf step v :
  sound m -> (0 < n)%nat -> (d + 2 * n <= length m)%nat -> (s + 2 * c <= length m)%nat ->
  ((s + 2 * c <= d)%nat \/ (d + 2 * n <= s)%nat) ->
  0 <= sf < 65536 -> 0 <= step < 2147418112 -> -65535 <= v <= 65536 ->
  (sf + Z.of_nat (n - 1) * step) / 65536 + 1 < Z.of_nat c ->
  exists m',
    mixPitchedDirect m (2 * Z.of_nat d) (2 * Z.of_nat (d + 2 * n))
                     (2 * Z.of_nat s) (2 * Z.of_nat (s + 2 * c)) sf step v = Some m' /\
    added m d (2 * n) (pitchedAt m s sf step v) m'.
Proof.
  intros Hm Hn Hd Hs Ha Hsf Hst Hv Hb. unfold mixPitchedDirect.
  rewrite toS32_id by lia.
  destruct (pitchedLoop_ok step v (2 * Z.of_nat (s + 2 * c)) Hst Hv n
              (S (length m)) m d s sf) as (m' & E & A); try assumption.
  - lia.
  - lia.
  - unfold apart. lia.
  - intros f Hf.
    assert ((sf + Z.of_nat f * step) / 65536 <= (sf + Z.of_nat (n - 1) * step) / 65536).
    { apply Z.div_le_mono; [lia|]. apply Z.add_le_mono_l.
      apply Z.mul_le_mono_nonneg_r; lia. }
    lia.
  - exists m'. split; [|exact A]. rewrite E.
    assert (sf + Z.of_nat n * step = sf + Z.of_nat (n - 1) * step + step) as Hnext.
    { replace (Z.of_nat n) with (Z.of_nat (n - 1) + 1) by lia.
      rewrite Z.mul_add_distr_r, Z.mul_1_l. lia. }
    rewrite Hnext. clear Hnext E A.
    assert (0 <= sf + Z.of_nat (n - 1) * step) as Hp.
    { apply Z.add_nonneg_nonneg; [lia|]. apply Z.mul_nonneg_nonneg; lia. }
    revert Hp Hb. generalize (sf + Z.of_nat (n - 1) * step) as p. intros p Hp Hb.
    rewrite toS32_id by lia.
    rewrite (proj2 (Z.ltb_lt _ _)) by lia. rewrite (proj2 (Z.leb_le _ _)) by lia.
    reflexivity.
Qed.

Lemma pitched_none m d s n c sf step v :
  sound m -> (0 < n)%nat -> (d + 2 * n <= length m)%nat -> (s + 2 * c <= length m)%nat ->
  ((s + 2 * c <= d)%nat \/ (d + 2 * n <= s)%nat) ->
  0 <= sf < 65536 -> 0 <= step < 2147418112 -> -65535 <= v <= 65536 ->
  Z.of_nat c <= (sf + Z.of_nat (n - 1) * step) / 65536 + 1 ->
  mixPitchedDirect m (2 * Z.of_nat d) (2 * Z.of_nat (d + 2 * n))
                   (2 * Z.of_nat s) (2 * Z.of_nat (s + 2 * c)) sf step v = None.
Proof.
  intros Hm Hn Hd Hs Ha Hsf Hst Hv Hb. unfold mixPitchedDirect.
  rewrite toS32_id by lia.
  rewrite (pitchedLoop_none step v (2 * Z.of_nat (s + 2 * c)) Hst Hv (n - 1)); try assumption.
  - reflexivity.
  - lia.
  - lia.
  - lia.
  - rewrite Z.even_mul. reflexivity.
  - unfold apart. lia.
  - exists (Z.of_nat c). lia.
Qed.

(* No frames at all, from the end of the source. *)
Lemma pitched_empty m d s step v :
  0 < step <= 65536 ->
  mixPitchedDirect m (2 * Z.of_nat d) (2 * Z.of_nat d)
                   (2 * Z.of_nat s) (2 * Z.of_nat s) 0 step v = None.
Proof.
  intros H. unfold mixPitchedDirect. cbn [pitchedLoop].
  rewrite Z.ltb_irrefl. rewrite (toS32_id 0) by lia. rewrite toS32_id by lia.
  rewrite (proj2 (Z.ltb_ge _ _)) by lia. reflexivity.
Qed.

(* Moving by whole frames is the plain leveled mix. *)
Lemma readAt_whole m s f :
  sound m -> readAt m s (Z.of_nat f * 65536) = cell m (s + 2 * f).
Proof.
  intros _. unfold readAt. rewrite Z.div_mul, Z.mod_mul by lia. rewrite Nat2Z.id.
  rewrite Z.sub_0_r, Z.mul_0_r, Z.add_0_r. apply Z.div_mul. lia.
Qed.

Lemma pitched_plain m s v i :
  sound m -> pitchedAt m s 0 65536 v i = cell m (s + i) * v / 65536.
Proof.
  intros Hm. unfold pitchedAt. rewrite Z.add_0_l, readAt_whole by exact Hm.
  f_equal. f_equal. f_equal.
  pose proof (Nat.div_mod i 2 ltac:(lia)). lia.
Qed.

(* Buffers. *)

Lemma subregion_ok m b i n off len :
  buffer_at m b i n -> 0 <= off <= numSamples b -> 0 <= len -> off + len <= numSamples b ->
  exists r, getSubregion b off len = Some r /\ numSamples r = len /\
            sampleRate r = sampleRate b /\ format r = format b /\
            buffer_at m r (i + Z.to_nat (off * numChannels (format b)))
                      (Z.to_nat (len * numChannels (format b))).
Proof.
  intros (H1 & H2 & H3 & H4 & H5 & H6 & H7) Ho Hl Hs. unfold getSubregion.
  rewrite (proj2 (Z.leb_le off (numSamples b))) by lia. cbv zeta.
  rewrite (proj2 (Z.ltb_ge len 0)) by lia.
  assert (numSamples b <= Z.of_nat n) as Hn by nia.
  unfold toU32. rewrite (Z.mod_small (off + len)) by lia.
  rewrite (proj2 (Z.leb_le (off + len) (numSamples b))) by lia.
  set (ch := numChannels (format b)) in *.
  assert (off * ch + len * ch <= Z.of_nat n) as Hfit.
  { rewrite <- Z.mul_add_distr_r, H7. apply Z.mul_le_mono_nonneg_r; lia. }
  assert (0 <= off * ch) as P1 by (apply Z.mul_nonneg_nonneg; lia).
  assert (0 <= len * ch) as P2 by (apply Z.mul_nonneg_nonneg; lia).
  eexists. split; [reflexivity|]. cbn [numSamples sampleRate format].
  split; [reflexivity|]. split; [reflexivity|]. split; [reflexivity|].
  unfold buffer_at. cbn [numSamples sampleRate format samples]. fold ch.
  rewrite Nat2Z.inj_add, !Z2Nat.id by assumption.
  rewrite H6. replace (off * (2 * ch)) with (2 * (off * ch)) by lia.
  rewrite Z.mod_small by lia.
  split; [lia|]. split; [lia|]. split; [lia|]. split; [exact H4|].
  split; [exact H5|]. split; [reflexivity|]. reflexivity.
Qed.

Lemma subregion_refused m b i n off len :
  buffer_at m b i n -> 0 <= off -> 0 <= len < 2147483648 -> numSamples b < off + len ->
  getSubregion b off len = None.
Proof.
  intros (H1 & H2 & H3 & H4 & H5 & H6 & H7) Ho Hl Hs. unfold getSubregion.
  destruct (Z.leb_spec off (numSamples b)) as [H|H]; [|reflexivity]. cbv zeta.
  rewrite (proj2 (Z.ltb_ge len 0)) by lia.
  assert (0 <= numSamples b) as Hp by nia.
  assert (numSamples b <= Z.of_nat n) as Hn by nia.
  unfold toU32. rewrite (Z.mod_small (off + len)) by lia.
  rewrite (proj2 (Z.leb_gt (off + len) (numSamples b))) by lia. reflexivity.
Qed.

Lemma subregion_rest m b i n off len :
  buffer_at m b i n -> 0 <= off <= numSamples b -> len < 0 ->
  getSubregion b off len = getSubregion b off (numSamples b - off).
Proof.
  intros (H1 & H2 & H3 & H4 & H5 & H6 & H7) Ho Hl. unfold getSubregion.
  rewrite (proj2 (Z.leb_le off (numSamples b))) by lia. cbv zeta.
  rewrite (proj2 (Z.ltb_lt len 0)) by lia.
  rewrite (proj2 (Z.ltb_ge (numSamples b - off) 0)) by lia.
  assert (numSamples b <= Z.of_nat n) as Hn by nia.
  unfold toU32. rewrite (Z.mod_small (off + (numSamples b - off))) by lia.
  rewrite (proj2 (Z.leb_le _ (numSamples b))) by lia. reflexivity.
Qed.

(* memset *)
Lemma zeroLoop_ok k : forall fuel m d,
  (k < fuel)%nat -> (d + k <= length m)%nat ->
  exists m', zeroLoop fuel m (2 * Z.of_nat d) (2 * Z.of_nat (d + k)) = Some m' /\
    length m' = length m /\
    (forall i, (i < k)%nat -> cell m' (d + i) = 0) /\
    (forall j, ((j < d)%nat \/ (d + k <= j)%nat) -> cell m' j = cell m j).
Proof.
  induction k as [|k IH]; intros fuel m d Hf Hd; (destruct fuel as [|fuel]; [lia|]);
    cbn [zeroLoop].
  - rewrite (proj2 (Z.ltb_ge _ _)) by lia. exists m. split; [reflexivity|].
    split; [reflexivity|]. split; [intros; lia|reflexivity].
  - rewrite (proj2 (Z.ltb_lt _ _)) by lia.
    destruct (store_ok m d 0 ltac:(lia)) as (m1 & E & L & C & O & _).
    rewrite E, step_addr. replace (d + S k)%nat with (S d + k)%nat by lia.
    destruct (IH fuel m1 (S d) ltac:(lia) ltac:(lia)) as (m' & E' & L' & A & F).
    exists m'. split; [exact E'|]. split; [congruence|]. split.
    + intros [|i] Hi.
      * rewrite Nat.add_0_r, F by lia. exact C.
      * replace (d + S i)%nat with (S d + i)%nat by lia. apply A. lia.
    + intros j Hj. rewrite F by lia. apply O. lia.
Qed.

Lemma zero_ok m b i n :
  buffer_at m b i n ->
  exists m', zero m b = Some m' /\ length m' = length m /\
    (forall k, (k < n)%nat -> cell m' (i + k) = 0) /\
    (forall j, ((j < i)%nat \/ (i + n <= j)%nat) -> cell m' j = cell m j).
Proof.
  intros Hb. unfold zero. rewrite (end_at _ _ _ _ Hb).
  destruct Hb as (H1 & H2 & _). rewrite H1. apply zeroLoop_ok; lia.
Qed.

Lemma buffer_at_len m m' b i n :
  length m' = length m -> buffer_at m b i n -> buffer_at m' b i n.
Proof. unfold buffer_at. intros ->. auto. Qed.

(* Mixing in two blocks is mixing at once. *)
Lemma mix_blocks m d s i j n off d1 s1 d2 s2 m1 m2 :
  sound m -> buffer_at m d i n -> buffer_at m s j n -> alike d s -> readable j i n ->
  0 <= off <= numSamples d ->
  getSubregion d 0 off = Some d1 -> getSubregion s 0 off = Some s1 ->
  getSubregion d off (-1) = Some d2 -> getSubregion s off (-1) = Some s2 ->
  mix m d1 s1 = Some m1 -> mix m1 d2 s2 = Some m2 ->
  mix m d s = Some m2.
Proof.
  intros Hm Hd Hs (A1 & A2 & A3) R Ho D1 S1 D2 S2 M1 M2.
  rewrite (subregion_rest m d i n off (-1) Hd Ho ltac:(lia)) in D2.
  rewrite (subregion_rest m s j n off (-1) Hs ltac:(lia) ltac:(lia)) in S2.
  destruct (subregion_ok m d i n 0 off Hd ltac:(lia) ltac:(lia) ltac:(lia))
    as (x & E & X1 & X2 & X3 & BD1). rewrite E in D1. injection D1 as ->.
  destruct (subregion_ok m s j n 0 off Hs ltac:(lia) ltac:(lia) ltac:(lia))
    as (y & E' & Y1 & Y2 & Y3 & BS1). rewrite E' in S1. injection S1 as ->.
  destruct (subregion_ok m d i n off (numSamples d - off) Hd Ho ltac:(lia) ltac:(lia))
    as (x & E'' & X1' & X2' & X3' & BD2). rewrite E'' in D2. injection D2 as ->.
  destruct (subregion_ok m s j n off (numSamples s - off) Hs ltac:(lia) ltac:(lia) ltac:(lia))
    as (y & E''' & Y1' & Y2' & Y3' & BS2). rewrite E''' in S2. injection S2 as ->.
  rewrite <- A3 in BS1, BS2. rewrite <- A1 in BS2.
  set (ch := numChannels (format d)) in *.
  pose proof Hd as (_ & L1 & L2 & _ & Hch & _ & Hn). fold ch in Hch, Hn.
  assert (0 <= off * ch) as Q1 by (apply Z.mul_nonneg_nonneg; lia).
  assert (0 <= (numSamples d - off) * ch) as Q2 by (apply Z.mul_nonneg_nonneg; lia).
  set (a := Z.to_nat (off * ch)) in *. set (b := Z.to_nat ((numSamples d - off) * ch)) in *.
  assert (n = a + b)%nat as Hab.
  { unfold a, b. rewrite <- Z2Nat.inj_add by assumption. rewrite <- (Nat2Z.id n). f_equal. lia. }
  replace (i + Z.to_nat (0 * ch))%nat with i in BD1 by (rewrite Z.mul_0_l; cbn; lia).
  replace (j + Z.to_nat (0 * ch))%nat with j in BS1 by (rewrite Z.mul_0_l; cbn; lia).
  clearbody a b. unfold readable in R.
  destruct (mix_ok m d1 s1 i j a Hm BD1 BS1) as (m1' & F1 & G1).
  { split; [congruence|]. split; congruence. }
  { unfold readable. lia. }
  rewrite F1 in M1. injection M1 as ->.
  pose proof (added_sound _ _ _ _ _ Hm G1) as Sm1.
  pose proof (proj1 G1) as Len1.
  destruct (mix_ok m1 d2 s2 (i + a) (j + a) b Sm1
              (buffer_at_len _ _ _ _ _ Len1 BD2) (buffer_at_len _ _ _ _ _ Len1 BS2))
    as (m2' & F2 & G2).
  { split; [congruence|]. split; congruence. }
  { unfold readable. lia. }
  rewrite F2 in M2. injection M2 as ->.
  destruct (mix_ok m d s i j n Hm Hd Hs) as (m3 & F3 & G3).
  { split; [exact A1|]. split; assumption. }
  { exact R. }
  rewrite F3. f_equal. subst n.
  apply (added_unique _ _ _ _ _ _ G3).
  apply (added_app m m1 m2 i a b _ G1).
  apply (added_ext m1 (i + a) b (fun k => cell m1 (j + a + k))); [|exact G2].
  intros k Hk. destruct G1 as (_ & _ & Fr). rewrite Fr by lia. f_equal. lia.
Qed.

(* Formats. *)
Lemma encode_stride c t :
  0 <= c <= 255 ->
  encode c t = mkFormat c t (match t with S16 => 2 | Float => 4 end * c).
Proof.
  intros H. unfold encode. destruct t; cbn [sampleTypeToStride]; rewrite Z.mod_small by lia; reflexivity.
Qed.
