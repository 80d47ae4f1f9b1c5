(* C87: sound buffers are mixed sample by sample. *)
From Verif Require Import Base AudioModel AudioSpec AudioProofs AudioMore.

(** Adding two samples gives the sum when a sample can hold it, and otherwise the nearest value a sample can hold. *)
Theorem C87_saturating : forall a b, is_s16 a -> is_s16 b ->
  is_s16 (saturatingAdd a b) /\ (is_s16 (a + b) -> saturatingAdd a b = a + b) /\
  (32767 < a + b -> saturatingAdd a b = 32767) /\ (a + b < -32768 -> saturatingAdd a b = -32768).
Proof.
  intros a b _ _. rewrite saturating_clamp. split; [apply clamp16_range|].
  unfold is_s16, clamp16. split; [|split]; intros; lia.
Qed.
Print Assumptions C87_saturating.

Definition exMem : mem := [1; -2; 30000; -30000; 5; 6; 10; 20; 30000; -30000; 7; 8].
Definition exD : Buffer := mkBuffer 0 2 44100 StereoS16.
Definition exS : Buffer := mkBuffer 12 2 44100 StereoS16.

Ltac at_ex := unfold buffer_at; repeat split; cbn; lia.

Lemma exMem_sound : sound exMem.
Proof. unfold sound, exMem, is_s16. repeat (constructor; [lia|]). constructor. Qed.
Lemma exD_at : buffer_at exMem exD 0 4.
Proof. at_ex. Qed.
Lemma exS_at : buffer_at exMem exS 6 4.
Proof. at_ex. Qed.
Lemma ex_alike : alike exD exS.
Proof. unfold alike. cbn. auto. Qed.

(** Mixing adds each sample of the source to the one at the same place in the destination, and changes nothing else,
    for buffers of any length and number of channels, wherever they lie, as long as no sample is read after it was
    written. *)
Theorem C87_mix : forall m d s i j n,
  sound m -> buffer_at m d i n -> buffer_at m s j n -> alike d s -> readable j i n ->
  exists m', mix m d s = Some m' /\ added m i n (fun k => cell m (j + k)) m'.
Proof. exact mix_ok. Qed.
Print Assumptions C87_mix.

Example C87_mix_ex : sound exMem /\ buffer_at exMem exD 0 4 /\ buffer_at exMem exS 6 4 /\ alike exD exS /\ readable 6 0 4 /\
  mix exMem exD exS = Some [11; 18; 32767; -32768; 5; 6; 10; 20; 30000; -30000; 7; 8].
Proof.
  split; [exact exMem_sound|]. split; [exact exD_at|]. split; [exact exS_at|]. split; [exact ex_alike|].
  split; [left; lia|reflexivity].
Qed.

(** Buffers of different lengths, rates or formats, or that do not hold 16-bit samples, are refused. *)
Theorem C87_mix_refused : forall m d s l,
  ~ (alike d s /\ sampleType (format d) = S16) -> mix m d s = None /\ mixLeveled m d s l = None.
Proof.
  intros m d s l H. unfold mix, mixLeveled. destruct (mixAsserts d s) eqn:E; [|auto].
  exfalso. apply H. apply mixAsserts_inv. exact E.
Qed.
Print Assumptions C87_mix_refused.

Example C87_mix_refused_ex : ~ (alike exD (mkBuffer 12 1 44100 StereoS16) /\ sampleType (format exD) = S16).
Proof. intros [(H & _) _]. discriminate H. Qed.

(** A sound can be mixed a block at a time: the two parts one after the other give what the whole gives. *)
Theorem C87_blocks : forall m d s i j n off d1 s1 d2 s2 m1 m2,
  sound m -> buffer_at m d i n -> buffer_at m s j n -> alike d s -> readable j i n ->
  0 <= off <= numSamples d ->
  getSubregion d 0 off = Some d1 -> getSubregion s 0 off = Some s1 ->
  getSubregion d off (-1) = Some d2 -> getSubregion s off (-1) = Some s2 ->
  mix m d1 s1 = Some m1 -> mix m1 d2 s2 = Some m2 ->
  mix m d s = Some m2.
Proof. exact mix_blocks. Qed.
Print Assumptions C87_blocks.

Example C87_blocks_ex : exists d1 s1 d2 s2 m1 m2,
  getSubregion exD 0 1 = Some d1 /\ getSubregion exS 0 1 = Some s1 /\
  getSubregion exD 1 (-1) = Some d2 /\ getSubregion exS 1 (-1) = Some s2 /\
  mix exMem d1 s1 = Some m1 /\ mix m1 d2 s2 = Some m2 /\ m1 <> m2.
Proof. repeat eexists; try reflexivity. discriminate. Qed.

(** The order in which two sounds are mixed does not matter while no sum goes out of range. *)
Theorem C87_order_partial : forall m d s t i j k n m1 m2 m3 m4,
  sound m -> buffer_at m d i n -> buffer_at m s j n -> buffer_at m t k n -> alike d s -> alike d t ->
  ((j + n <= i)%nat \/ (i + n <= j)%nat) -> ((k + n <= i)%nat \/ (i + n <= k)%nat) ->
  (forall x, (x < n)%nat -> is_s16 (cell m (i + x) + cell m (j + x)) /\ is_s16 (cell m (i + x) + cell m (k + x))) ->
  mix m d s = Some m1 -> mix m1 d t = Some m2 -> mix m d t = Some m3 -> mix m3 d s = Some m4 ->
  m2 = m4.
Proof.
  intros m d s t i j k n m1 m2 m3 m4 Hm Hd Hs Ht As At Dj Dk Hr E1 E2 E3 E4.
  assert (R1 : readable j i n) by (unfold readable; lia).
  assert (R2 : readable k i n) by (unfold readable; lia).
  destruct (mix_ok m d s i j n Hm Hd Hs As R1) as (x & X & A1). rewrite E1 in X. injection X as <-.
  destruct (mix_ok m d t i k n Hm Hd Ht At R2) as (x & X & A3). rewrite E3 in X. injection X as <-.
  pose proof (added_sound _ _ _ _ _ Hm A1) as S1. pose proof (added_sound _ _ _ _ _ Hm A3) as S3.
  pose proof (proj1 A1) as L1. pose proof (proj1 A3) as L3.
  destruct (mix_ok m1 d t i k n S1 (buffer_at_len _ _ _ _ _ L1 Hd) (buffer_at_len _ _ _ _ _ L1 Ht) At R2)
    as (x & X & A2). rewrite E2 in X. injection X as <-.
  destruct (mix_ok m3 d s i j n S3 (buffer_at_len _ _ _ _ _ L3 Hd) (buffer_at_len _ _ _ _ _ L3 Hs) As R1)
    as (x & X & A4). rewrite E4 in X. injection X as <-.
  apply (added_unique m i n (fun x => cell m (j + x) + cell m (k + x))).
  - destruct A1 as (_ & P1 & F1). destruct A2 as (L2 & P2 & F2). split; [congruence|]. split.
    + intros y Hy. rewrite P2, P1, (F1 (k + y)%nat) by lia. destruct (Hr y Hy) as [B1 B2].
      unfold is_s16 in *. unfold clamp16. lia.
    + intros y Hy. rewrite F2, F1 by lia. reflexivity.
  - destruct A3 as (_ & P1 & F1). destruct A4 as (L2 & P2 & F2). split; [congruence|]. split.
    + intros y Hy. rewrite P2, P1, (F1 (j + y)%nat) by lia. destruct (Hr y Hy) as [B1 B2].
      unfold is_s16 in *. unfold clamp16. lia.
    + intros y Hy. rewrite F2, F1 by lia. reflexivity.
Qed.
Print Assumptions C87_order_partial.

Example C87_order_ex : exists m1 m2 m3, mix [1; 2; 3] (mkBuffer 0 1 8 MonoS16) (mkBuffer 2 1 8 MonoS16) = Some m1 /\
  mix m1 (mkBuffer 0 1 8 MonoS16) (mkBuffer 4 1 8 MonoS16) = Some m2 /\
  mix [1; 2; 3] (mkBuffer 0 1 8 MonoS16) (mkBuffer 4 1 8 MonoS16) = Some m3 /\
  mix m3 (mkBuffer 0 1 8 MonoS16) (mkBuffer 2 1 8 MonoS16) = Some m2 /\ cell m2 0 = 6.
Proof. repeat eexists; reflexivity. Qed.

(** When a sum does go out of range, the order shows. *)
Theorem C87_order_refuted : ~ (forall m d s t m1 m2 m3 m4,
  sound m -> alike d s -> alike d t -> buffer_at m d 0 1 -> buffer_at m s 1 1 -> buffer_at m t 2 1 ->
  mix m d s = Some m1 -> mix m1 d t = Some m2 -> mix m d t = Some m3 -> mix m3 d s = Some m4 -> m2 = m4).
Proof.
  intros H.
  pose (d := mkBuffer 0 1 8 MonoS16). pose (s := mkBuffer 2 1 8 MonoS16). pose (t := mkBuffer 4 1 8 MonoS16).
  specialize (H [20000; 20000; -20000] d s t [32767; 20000; -20000] [12767; 20000; -20000] [0; 20000; -20000] [20000; 20000; -20000]).
  assert (X : [12767; 20000; -20000] = [20000; 20000; -20000]); [|discriminate X].
  apply H; try reflexivity.
  - unfold sound, is_s16. repeat (constructor; [lia|]). constructor.
  - unfold alike. cbn. auto.
  - unfold alike. cbn. auto.
  - at_ex.
  - at_ex.
  - at_ex.
Qed.
Print Assumptions C87_order_refuted.

(** Mixing at a level, in 65536ths, adds that much of each sample, rounded down. It is defined exactly when each product
    fits a signed 32-bit number. *)
Theorem C87_leveled : forall m d s i j n l,
  sound m -> buffer_at m d i n -> buffer_at m s j n -> alike d s -> readable j i n ->
  (mixLeveled m d s l <> None <->
     forall k, (k < n)%nat -> -2147483648 <= cell m (j + k) * l <= 2147483647) /\
  (forall m', mixLeveled m d s l = Some m' -> added m i n (fun k => cell m (j + k) * l / 65536) m').
Proof.
  intros m d s i j n l Hm Hd Hs Ha R.
  pose proof (mixLeveled_defined m d s i j n l Hm Hd Hs Ha R) as D. split; [exact D|].
  intros m' E. assert (N : mixLeveled m d s l <> None) by congruence.
  destruct (mixLeveled_ok m d s i j n l Hm Hd Hs Ha R (proj1 D N)) as (x & X & A).
  rewrite E in X. injection X as <-. exact A.
Qed.
Print Assumptions C87_leveled.

Example C87_leveled_ex : mixLeveled exMem exD exS (-32768) = Some [-4; -12; 15000; -15000; 5; 6; 10; 20; 30000; -30000; 7; 8] /\
  mixLeveled exMem exD exS 131072 = None.
Proof. split; reflexivity. Qed.

(** Levels from just above -1 up to 1 are defined for every sound; every other level is undefined for some sample. *)
Theorem C87_levels : forall l,
  (-65535 <= l <= 65536 <-> forall y, is_s16 y -> -2147483648 <= y * l <= 2147483647).
Proof.
  intros l. split.
  - intros H y Hy. apply product_fits; assumption.
  - intros H. pose proof (H (-32768) ltac:(unfold is_s16; lia)). lia.
Qed.
Print Assumptions C87_levels.

(** At the full level, mixing at a level is mixing; at level 0 it changes nothing. *)
Theorem C87_level_ends : forall m d s i j n,
  sound m -> buffer_at m d i n -> buffer_at m s j n -> alike d s -> readable j i n ->
  mixLeveled m d s 65536 = mix m d s /\ mixLeveled m d s 0 = Some m.
Proof.
  intros m d s i j n Hm Hd Hs Ha R.
  assert (P : forall l, -65535 <= l <= 65536 -> forall k, (k < n)%nat -> -2147483648 <= cell m (j + k) * l <= 2147483647).
  { intros l Hl k _. apply product_fits; [apply sound_cell; exact Hm|exact Hl]. }
  split.
  - destruct (mixLeveled_ok m d s i j n 65536 Hm Hd Hs Ha R (P 65536 ltac:(lia))) as (x & X & A).
    destruct (mix_ok m d s i j n Hm Hd Hs Ha R) as (y & Y & B). rewrite X, Y. f_equal.
    apply (added_unique m i n (fun k => cell m (j + k))); [|exact B].
    revert A. apply added_ext. intros k _. apply Z.div_mul. lia.
  - destruct (mixLeveled_ok m d s i j n 0 Hm Hd Hs Ha R (P 0 ltac:(lia))) as (x & X & A). rewrite X. f_equal.
    apply (added_zero m i n x Hm). revert A. apply added_ext. intros k _. rewrite Z.mul_0_r. reflexivity.
Qed.
Print Assumptions C87_level_ends.

Example C87_level_ends_ex : mixLeveled exMem exD exS 65536 = Some [11; 18; 32767; -32768; 5; 6; 10; 20; 30000; -30000; 7; 8].
Proof. reflexivity. Qed.

(** A ramp: the level, in 2^30ths, starts at [l] and goes up by [st] with each frame. As long as it stays between 0 and 1,
    each sample of a frame is added at the frame's level; negative samples too, although the product is unsigned. *)
Theorem C87_ramp : forall m d s i j n l st,
  sound m -> buffer_at m d i (2 * n) -> buffer_at m s j (2 * n) -> alike d s ->
  format d = StereoS16 -> readable j i (2 * n) -> 0 <= l < 4294967296 ->
  (forall f, (f < n)%nat -> 0 <= l + Z.of_nat f * st <= 1073741824) ->
  exists m', mixDynLevel m d s l st = Some m' /\
    added m i (2 * n) (fun k => cell m (j + k) * ((l + Z.of_nat (k / 2) * st) / 16384) / 65536) m'.
Proof. exact mixDyn_exact. Qed.
Print Assumptions C87_ramp.

Example C87_ramp_ex : mixDynLevel exMem exD exS 1073741824 (-536870912) =
  Some [11; 18; 32767; -32768; 5; 6; 10; 20; 30000; -30000; 7; 8] /\
  mixDynLevel [0; 0; 0; 0; 10; -10; 10; -10] (mkBuffer 0 2 1 StereoS16) (mkBuffer 8 2 1 StereoS16) 1073741824 (-536870912)
  = Some [10; -10; 5; -5; 10; -10; 10; -10].
Proof. split; reflexivity. Qed.

(** Above 1 the addition is not what the level asks for: at twice the level, every sample from 16384 up is added as a negative
    one. Unlike in the leveled mix this is defined behaviour, and wrong. *)
Theorem C87_ramp_refuted : forall x y, is_s16 x -> 16384 <= y <= 32767 ->
  exists m', mixDynLevel [x; 0; y; 0] (mkBuffer 0 1 8 StereoS16) (mkBuffer 4 1 8 StereoS16) 2147483648 0 = Some m' /\
  cell m' 0 = clamp16 (x + (2 * y - 65536)) /\ (0 <= x -> cell m' 0 < clamp16 (x + 2 * y)).
Proof.
  intros x y Hx Hy.
  destruct (mixDyn_ok [x; 0; y; 0] (mkBuffer 0 1 8 StereoS16) (mkBuffer 4 1 8 StereoS16) 0 2 1 2147483648 0)
    as (m' & E & A).
  - unfold sound, is_s16 in *. repeat (constructor; [lia|]). constructor.
  - at_ex.
  - at_ex.
  - unfold alike. cbn. auto.
  - reflexivity.
  - left. lia.
  - lia.
  - exists m'. split; [exact E|]. destruct A as (_ & A & _). specialize (A O ltac:(lia)).
    unfold cell in A at 2 3. cbn [nth Nat.add Nat.div Nat.divmod fst] in A.
    replace (rampLevel 2147483648 0 0) with 2147483648 in A by reflexivity.
    rewrite dyn_wraps in A. change (2147483648 / 16384) with 131072 in A.
    replace (y * 131072 / 65536) with (2 * y) in A by (replace (y * 131072) with ((2 * y) * 65536) by lia; rewrite Z.div_mul by lia; reflexivity).
    assert (T : toS16 (2 * y) = 2 * y - 65536).
    { unfold toS16. replace (2 * y + 32768) with (2 * y - 32768 + 1 * 65536) by lia.
      rewrite Z_mod_plus_full, Z.mod_small by lia. lia. }
    rewrite T in A. cbn [Nat.add] in A. split; [exact A|]. intros H0. rewrite A. unfold is_s16 in Hx. unfold clamp16. lia.
Qed.
Print Assumptions C87_ramp_refuted.

(** Resampling: the [f]-th frame is read at the position [sf + f * step], in 65536ths of a frame, between the two frames
    around it, and added at the given volume; when the last one lies inside the source, no assertion fires, and nothing but
    the destination changes. *)
Theorem C87_pitched : forall m d s n c sf step v,
  sound m -> (0 < n)%nat -> (d + 2 * n <= List.length m)%nat -> (s + 2 * c <= List.length m)%nat ->
  ((s + 2 * c <= d)%nat \/ (d + 2 * n <= s)%nat) ->
  0 <= sf < 65536 -> 0 <= step < 2147418112 -> -65535 <= v <= 65536 ->
  (sf + Z.of_nat (n - 1) * step) / 65536 + 1 < Z.of_nat c ->
  exists m',
    mixPitchedDirect m (2 * Z.of_nat d) (2 * Z.of_nat (d + 2 * n)) (2 * Z.of_nat s) (2 * Z.of_nat (s + 2 * c)) sf step v
      = Some m' /\
    added m d (2 * n) (pitchedAt m s sf step v) m'.
Proof. exact pitched_ok. Qed.
Print Assumptions C87_pitched.

Example C87_pitched_ex : (32768 + Z.of_nat (2 - 1) * 98304) / 65536 + 1 < Z.of_nat 4 /\
  mixPitchedDirect [0; 0; 0; 0; 10; 100; 20; 200; 30; 300; 40; 400] 0 8 8 24 32768 98304 65536
  = Some [15; 150; 30; 300; 10; 100; 20; 200; 30; 300; 40; 400].
Proof. split; reflexivity. Qed.

(** And when it does not lie inside the source, an assertion fires: nothing is read past the end. *)
Theorem C87_pitched_end : forall m d s n c sf step v,
  sound m -> (0 < n)%nat -> (d + 2 * n <= List.length m)%nat -> (s + 2 * c <= List.length m)%nat ->
  ((s + 2 * c <= d)%nat \/ (d + 2 * n <= s)%nat) ->
  0 <= sf < 65536 -> 0 <= step < 2147418112 -> -65535 <= v <= 65536 ->
  Z.of_nat c <= (sf + Z.of_nat (n - 1) * step) / 65536 + 1 ->
  mixPitchedDirect m (2 * Z.of_nat d) (2 * Z.of_nat (d + 2 * n)) (2 * Z.of_nat s) (2 * Z.of_nat (s + 2 * c)) sf step v = None.
Proof. exact pitched_none. Qed.
Print Assumptions C87_pitched_end.

Example C87_pitched_end_ex : Z.of_nat 2 <= (32768 + Z.of_nat (2 - 1) * 32768) / 65536 + 1 /\
  mixPitchedDirect [0; 0; 0; 0; 10; 100; 20; 200] 0 8 8 16 32768 32768 65536 = None.
Proof. split; [cbn; lia|reflexivity]. Qed.

(** At the pitch of the source, resampling from its beginning is mixing at a level. *)
Theorem C87_pitched_plain : forall m d s i j n c v b1 b2,
  sound m -> (0 < n)%nat -> (n < c)%nat -> buffer_at m d i (2 * n) -> buffer_at m s j (2 * n) -> alike d s ->
  (j + 2 * c <= List.length m)%nat -> ((j + 2 * c <= i)%nat \/ (i + 2 * n <= j)%nat) -> -65535 <= v <= 65536 ->
  mixPitchedDirect m (samples d) (getEndPtr d) (samples s) (samples s + 4 * Z.of_nat c) 0 65536 v = b1 ->
  mixLeveled m d s v = b2 -> b1 = b2 /\ b1 <> None.
Proof.
  intros m d s i j n c v b1 b2 Hm Hn Hc Hd Hs Ha Hl Dj Hv <- <-.
  rewrite (end_at _ _ _ _ Hd). pose proof Hd as (D1 & D2 & _). pose proof Hs as (S1 & S2 & _). rewrite D1, S1.
  replace (2 * Z.of_nat j + 4 * Z.of_nat c) with (2 * Z.of_nat (j + 2 * c)) by lia.
  destruct (pitched_ok m i j n c 0 65536 v Hm Hn) as (x & X & A); try assumption; try lia.
  destruct (mixLeveled_ok m d s i j (2 * n) v Hm Hd Hs Ha) as (y & Y & B).
  { unfold readable. lia. }
  { intros k _. apply product_fits; [apply sound_cell; exact Hm|exact Hv]. }
  rewrite X, Y. split; [|discriminate]. f_equal.
  apply (added_unique m i (2 * n) (fun k => cell m (j + k) * v / 65536)); [|exact B].
  revert A. apply added_ext. intros k _. apply pitched_plain. exact Hm.
Qed.
Print Assumptions C87_pitched_plain.

Example C87_pitched_plain_ex : mixPitchedDirect exMem 0 8 12 24 0 65536 32768 = mixLeveled exMem exD exS 32768 /\
  mixLeveled exMem exD exS 32768 = Some [6; 8; 32767; -32768; 5; 6; 10; 20; 30000; -30000; 7; 8].
Proof. split; reflexivity. Qed.

(** Mixing no frames is not always accepted: from the end of a sound, the check after the loop fails, in any memory. *)
Theorem C87_pitched_empty_refuted : forall m d s step v, 0 < step <= 65536 ->
  mixPitchedDirect m (2 * Z.of_nat d) (2 * Z.of_nat d) (2 * Z.of_nat s) (2 * Z.of_nat s) 0 step v = None.
Proof. exact pitched_empty. Qed.
Print Assumptions C87_pitched_empty_refuted.

(** Parts of a buffer: accepted when they lie inside it, and then they are those samples, with the same rate and format;
    a negative length asks for all the rest. *)
Theorem C87_subregion : forall m b i n off len,
  buffer_at m b i n -> 0 <= off <= numSamples b -> -2147483648 <= len < 2147483648 ->
  let want := if len <? 0 then numSamples b - off else len in
  if off + want <=? numSamples b
  then exists r, getSubregion b off len = Some r /\ numSamples r = want /\ sampleRate r = sampleRate b /\ format r = format b /\
         buffer_at m r (i + Z.to_nat (off * numChannels (format b))) (Z.to_nat (want * numChannels (format b)))
  else getSubregion b off len = None.
Proof.
  intros m b i n off len Hb Ho Hl want. unfold want. destruct (Z.ltb_spec len 0) as [N|N].
  - rewrite (proj2 (Z.leb_le _ _)) by lia. rewrite (subregion_rest m b i n off len Hb Ho N).
    apply subregion_ok with (n := n); try assumption; lia.
  - destruct (Z.leb_spec (off + len) (numSamples b)) as [L|L].
    + apply subregion_ok with (n := n); assumption.
    + apply (subregion_refused m b i n off len Hb); lia.
Qed.
Print Assumptions C87_subregion.

Example C87_subregion_ex : getSubregion exS 1 (-1) = Some (mkBuffer 16 1 44100 StereoS16) /\ getSubregion exS 1 2 = None.
Proof. split; reflexivity. Qed.

(** Zeroing makes each sample of the buffer 0 and changes nothing else. *)
Theorem C87_zero : forall m b i n, buffer_at m b i n ->
  exists m', zero m b = Some m' /\ List.length m' = List.length m /\
    (forall k, (k < n)%nat -> cell m' (i + k) = 0) /\
    (forall j, ((j < i)%nat \/ (i + n <= j)%nat) -> cell m' j = cell m j).
Proof. exact zero_ok. Qed.
Print Assumptions C87_zero.

Example C87_zero_ex : zero exMem exD = Some [0; 0; 0; 0; 5; 6; 10; 20; 30000; -30000; 7; 8].
Proof. reflexivity. Qed.

(** The stride of a format is the size of its samples times the number of channels, for every number of channels, and
    after loading too; equal formats are equal in every field. *)
Theorem C87_format : forall c t f,
  0 <= c <= 255 ->
  encode c t = mkFormat c t (match t with S16 => 2 | Float => 4 end * c) /\
  (numChannels f = c -> sampleType f = t -> onPostSerialize f = encode c t) /\
  (forall a b, formatEq a b = true <-> a = b).
Proof.
  intros c t f H. split; [apply encode_stride; exact H|]. split.
  - intros <- <-. reflexivity.
  - exact formatEq_iff.
Qed.
Print Assumptions C87_format.

Example C87_format_ex : encode 2 S16 = StereoS16 /\ encode 255 Float = mkFormat 255 Float 1020.
Proof. split; reflexivity. Qed.
