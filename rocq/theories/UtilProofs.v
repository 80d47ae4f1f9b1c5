From Verif Require Import UtilSpec UtilModel.
From Coq Require Import ZifyBool ZifyNat.
Ltac Zify.zify_post_hook ::= Z.div_mod_to_equations.

(** ** Bounds and bits *)
Lemma testbit_high x n i : 0 <= x < 2 ^ n -> n <= i -> Z.testbit x i = false.
Proof.
  intros Hx Hi. destruct (Z.eq_dec x 0) as [->|Hne]; [apply Z.bits_0|].
  apply Z.bits_above_log2; [lia|].
  assert (0 <= n) by (destruct (Z.lt_ge_cases n 0); [rewrite Z.pow_neg_r in Hx by lia; lia|lia]).
  apply Z.log2_lt_pow2; [lia|]. apply Z.lt_le_trans with (2 ^ n); [lia|].
  apply Z.pow_le_mono_r; lia.
Qed.

Lemma bits_bound x n : 0 <= n -> 0 <= x -> (forall i, n <= i -> Z.testbit x i = false) -> x < 2 ^ n.
Proof.
  intros Hn Hx H. destruct (Z.eq_dec x 0) as [->|Hne]; [apply Z.pow_pos_nonneg; lia|].
  apply Z.log2_lt_pow2; [lia|].
  destruct (Z.lt_ge_cases (Z.log2 x) n); [assumption|].
  pose proof (Z.bit_log2 x ltac:(lia)) as E. rewrite H in E by assumption. discriminate.
Qed.

Lemma lxor_bound x y n : 0 <= n -> 0 <= x < 2 ^ n -> 0 <= y < 2 ^ n -> 0 <= Z.lxor x y < 2 ^ n.
Proof.
  intros Hn Hx Hy. assert (0 <= Z.lxor x y) by (apply Z.lxor_nonneg; lia). split; [assumption|].
  apply bits_bound; [lia|assumption|]. intros i Hi. rewrite Z.lxor_spec.
  rewrite !(testbit_high _ n i) by assumption. reflexivity.
Qed.

Lemma lor_bound x y n : 0 <= n -> 0 <= x < 2 ^ n -> 0 <= y < 2 ^ n -> 0 <= Z.lor x y < 2 ^ n.
Proof.
  intros Hn Hx Hy. assert (0 <= Z.lor x y) by (apply Z.lor_nonneg; lia). split; [assumption|].
  apply bits_bound; [lia|assumption|]. intros i Hi. rewrite Z.lor_spec.
  rewrite !(testbit_high _ n i) by assumption. reflexivity.
Qed.

Lemma shiftr_bound x k n : 0 <= k -> 0 <= x < 2 ^ n -> 0 <= Z.shiftr x k < 2 ^ n.
Proof.
  intros Hk Hx. rewrite Z.shiftr_div_pow2 by lia.
  assert (0 < 2 ^ k) by (apply Z.pow_pos_nonneg; lia). split.
  - apply Z.div_pos; lia.
  - apply Z.le_lt_trans with x; [|lia]. apply Z.div_le_upper_bound; [lia|]. nia.
Qed.

Lemma shiftr_small x k n : 0 <= n <= k -> 0 <= x < 2 ^ n -> Z.shiftr x k = 0.
Proof.
  intros Hk Hx. rewrite Z.shiftr_div_pow2 by lia. apply Z.div_small. split; [lia|].
  apply Z.lt_le_trans with (2 ^ n); [lia|]. apply Z.pow_le_mono_r; lia.
Qed.

(** ** Avalanche *)
Lemma xorshr_bound k n h : 0 <= k -> 0 <= n -> 0 <= h < 2 ^ n -> 0 <= xorshr k h < 2 ^ n.
Proof. intros. apply lxor_bound; [lia|assumption|apply shiftr_bound; assumption]. Qed.

Lemma shiftr_xorshr h k j : 0 <= k -> 0 <= j ->
  Z.shiftr (xorshr k h) j = Z.lxor (Z.shiftr h j) (Z.shiftr h (k + j)).
Proof. intros. unfold xorshr. rewrite Z.shiftr_lxor, Z.shiftr_shiftr by lia. reflexivity. Qed.

Lemma xorshr_invol k n h : 0 <= k -> 0 <= n <= 2 * k -> 0 <= h < 2 ^ n -> xorshr k (xorshr k h) = h.
Proof.
  intros Hk Hn Hh. unfold xorshr at 1. rewrite shiftr_xorshr by lia.
  rewrite (shiftr_small h (k + k) n) by lia. rewrite Z.lxor_0_r. unfold xorshr.
  rewrite Z.lxor_assoc, Z.lxor_nilpotent, Z.lxor_0_r. reflexivity.
Qed.

Ltac xor_solve :=
  apply Z.bits_inj'; intros ? ?; rewrite !Z.lxor_spec;
  repeat match goal with |- context [Z.testbit ?a ?b] => destruct (Z.testbit a b) end; reflexivity.

Definition unshift13 h := Z.lxor h (Z.shiftr (Z.lxor h (Z.shiftr h 13)) 13).
Lemma unshift13_l h : 0 <= h < 2 ^ 32 -> unshift13 (xorshr 13 h) = h.
Proof.
  intros Hh. unfold unshift13. rewrite Z.shiftr_lxor, Z.shiftr_shiftr by lia.
  rewrite !shiftr_xorshr by lia. rewrite (shiftr_small h (13 + (13 + 13)) 32) by lia.
  rewrite Z.lxor_0_r. unfold xorshr. change (13 + 13) with 26.
  xor_solve.
Qed.
Lemma unshift13_r h : 0 <= h < 2 ^ 32 -> xorshr 13 (unshift13 h) = h.
Proof.
  intros Hh. unfold unshift13, xorshr. rewrite !Z.shiftr_lxor, !Z.shiftr_shiftr by lia.
  match goal with |- context [Z.shiftr h (13 + 13 + 13)] => idtac | |- context [Z.shiftr h (13 + (13 + 13))] => change (13 + (13 + 13)) with (13 + 13 + 13) end.
  rewrite (shiftr_small h (13 + 13 + 13) 32) by lia.
  rewrite Z.lxor_0_r. xor_solve.
Qed.

Lemma mul_inv M a b x : 0 < M -> (a * b) mod M = 1 -> 0 <= x < M -> ((x * a) mod M * b) mod M = x.
Proof.
  intros HM Hab Hx. rewrite Z.mul_mod_idemp_l by lia. rewrite <- Z.mul_assoc.
  rewrite <- Z.mul_mod_idemp_r, Hab, Z.mul_1_r by lia. apply Z.mod_small. assumption.
Qed.

Lemma u32_range x : 0 <= u32 x < 2 ^ 32.
Proof. apply Z.mod_pos_bound. lia. Qed.
Lemma u64_range x : 0 <= u64 x < 2 ^ 64.
Proof. apply Z.mod_pos_bound. lia. Qed.

Lemma avalanche32_inv h : 0 <= h < 2 ^ 32 -> deavalanche32 (avalanche32 h) = h.
Proof.
  intros Hh. unfold deavalanche32, avalanche32. cbv zeta.
  rewrite (xorshr_invol 16 32) by (try lia; apply u32_range).
  unfold u32. rewrite (mul_inv (2 ^ 32) 0xc2b2ae35 0x7ed1b41d);
    [|lia|vm_compute; reflexivity|apply xorshr_bound; [lia|lia|apply Z.mod_pos_bound; lia]].
  change (Z.lxor ?x (Z.shiftr (Z.lxor ?x (Z.shiftr ?x 13)) 13)) with (unshift13 x).
  rewrite unshift13_l by (apply Z.mod_pos_bound; lia).
  rewrite mul_inv; [|lia|vm_compute; reflexivity|apply xorshr_bound; lia].
  apply (xorshr_invol 16 32); lia.
Qed.

Lemma deavalanche32_inv h : 0 <= h < 2 ^ 32 -> avalanche32 (deavalanche32 h) = h.
Proof.
  intros Hh. unfold deavalanche32, avalanche32. cbv zeta.
  change (Z.lxor ?x (Z.shiftr (Z.lxor ?x (Z.shiftr ?x 13)) 13)) with (unshift13 x).
  rewrite (xorshr_invol 16 32) by (try lia; apply u32_range).
  assert (Hb : forall x, 0 <= x < 2 ^ 32 -> 0 <= unshift13 x < 2 ^ 32).
  { intros x Hx. apply lxor_bound; [lia|assumption|]. apply shiftr_bound; [lia|].
    apply lxor_bound; [lia|assumption|]. apply shiftr_bound; [lia|assumption]. }
  unfold u32. rewrite (mul_inv (2 ^ 32) 0xa5cb9243 0x85ebca6b);
    [|lia|vm_compute; reflexivity|apply Hb, Z.mod_pos_bound; lia].
  rewrite unshift13_r by (apply Z.mod_pos_bound; lia).
  rewrite mul_inv; [|lia|vm_compute; reflexivity|apply xorshr_bound; lia].
  apply (xorshr_invol 16 32); lia.
Qed.

Lemma avalanche64_inv h : 0 <= h < 2 ^ 64 -> deavalanche64 (avalanche64 h) = h.
Proof.
  intros Hh. unfold deavalanche64, avalanche64. cbv zeta.
  rewrite (xorshr_invol 33 64) by (try lia; apply u64_range).
  unfold u64. rewrite (mul_inv (2 ^ 64) 0xc4ceb9fe1a85ec53 0x9cb4b2f8129337db);
    [|lia|vm_compute; reflexivity|apply xorshr_bound; [lia|lia|apply Z.mod_pos_bound; lia]].
  rewrite (xorshr_invol 33 64) by (try lia; apply Z.mod_pos_bound; lia).
  rewrite mul_inv; [|lia|vm_compute; reflexivity|apply xorshr_bound; lia].
  apply (xorshr_invol 33 64); lia.
Qed.

Lemma deavalanche64_inv h : 0 <= h < 2 ^ 64 -> avalanche64 (deavalanche64 h) = h.
Proof.
  intros Hh. unfold deavalanche64, avalanche64. cbv zeta.
  rewrite (xorshr_invol 33 64) by (try lia; apply u64_range).
  unfold u64. rewrite (mul_inv (2 ^ 64) 0x4f74430c22a54005 0xff51afd7ed558ccd);
    [|lia|vm_compute; reflexivity|apply xorshr_bound; [lia|lia|apply Z.mod_pos_bound; lia]].
  rewrite (xorshr_invol 33 64) by (try lia; apply Z.mod_pos_bound; lia).
  rewrite mul_inv; [|lia|vm_compute; reflexivity|apply xorshr_bound; lia].
  apply (xorshr_invol 33 64); lia.
Qed.

Lemma avalanche32_range h : 0 <= h < 2 ^ 32 -> 0 <= avalanche32 h < 2 ^ 32.
Proof. intros. apply xorshr_bound; [lia|lia|apply u32_range]. Qed.
Lemma avalanche64_range h : 0 <= h < 2 ^ 64 -> 0 <= avalanche64 h < 2 ^ 64.
Proof. intros. apply xorshr_bound; [lia|lia|apply u64_range]. Qed.

(** ** Powers of two *)
Lemma isPowerOf2_iff w v : 0 < w -> 0 <= v < 2 ^ w ->
  isPowerOf2 w v = true <-> v = 0 \/ exists k, 0 <= k /\ v = 2 ^ k.
Proof.
  intros Hw Hv. unfold isPowerOf2. rewrite Z.eqb_eq.
  destruct (Z.eq_dec v 0) as [->|Hne]; [rewrite Z.land_0_l; split; [auto|reflexivity]|].
  rewrite Z.mod_small by lia. split.
  - intros H. right. exists (Z.log2 v). split; [apply Z.log2_nonneg|].
    pose proof (Z.log2_spec v ltac:(lia)) as [H1 H2].
    destruct (Z.eq_dec v (2 ^ Z.log2 v)); [assumption|exfalso].
    assert (Hl : Z.log2 (v - 1) = Z.log2 v).
    { apply Z.log2_unique; [apply Z.log2_nonneg|lia]. }
    assert (Hb : Z.testbit (Z.land v (v - 1)) (Z.log2 v) = true).
    { rewrite Z.land_spec, Z.bit_log2 by lia. rewrite <- Hl. rewrite Z.bit_log2; [reflexivity|].
      pose proof (Z.pow_pos_nonneg 2 (Z.log2 v) ltac:(lia) (Z.log2_nonneg v)). lia. }
    rewrite H, Z.bits_0 in Hb. discriminate.
  - intros [?|(k & Hk & ->)]; [contradiction|].
    rewrite land_mod by lia. apply Z.mod_same. lia.
Qed.

Lemma land_not_ones w k x : 0 <= k <= w -> 0 <= x < 2 ^ w ->
  Z.land x (Z.lxor (2 ^ k - 1) (2 ^ w - 1)) = 2 ^ k * (x / 2 ^ k).
Proof.
  intros Hk Hx.
  replace (2 ^ k * (x / 2 ^ k)) with (Z.shiftl (Z.shiftr x k) k).
  2:{ rewrite Z.shiftl_mul_pow2, Z.shiftr_div_pow2 by lia. lia. }
  apply Z.bits_inj'. intros i Hi. rewrite Z.land_spec, Z.lxor_spec.
  replace (2 ^ k - 1) with (Z.ones k) by (rewrite Z.ones_equiv; reflexivity).
  replace (2 ^ w - 1) with (Z.ones w) by (rewrite Z.ones_equiv; reflexivity).
  rewrite !Z.testbit_ones_nonneg by lia.
  destruct (Z.ltb_spec i k).
  - rewrite Z.shiftl_spec_low by lia. destruct (Z.ltb_spec i w); [|lia]. apply andb_false_r.
  - rewrite Z.shiftl_spec by lia. rewrite Z.shiftr_spec by lia. replace (i - k + k) with i by lia.
    destruct (Z.ltb_spec i w); [apply andb_true_r|].
    rewrite (testbit_high x w i) by lia. reflexivity.
Qed.

Lemma alignPowerOf2_ok w v k : 0 < w -> 0 <= k < w -> 0 <= v -> v + 2 ^ k - 1 < 2 ^ w ->
  exists r, alignPowerOf2 w v (2 ^ k) = Some r /\ least_multiple_above v (2 ^ k) r.
Proof.
  intros Hw Hk Hv Hb. unfold alignPowerOf2.
  assert (Hp : 0 < 2 ^ k) by (apply Z.pow_pos_nonneg; lia).
  assert (Hpw : 2 ^ k < 2 ^ w) by (apply Z.pow_lt_mono_r; lia).
  assert (E : isPowerOf2 w (2 ^ k) = true).
  { apply isPowerOf2_iff; [lia|lia|]. right. exists k. split; [lia|reflexivity]. }
  rewrite E. eexists. split; [reflexivity|].
  rewrite !Z.mod_small by lia. rewrite land_not_ones by lia.
  set (A := 2 ^ k) in *. split; [|split].
  - exists ((v + A - 1) / A). lia.
  - pose proof (Z.mod_pos_bound (v + A - 1) A ltac:(lia)).
    pose proof (Z.div_mod (v + A - 1) A ltac:(lia)). lia.
  - intros m [q ->] Hm. pose proof (Z.mul_div_le (v + A - 1) A ltac:(lia)).
    assert ((v + A - 1) / A <= q); [|nia].
    apply Z.lt_succ_r. apply Z.div_lt_upper_bound; [lia|]. nia.
Qed.

Lemma isAligned_ok w v k : 0 < w -> 0 <= k < w -> 0 <= v < 2 ^ w ->
  exists b, isAlignedPowerOf2 w v (2 ^ k) = Some b /\ (b = true <-> (2 ^ k | v)).
Proof.
  intros Hw Hk Hv. unfold isAlignedPowerOf2.
  assert (Hp : 0 < 2 ^ k) by (apply Z.pow_pos_nonneg; lia).
  assert (Hpw : 2 ^ k < 2 ^ w) by (apply Z.pow_lt_mono_r; lia).
  assert (E : isPowerOf2 w (2 ^ k) = true).
  { apply isPowerOf2_iff; [lia|lia|]. right. exists k. split; [lia|reflexivity]. }
  rewrite E. eexists. split; [reflexivity|]. rewrite Z.mod_small by lia. rewrite land_mod by lia.
  rewrite Z.eqb_eq. apply Z.mod_divide. lia.
Qed.

(** ** Rounding up *)
Definition topset (k n x : Z) : Prop :=
  0 <= x < 2 ^ (k + 1) /\ forall i, 0 <= i -> k + 1 - n <= i <= k -> Z.testbit x i = true.

Lemma topset_start x : 0 < x -> topset (Z.log2 x) 1 x.
Proof.
  intros Hx. pose proof (Z.log2_spec x Hx) as [H1 H2]. split; [lia|].
  intros i Hi Hr. replace i with (Z.log2 x) by lia. apply Z.bit_log2. assumption.
Qed.

Lemma topset_step k n x : 0 <= k -> 0 < n -> topset k n x -> topset k (2 * n) (smear n x).
Proof.
  intros Hk Hn [Hx Hbits]. split.
  - apply lor_bound; [lia|assumption|apply shiftr_bound; [lia|assumption]].
  - intros i Hi Hr. unfold smear. rewrite Z.lor_spec, Z.shiftr_spec by lia.
    destruct (Z.lt_ge_cases i (k + 1 - n)).
    + rewrite (Hbits (i + n)) by lia. apply orb_true_r.
    + rewrite (Hbits i) by lia. reflexivity.
Qed.

Lemma topset_all k n x : 0 <= k -> k < n -> topset k n x -> x = 2 ^ (k + 1) - 1.
Proof.
  intros Hk Hn [Hx Hbits]. replace (2 ^ (k + 1) - 1) with (Z.ones (k + 1)) by (rewrite Z.ones_equiv; reflexivity).
  apply Z.bits_inj'. intros i Hi. rewrite Z.testbit_ones_nonneg by lia.
  destruct (Z.ltb_spec i (k + 1)); [apply Hbits; lia|apply (testbit_high x (k + 1)); lia].
Qed.

Lemma least_pow2_log v : 1 < v -> least_pow2_above v (2 ^ (Z.log2 (v - 1) + 1)).
Proof.
  intros Hv. pose proof (Z.log2_spec (v - 1) ltac:(lia)) as [H1 H2].
  pose proof (Z.log2_nonneg (v - 1)) as H0. unfold Z.succ in H2. split; [|split].
  - exists (Z.log2 (v - 1) + 1). split; [lia|reflexivity].
  - lia.
  - intros k Hk Hle. apply Z.pow_le_mono_r; [lia|].
    assert (Z.log2 (v - 1) < k); [|lia]. apply Z.pow_lt_mono_r_iff with 2; lia.
Qed.

Lemma roundUp32_ok v : 1 <= v <= 2 ^ 31 -> least_pow2_above v (roundUpPowerOf2_32 v).
Proof.
  intros Hv. unfold roundUpPowerOf2_32. cbv zeta. rewrite (Z.mod_small (v - 1)) by lia.
  destruct (Z.eq_dec v 1) as [->|Hne].
  { split; [exists 0; split; [lia|reflexivity]|]. split; [vm_compute; discriminate|].
    intros k Hk _. change (1 <= 2 ^ k). pose proof (Z.pow_pos_nonneg 2 k); lia. }
  assert (Hk0 : 0 <= Z.log2 (v - 1)) by apply Z.log2_nonneg.
  assert (Hk : Z.log2 (v - 1) < 31) by (apply Z.log2_lt_pow2; lia).
  pose proof (topset_start (v - 1) ltac:(lia)) as H.
  apply topset_step in H; [|lia|lia]. apply (topset_step _ 2) in H; [|lia|lia].
  apply (topset_step _ 4) in H; [|lia|lia]. apply (topset_step _ 8) in H; [|lia|lia].
  apply (topset_step _ 16) in H; [|lia|lia].
  apply topset_all in H; [|lia|lia]. change (2 * 1) with 2 in H. change (2 * 2) with 4 in H. cbn [Z.mul Pos.mul] in H. rewrite H. replace (2 ^ (Z.log2 (v - 1) + 1) - 1 + 1)
    with (2 ^ (Z.log2 (v - 1) + 1)) by lia.
  rewrite Z.mod_small; [apply least_pow2_log; lia|].
  split; [apply Z.pow_nonneg; lia|apply Z.pow_lt_mono_r; lia].
Qed.

Lemma roundUp64_ok v : 1 <= v <= 2 ^ 63 -> least_pow2_above v (roundUpPowerOf2_64 v).
Proof.
  intros Hv. unfold roundUpPowerOf2_64. cbv zeta. rewrite (Z.mod_small (v - 1)) by lia.
  destruct (Z.eq_dec v 1) as [->|Hne].
  { split; [exists 0; split; [lia|reflexivity]|]. split; [vm_compute; discriminate|].
    intros k Hk _. change (1 <= 2 ^ k). pose proof (Z.pow_pos_nonneg 2 k); lia. }
  assert (Hk0 : 0 <= Z.log2 (v - 1)) by apply Z.log2_nonneg.
  assert (Hk : Z.log2 (v - 1) < 63) by (apply Z.log2_lt_pow2; lia).
  pose proof (topset_start (v - 1) ltac:(lia)) as H.
  apply topset_step in H; [|lia|lia]. apply (topset_step _ 2) in H; [|lia|lia].
  apply (topset_step _ 4) in H; [|lia|lia]. apply (topset_step _ 8) in H; [|lia|lia].
  apply (topset_step _ 16) in H; [|lia|lia]. apply (topset_step _ 32) in H; [|lia|lia].
  apply topset_all in H; [|lia|lia]. change (2 * 1) with 2 in H. change (2 * 2) with 4 in H. cbn [Z.mul Pos.mul] in H. rewrite H. replace (2 ^ (Z.log2 (v - 1) + 1) - 1 + 1)
    with (2 ^ (Z.log2 (v - 1) + 1)) by lia.
  rewrite Z.mod_small; [apply least_pow2_log; lia|].
  split; [apply Z.pow_nonneg; lia|apply Z.pow_lt_mono_r; lia].
Qed.

(** ** Counting bits *)
Lemma popcount_shift n x : 0 <= x ->
  popcount (S n) x = (if Z.testbit x 0 then 1 else 0) + popcount n (Z.shiftr x 1).
Proof.
  intros Hx. induction n as [|n IH].
  - cbn. lia.
  - change (popcount (S (S n)) x) with ((if Z.testbit x (Z.of_nat (S n)) then 1 else 0) + popcount (S n) x).
    rewrite IH. cbn [popcount]. rewrite Z.shiftr_spec by lia.
    replace (Z.of_nat n + 1) with (Z.of_nat (S n)) by lia. lia.
Qed.

Lemma popcount_0 n : popcount n 0 = 0.
Proof. induction n as [|n IH]; cbn [popcount]; [reflexivity|]. rewrite Z.bits_0, IH. reflexivity. Qed.

Lemma popcount_range n x : 0 <= popcount n x <= Z.of_nat n.
Proof. induction n as [|n IH]; cbn [popcount]; [lia|]. destruct (Z.testbit x (Z.of_nat n)); lia. Qed.

Lemma countSetBits_ok n x c : 0 <= x < 2 ^ Z.of_nat n -> 0 <= c -> c + Z.of_nat n < 2 ^ 32 ->
  countSetBits n x c = Some (c + popcount n x).
Proof.
  revert x c. induction n as [|n IH]; intros x c Hx Hc Hb.
  - replace x with 0 by (cbn in Hx; lia). cbn. f_equal. lia.
  - cbn [countSetBits]. destruct (Z.eqb_spec x 0) as [->|Hne].
    { rewrite popcount_0. f_equal. lia. }
    assert (Hland : Z.land x 1 = if Z.testbit x 0 then 1 else 0).
    { change 1 with (2 ^ 1 - 1) at 1. rewrite land_mod by lia. change (2 ^ 1) with 2.
      rewrite <- Z.bit0_mod. reflexivity. }
    rewrite Hland, popcount_shift by lia.
    rewrite IH.
    + f_equal. unfold u32. rewrite Z.mod_small by (destruct (Z.testbit x 0); lia). lia.
    + rewrite Z.shiftr_div_pow2 by lia. rewrite Nat2Z.inj_succ, Z.pow_succ_r in Hx by lia. lia.
    + unfold u32. apply Z.mod_pos_bound. lia.
    + unfold u32. rewrite Z.mod_small by (destruct (Z.testbit x 0); lia).
      destruct (Z.testbit x 0); lia.
Qed.

Lemma countSetBits_neg fuel x c : x < 0 -> countSetBits fuel x c = None.
Proof.
  revert x c. induction fuel as [|f IH]; intros x c Hx; cbn [countSetBits];
    (destruct (Z.eqb_spec x 0); [lia|]); [reflexivity|].
  apply IH. apply Z.shiftr_neg. assumption.
Qed.

(** ** Byte order *)
Lemma reverseBytes32_ok v : 0 <= v < 2 ^ 32 ->
  le_bytes32 (reverseBytes32 v) = rev (le_bytes32 v) /\ 0 <= reverseBytes32 v < 2 ^ 32.
Proof.
  intros Hv.
  assert (E : reverseBytes32 v =
    v / 16777216 + 256 * ((v / 65536) mod 256) + 65536 * ((v / 256) mod 256) + 16777216 * (v mod 256)).
  { unfold reverseBytes32, u32.
    replace (Z.land (Z.shiftr v 24) 255) with (v / 16777216).
    2:{ change 255 with (2 ^ 8 - 1). rewrite land_mod, Z.shiftr_div_pow2 by lia.
        change (2 ^ 24) with 16777216. change (2 ^ 8) with 256. lia. }
    assert (M : forall x k, 0 <= k -> Z.land x (255 * 2 ^ k) = ((x / 2 ^ k) mod 256) * 2 ^ k).
    { intros x k Hk. rewrite <- Z.shiftl_mul_pow2 by lia.
      rewrite <- (Z.shiftl_mul_pow2 (_ mod _)) by lia.
      change 256 with (2 ^ 8). rewrite <- land_mod by lia. rewrite <- Z.shiftr_div_pow2 by lia.
      rewrite Z.shiftl_land. change (2 ^ 8 - 1) with 255.
      apply Z.bits_inj'. intros i Hi. rewrite !Z.land_spec. destruct (Z.lt_ge_cases i k).
      - rewrite !Z.shiftl_spec_low by lia. rewrite !andb_false_r. reflexivity.
      - rewrite (Z.shiftl_spec (Z.shiftr x k)) by lia. rewrite Z.shiftr_spec by lia.
        replace (i - k + k) with i by lia. reflexivity. }
    change 0xff00 with (255 * 2 ^ 8). change 0xff0000 with (255 * 2 ^ 16).
    change 0xff000000 with (255 * 2 ^ 24). rewrite !M by lia.
    rewrite !Z.shiftr_div_pow2, !Z.shiftl_mul_pow2 by lia.
    change (2 ^ 8) with 256. change (2 ^ 16) with 65536. change (2 ^ 24) with 16777216.
    change (2 ^ 32) with 4294967296 in *.
    set (b0 := v mod 256). set (b1 := (v / 256) mod 256). set (b2 := (v / 65536) mod 256).
    set (b3 := v / 16777216).
    replace ((v / 256 / 256) mod 256) with b2 by (unfold b2; lia).
    replace ((v * 256 mod 4294967296 / 65536) mod 256) with b1 by (unfold b1; lia).
    replace ((v * 16777216 mod 4294967296 / 16777216) mod 256) with b0 by (unfold b0; lia).
    assert (H0 : 0 <= b0 < 256) by (unfold b0; lia). assert (H1 : 0 <= b1 < 256) by (unfold b1; lia).
    assert (H2 : 0 <= b2 < 256) by (unfold b2; lia). assert (H3 : 0 <= b3 < 256) by (unfold b3; lia).
    clearbody b0 b1 b2 b3.
    rewrite (Z.lor_comm b3). change (b2 * 256) with (b2 * 2 ^ 8). rewrite (lor_add b2 b3 8) by lia.
    rewrite (Z.lor_comm _ (b1 * 65536)). change 65536 with (2 ^ 16). rewrite (lor_add b1 _ 16) by lia.
    rewrite (Z.lor_comm _ (b0 * 16777216)). change 16777216 with (2 ^ 24). rewrite (lor_add b0 _ 24) by lia.
    change (2 ^ 8) with 256. change (2 ^ 16) with 65536. change (2 ^ 24) with 16777216. lia. }
  change (2 ^ 32) with 4294967296 in *. split; [|rewrite E; lia].
  unfold le_bytes32. cbn [rev app]. rewrite E.
  set (b0 := v mod 256). set (b1 := (v / 256) mod 256). set (b2 := (v / 65536) mod 256).
  set (b3 := v / 16777216).
  assert (H0 : 0 <= b0 < 256) by (unfold b0; lia). assert (H1 : 0 <= b1 < 256) by (unfold b1; lia).
  assert (H2 : 0 <= b2 < 256) by (unfold b2; lia). assert (H3 : 0 <= b3 < 256) by (unfold b3; lia).
  clearbody b0 b1 b2 b3.
  f_equal; [lia|]. f_equal; [lia|]. f_equal; [lia|]. f_equal; lia.
Qed.
