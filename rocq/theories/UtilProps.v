(* Property theorems C44 and C45: integer utilities. *)
From Verif Require Import UtilSpec UtilModel UtilProofs.

(** C44. [avalanche] and [deavalanche] are inverse bijections of the 32-bit integers. *)
Theorem C44_avalanche32_bijection :
  (forall h, 0 <= h < 2 ^ 32 -> 0 <= avalanche32 h < 2 ^ 32 /\ deavalanche32 (avalanche32 h) = h) /\
  (forall h, 0 <= h < 2 ^ 32 -> avalanche32 (deavalanche32 h) = h).
Proof.
  exact (conj (fun h H => conj (avalanche32_range h H) (avalanche32_inv h H)) deavalanche32_inv).
Qed.
Print Assumptions C44_avalanche32_bijection.
Example C44_case : avalanche32 1 = 0x514E28B7 /\ deavalanche32 0x514E28B7 = 1.
Proof. split; reflexivity. Qed.

(** C44. The same at 64 bits. *)
Theorem C44_avalanche64_bijection :
  (forall h, 0 <= h < 2 ^ 64 -> 0 <= avalanche64 h < 2 ^ 64 /\ deavalanche64 (avalanche64 h) = h) /\
  (forall h, 0 <= h < 2 ^ 64 -> avalanche64 (deavalanche64 h) = h).
Proof.
  exact (conj (fun h H => conj (avalanche64_range h H) (avalanche64_inv h H)) deavalanche64_inv).
Qed.
Print Assumptions C44_avalanche64_bijection.
Example C44_case64 : deavalanche64 (avalanche64 12345678901234567) = 12345678901234567.
Proof. reflexivity. Qed.

(** C45. [isPowerOf2] holds exactly for 0 and the powers of two. *)
Theorem C45_isPowerOf2 : forall w v, 0 < w -> 0 <= v < 2 ^ w ->
  (isPowerOf2 w v = true <-> v = 0 \/ exists k, 0 <= k /\ v = 2 ^ k).
Proof. exact isPowerOf2_iff. Qed.
Print Assumptions C45_isPowerOf2.
Example C45_pow_case : isPowerOf2 32 4096 = true /\ isPowerOf2 32 4095 = false.
Proof. split; reflexivity. Qed.

(** C45. [alignPowerOf2] gives the least multiple of the alignment at or above its argument, as
    long as the intermediate sum fits the type. *)
Theorem C45_alignPowerOf2 : forall w v k, 0 < w -> 0 <= k < w -> 0 <= v -> v + 2 ^ k - 1 < 2 ^ w ->
  exists r, alignPowerOf2 w v (2 ^ k) = Some r /\ least_multiple_above v (2 ^ k) r.
Proof. exact alignPowerOf2_ok. Qed.
Print Assumptions C45_alignPowerOf2.
Example C45_align_case : alignPowerOf2 32 4097 (2 ^ 12) = Some 8192 /\ 4097 + 2 ^ 12 - 1 < 2 ^ 32.
Proof. split; reflexivity. Qed.

(** C45. [isAlignedPowerOf2] is divisibility. *)
Theorem C45_isAligned : forall w v k, 0 < w -> 0 <= k < w -> 0 <= v < 2 ^ w ->
  exists b, isAlignedPowerOf2 w v (2 ^ k) = Some b /\ (b = true <-> (2 ^ k | v)).
Proof. exact isAligned_ok. Qed.
Print Assumptions C45_isAligned.
Example C45_isAligned_case : isAlignedPowerOf2 64 4096 (2 ^ 4) = Some true /\
  isAlignedPowerOf2 64 4097 (2 ^ 4) = Some false.
Proof. split; reflexivity. Qed.

(** C45. [roundUpPowerOf2] gives the least power of two at or above its argument. *)
Theorem C45_roundUpPowerOf2_32 : forall v, 1 <= v <= 2 ^ 31 -> least_pow2_above v (roundUpPowerOf2_32 v).
Proof. exact roundUp32_ok. Qed.
Print Assumptions C45_roundUpPowerOf2_32.
Theorem C45_roundUpPowerOf2_64 : forall v, 1 <= v <= 2 ^ 63 -> least_pow2_above v (roundUpPowerOf2_64 v).
Proof. exact roundUp64_ok. Qed.
Print Assumptions C45_roundUpPowerOf2_64.
Example C45_roundUp_case : roundUpPowerOf2_32 1000 = 1024 /\ roundUpPowerOf2_64 (2 ^ 40 + 1) = 2 ^ 41.
Proof. split; reflexivity. Qed.

(** C45, finding. Outside that range the result is 0, silently. *)
Theorem C45_roundUp_out_of_range_refuted :
  roundUpPowerOf2_32 0 = 0 /\ roundUpPowerOf2_32 (2 ^ 31 + 1) = 0 /\
  roundUpPowerOf2_64 0 = 0 /\ roundUpPowerOf2_64 (2 ^ 63 + 1) = 0.
Proof. repeat split; reflexivity. Qed.
Print Assumptions C45_roundUp_out_of_range_refuted.

(** C45. [countSetBits] counts the one bits of a non-negative integer of any width below 2^32. *)
Theorem C45_countSetBits : forall n x, 0 <= x < 2 ^ Z.of_nat n -> Z.of_nat n < 2 ^ 32 ->
  countSetBits n x 0 = Some (popcount n x).
Proof. exact (fun n x H Hn => countSetBits_ok n x 0 H (Z.le_refl 0) Hn). Qed.
Print Assumptions C45_countSetBits.
Example C45_count_case : countSetBits 32 0xF0F0 0 = Some 8.
Proof. reflexivity. Qed.

(** C45, finding. On a negative argument of a signed type the loop never ends. *)
Theorem C45_countSetBits_negative_refuted : forall fuel x c, x < 0 -> countSetBits fuel x c = None.
Proof. exact countSetBits_neg. Qed.
Print Assumptions C45_countSetBits_negative_refuted.

(** C45. [reverseBytes] reverses the four bytes. *)
Theorem C45_reverseBytes32 : forall v, 0 <= v < 2 ^ 32 ->
  le_bytes32 (reverseBytes32 v) = rev (le_bytes32 v) /\ 0 <= reverseBytes32 v < 2 ^ 32.
Proof. exact reverseBytes32_ok. Qed.
Print Assumptions C45_reverseBytes32.
Example C45_reverse_case : reverseBytes32 0x12345678 = 0x78563412.
Proof. reflexivity. Qed.
