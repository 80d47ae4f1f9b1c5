(* Proofs about converted numbers. *)
From Coq Require Import Lia ZifyBool ZifyNat.
From Verif Require Import Base PersistModel PersistSpec PersistSchema PersistReadProofs.
Local Notation length := List.length.

(** The bits of a float, from its parts. *)
Definition sgn (mb eb : Z) (s : bool) : Z := if s then 2 ^ (mb + eb) else 0.
Lemma bits_decode mb eb s E M : 0 <= mb -> 0 < eb -> 0 <= E < 2 ^ eb -> 0 <= M < 2 ^ mb -> forall b, b = sgn mb eb s + E * 2 ^ mb + M ->
  fdecode mb eb b = if E =? 0 then Fin s M (emin mb eb) else if E =? 2 ^ eb - 1 then if M =? 0 then Inf s else Nan s M else Fin s (2 ^ mb + M) (E - 1 + emin mb eb).
Proof.
  intros Hm He HE HM b ->. pose proof (Z.pow_pos_nonneg 2 mb ltac:(lia) ltac:(lia)) as Pm. pose proof (Z.pow_pos_nonneg 2 eb ltac:(lia) ltac:(lia)) as Pe.
  unfold fdecode. set (S := if s then 1 else 0).
  assert (EQ : sgn mb eb s + E * 2 ^ mb + M = (S * 2 ^ eb + E) * 2 ^ mb + M) by (unfold sgn, S; rewrite Z.pow_add_r by lia; destruct s; ring).
  rewrite EQ. rewrite (Z.pow_add_r 2 mb eb) by lia. rewrite <- Z.div_div by lia. rewrite Z.div_add_l, (Z.div_small M), Z.add_0_r by lia.
  rewrite Z.div_add_l, (Z.div_small E), Z.add_0_r by lia. rewrite (Z.add_comm (S * 2 ^ eb)), Z.mod_add, (Z.mod_small E) by lia.
  rewrite Z.add_comm, Z.mod_add, (Z.mod_small M) by lia.
  replace (Z.odd S) with s by (unfold S; destruct s; reflexivity). reflexivity.
Qed.
Lemma bits_split b : 0 <= b < 2 ^ 32 -> exists s E M, 0 <= E < 2 ^ 8 /\ 0 <= M < 2 ^ 23 /\ b = sgn 23 8 s + E * 2 ^ 23 + M /\ E = b / 2 ^ 23 mod 2 ^ 8 /\ M = b mod 2 ^ 23.
Proof.
  intros H. exists (2 ^ 31 <=? b), (b / 2 ^ 23 mod 2 ^ 8), (b mod 2 ^ 23). split; [apply Z.mod_pos_bound; lia|]. split; [apply Z.mod_pos_bound; lia|]. split; [|auto].
  pose proof (Z.div_mod b (2 ^ 23) ltac:(lia)) as D1. pose proof (Z.div_mod (b / 2 ^ 23) (2 ^ 8) ltac:(lia)) as D2. pose proof (Z.mod_pos_bound b (2 ^ 23) ltac:(lia)). pose proof (Z.mod_pos_bound (b / 2 ^ 23) (2 ^ 8) ltac:(lia)).
  unfold sgn. change (23 + 8) with 31. set (q := b / 2 ^ 23 / 2 ^ 8) in *. set (E := b / 2 ^ 23 mod 2 ^ 8) in *. set (M := b mod 2 ^ 23) in *.
  assert (b = q * 2 ^ 31 + E * 2 ^ 23 + M) by (rewrite D1, D2; change (2 ^ 31) with (2 ^ 23 * 2 ^ 8); ring). clear D1 D2. clearbody q E M.
  destruct (Z.leb_spec (2 ^ 31) b); assert (q = 0 \/ q = 1) as [-> | ->] by lia; lia.
Qed.
Lemma nearest_exact m d : 0 <= m -> d <= 0 -> m mod 2 ^ (- d) = 0 -> nearest m d = m / 2 ^ (- d).
Proof.
  intros Hm Hd H. unfold nearest. destruct (Z.leb_spec 0 d) as [K|K]; [replace d with 0 by lia; cbn; rewrite Z.div_1_r; lia|].
  rewrite H. pose proof (Z.pow_pos_nonneg 2 (- d - 1) ltac:(lia) ltac:(lia)). destruct (Z.ltb_spec (2 ^ (- d - 1)) 0); [lia|]. destruct (Z.eqb_spec 0 (2 ^ (- d - 1))); [lia|]. reflexivity.
Qed.
(** A float of 24 bits goes through a double without loss. *)
Lemma encode_exact s m e : 0 < m < 2 ^ 24 -> -149 <= e <= 104 ->
  let L := Z.log2 m in
  fdecode 52 11 (fencode 52 11 s m e) = Fin s (m * 2 ^ (52 - L)) (L + e - 52).
Proof.
  intros Hm He L. assert (HL : 0 <= L < 24) by (unfold L; split; [apply Z.log2_nonneg|apply Z.log2_lt_pow2; lia]).
  pose proof (Z.log2_spec m ltac:(lia)) as HS. fold L in HS. rewrite Z.pow_succ_r in HS by lia.
  unfold fencode. replace (m =? 0) with false by lia. fold L. change (emin 52 11) with (-1074). rewrite Z.max_l by lia.
  replace (e - (L + e - 52)) with (52 - L) by lia. unfold nearest. replace (0 <=? 52 - L) with true by lia.
  assert (HP : 2 ^ 52 <= m * 2 ^ (52 - L) < 2 ^ 53).
  { replace (2 ^ 52) with (2 ^ L * 2 ^ (52 - L)) by (rewrite <- Z.pow_add_r by lia; f_equal; lia). replace (2 ^ 53) with (2 * 2 ^ L * 2 ^ (52 - L)) by (rewrite <- Z.mul_assoc, <- Z.pow_add_r by lia; replace (L + (52 - L)) with 52 by lia; reflexivity).
    pose proof (Z.pow_pos_nonneg 2 (52 - L) ltac:(lia) ltac:(lia)). split; [apply Z.mul_le_mono_nonneg_r|apply Z.mul_lt_mono_pos_r]; lia. }
  set (X := m * 2 ^ (52 - L)) in *. clearbody X. rewrite Z.min_l by lia.
  rewrite (bits_decode 52 11 s (L + e + 1023) (X - 2 ^ 52)); [|lia|lia|lia|lia|unfold sgn; change (2 ^ 11) with 2048; lia].
  replace (L + e + 1023 =? 0) with false by lia. replace (L + e + 1023 =? 2 ^ 11 - 1) with false by lia. change (emin 52 11) with (-1074). f_equal; lia.
Qed.
Lemma encode_back s m e : 0 < m < 2 ^ 24 -> -149 <= e <= 104 ->
  let L := Z.log2 m in let q := Z.max (L + e - 23) (-149) in
  fencode 23 8 s (m * 2 ^ (52 - L)) (L + e - 52) = sgn 23 8 s + Z.min ((q + 149) * 2 ^ 23 + m * 2 ^ (e - q)) (255 * 2 ^ 23).
Proof.
  intros Hm He L q. assert (HL : 0 <= L < 24) by (unfold L; split; [apply Z.log2_nonneg|apply Z.log2_lt_pow2; lia]).
  pose proof (Z.pow_pos_nonneg 2 (52 - L) ltac:(lia) ltac:(lia)) as P.
  unfold fencode. destruct (Z.eqb_spec (m * 2 ^ (52 - L)) 0) as [Q|_]; [nia|].
  rewrite Z.log2_mul_pow2 by lia. fold L. change (emin 23 8) with (-149). replace (52 - L + L + (L + e - 52) - 23) with (L + e - 23) by lia. fold q.
  assert (Hq : q <= e /\ L + e - 52 - q < 0) by (unfold q; lia). clearbody q.
  assert (EX : m * 2 ^ (52 - L) = m * 2 ^ (e - q) * 2 ^ (- (L + e - 52 - q))) by (rewrite <- Z.mul_assoc, <- Z.pow_add_r by lia; f_equal; f_equal; lia).
  pose proof (Z.pow_pos_nonneg 2 (e - q) ltac:(lia) ltac:(lia)). pose proof (Z.pow_pos_nonneg 2 (- (L + e - 52 - q)) ltac:(lia) ltac:(lia)).
  rewrite nearest_exact; [|nia|lia|rewrite EX; apply Z.mod_mul; lia]. rewrite EX at 1. rewrite Z.div_mul by lia. replace (q - -149) with (q + 149) by lia. reflexivity.
Qed.
Lemma toFloat_toDouble b : 0 <= b < 2 ^ 32 -> ~ signalling Kfloat b -> toFloat (toDouble b) = b.
Proof.
  intros H NS. destruct (bits_split b H) as (s & E & M & HE & HM & Eb & DE & DM). unfold signalling in NS. rewrite <- DE, <- DM in NS. clear DE DM.
  unfold toDouble. rewrite (bits_decode 23 8 s E M) by (try lia; assumption). change (emin 23 8) with (-149).
  destruct (Z.eqb_spec E 0) as [->|E0].
  - destruct (Z.eqb_spec M 0) as [->|M0].
    + rewrite Eb. destruct s; reflexivity.
    + unfold toFloat. rewrite (encode_exact s M (-149)) by lia. rewrite encode_back by lia.
      assert (HL : 0 <= Z.log2 M < 23) by (split; [apply Z.log2_nonneg|apply Z.log2_lt_pow2; lia]). rewrite Z.max_r by lia. change (2 ^ (-149 - -149)) with 1. lia.
  - destruct (Z.eqb_spec E (2 ^ 8 - 1)) as [E1|E1].
    + destruct (Z.eqb_spec M 0) as [->|M0].
      * rewrite Eb, E1. destruct s; reflexivity.
      * assert (2 ^ 22 <= M) by lia. assert (EM : M mod 2 ^ 22 = M - 2 ^ 22) by (symmetry; apply Z.mod_unique with 1; lia). rewrite EM.
        unfold toFloat. rewrite (bits_decode 52 11 s 2047 (2 ^ 51 + (M - 2 ^ 22) * 2 ^ 29)); [|lia|lia|lia|lia|unfold sgn; change (52 + 11) with 63; lia].
        change (2047 =? 0) with false. change (2047 =? 2 ^ 11 - 1) with true. cbn [negb]. destruct (Z.eqb_spec (2 ^ 51 + (M - 2 ^ 22) * 2 ^ 29) 0); [lia|].
        replace ((2 ^ 51 + (M - 2 ^ 22) * 2 ^ 29) mod 2 ^ 51) with ((M - 2 ^ 22) * 2 ^ 29) by (apply Z.mod_unique with 1; lia). rewrite Z.div_mul by lia.
        rewrite Eb. unfold sgn. change (23 + 8) with 31. lia.
    + unfold toFloat. rewrite (encode_exact s (2 ^ 23 + M) (E - 1 + -149)) by lia. rewrite encode_back by lia.
      assert (HL : Z.log2 (2 ^ 23 + M) = 23) by (apply Z.log2_unique; lia). rewrite HL.
      rewrite Z.max_l by lia. replace (E - 1 + -149 - (23 + (E - 1 + -149) - 23)) with 0 by lia. change (2 ^ 0) with 1. lia.
Qed.
Lemma to_signed_id n z : 0 < n -> - 2 ^ (n - 1) <= z < 2 ^ (n - 1) -> to_signed n z = z.
Proof. intros Hn H. rewrite <- (to_signed_ok n z Hn H) at 2. unfold to_signed. now rewrite Z.mod_mod by (apply Z.pow_nonzero; lia). Qed.
(** A number is converted to its own kind without a change. *)
Lemma cast_same k z : numOk k z -> cast k (toNumeric k z) = Some z.
Proof.
  intros [NS H]. destruct k; cbn [toNumeric cast castInt isSigned] in *;
    try (rewrite Z.mod_small; [reflexivity|exact H]); try (rewrite to_signed_id; [reflexivity|cbn; lia|exact H]); try reflexivity.
  - unfold u32. destruct H as [->| ->]; reflexivity.
  - now rewrite toFloat_toDouble.
Qed.
