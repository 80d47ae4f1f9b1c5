(* Converted numbers have the same value, if there is one: proofs. *)
From Coq Require Import Lia ZifyBool ZifyNat.
From Verif Require Import Base PersistModel PersistSpec PersistSchema PersistReadProofs PersistNum.
Local Notation length := List.length.

(** The value of a number, x * 2^e; infinities and NaNs have none. *)
Definition value (k : num) (z : Z) : option (Z * Z) :=
  let fin f := match f with Fin s m e => Some (if s then - m else m, e) | _ => None end in
  match k with Kfloat => fin (fdecode 23 8 z) | Kdouble => fin (fdecode 52 11 z) | _ => Some (z, 0) end.
(** The same value, written with the smaller exponent. *)
Definition eqv (a b : Z * Z) : Prop :=
  let n := Z.min (snd a) (snd b) in fst a * 2 ^ (snd a - n) = fst b * 2 ^ (snd b - n).
Definition sameValue (k : num) (z : Z) (k' : num) (y : Z) : Prop := exists a b, value k z = Some a /\ value k' y = Some b /\ eqv a b.

Lemma pow_split n a b : a <= b -> 0 <= a -> n * 2 ^ b = n * 2 ^ a * 2 ^ (b - a).
Proof. intros. rewrite <- Z.mul_assoc, <- Z.pow_add_r by lia. f_equal. f_equal. lia. Qed.
Lemma eqv_any a b n : n <= snd a -> n <= snd b -> (eqv a b <-> fst a * 2 ^ (snd a - n) = fst b * 2 ^ (snd b - n)).
Proof.
  intros A B. unfold eqv. set (q := Z.min (snd a) (snd b)). assert (Q : n <= q /\ q <= snd a /\ q <= snd b) by lia. clearbody q.
  rewrite (pow_split (fst a) (snd a - q) (snd a - n)), (pow_split (fst b) (snd b - q) (snd b - n)) by lia.
  replace (snd a - n - (snd a - q)) with (q - n) by lia. replace (snd b - n - (snd b - q)) with (q - n) by lia.
  pose proof (Z.pow_pos_nonneg 2 (q - n) ltac:(lia) ltac:(lia)). split; intros E; [now rewrite E|]. apply Z.mul_cancel_r in E; lia.
Qed.
Lemma eqv_refl a : eqv a a.
Proof. reflexivity. Qed.
Lemma eqv_sym a b : eqv a b -> eqv b a.
Proof. unfold eqv. rewrite Z.min_comm. intros ->. reflexivity. Qed.
Lemma eqv_trans a b c : eqv a b -> eqv b c -> eqv a c.
Proof.
  intros H1 H2. set (n := Z.min (snd a) (Z.min (snd b) (snd c))).
  apply (eqv_any a b n) in H1; [|lia|lia]. apply (eqv_any b c n) in H2; [|lia|lia]. apply (eqv_any a c n); [lia|lia|congruence].
Qed.

Lemma nearest_shift m x d : 0 <= d -> 0 <= m -> nearest (m * 2 ^ d) (x - d) = nearest m x.
Proof.
  intros Hd Hm. unfold nearest at 2. pose proof (Z.pow_pos_nonneg 2 d ltac:(lia) ltac:(lia)) as Pd. destruct (Z.leb_spec 0 x) as [K|K].
  - destruct (Z.le_gt_cases 0 (x - d)) as [K'|K'].
    + unfold nearest. destruct (Z.leb_spec 0 (x - d)); [|lia]. rewrite <- Z.mul_assoc, <- Z.pow_add_r by lia. f_equal. f_equal. lia.
    + assert (E : m * 2 ^ d = m * 2 ^ x * 2 ^ (- (x - d))) by (rewrite <- Z.mul_assoc, <- Z.pow_add_r by lia; f_equal; f_equal; lia).
      pose proof (Z.pow_pos_nonneg 2 (- (x - d)) ltac:(lia) ltac:(lia)).
      rewrite nearest_exact; [|nia|lia|rewrite E; apply Z.mod_mul; lia]. rewrite E. now rewrite Z.div_mul by lia.
  - unfold nearest. destruct (Z.leb_spec 0 (x - d)); [lia|].
    replace (2 ^ (- (x - d))) with (2 ^ (- x) * 2 ^ d) by (rewrite <- Z.pow_add_r by lia; f_equal; lia).
    replace (2 ^ (- (x - d) - 1)) with (2 ^ (- x - 1) * 2 ^ d) by (rewrite <- Z.pow_add_r by lia; f_equal; lia).
    pose proof (Z.pow_pos_nonneg 2 (- x) ltac:(lia) ltac:(lia)).
    rewrite Z.div_mul_cancel_r, Z.mul_mod_distr_r by lia.
    set (h := 2 ^ (- x - 1)). set (r := m mod 2 ^ (- x)).
    replace (h * 2 ^ d <? r * 2 ^ d) with (h <? r) by (destruct (Z.ltb_spec h r), (Z.ltb_spec (h * 2 ^ d) (r * 2 ^ d)); nia).
    replace (r * 2 ^ d =? h * 2 ^ d) with (r =? h) by (destruct (Z.eqb_spec r h), (Z.eqb_spec (r * 2 ^ d) (h * 2 ^ d)); nia). reflexivity.
Qed.
Lemma encode_shift mb eb s m e d : 0 <= d -> 0 < m -> fencode mb eb s (m * 2 ^ d) (e - d) = fencode mb eb s m e.
Proof.
  intros Hd Hm. unfold fencode. pose proof (Z.pow_pos_nonneg 2 d ltac:(lia) ltac:(lia)) as Pd.
  destruct (Z.eqb_spec (m * 2 ^ d) 0); [nia|]. destruct (Z.eqb_spec m 0); [lia|]. rewrite Z.log2_mul_pow2 by lia.
  replace (d + Z.log2 m + (e - d) - mb) with (Z.log2 m + e - mb) by lia. set (q := Z.max _ _).
  replace (e - d - q) with (e - q - d) by lia. now rewrite nearest_shift by lia.
Qed.
Lemma split_bits mb eb b : 0 <= mb -> 0 < eb -> 0 <= b < 2 ^ (mb + eb + 1) -> exists s E M, 0 <= E < 2 ^ eb /\ 0 <= M < 2 ^ mb /\ b = sgn mb eb s + E * 2 ^ mb + M.
Proof.
  intros Hm He H. pose proof (Z.pow_pos_nonneg 2 mb ltac:(lia) ltac:(lia)) as Pm. pose proof (Z.pow_pos_nonneg 2 eb ltac:(lia) ltac:(lia)) as Pe.
  exists (2 ^ (mb + eb) <=? b), (b / 2 ^ mb mod 2 ^ eb), (b mod 2 ^ mb). split; [apply Z.mod_pos_bound; lia|]. split; [apply Z.mod_pos_bound; lia|].
  pose proof (Z.div_mod b (2 ^ mb) ltac:(lia)) as D1. pose proof (Z.div_mod (b / 2 ^ mb) (2 ^ eb) ltac:(lia)) as D2.
  pose proof (Z.mod_pos_bound b (2 ^ mb) ltac:(lia)). pose proof (Z.mod_pos_bound (b / 2 ^ mb) (2 ^ eb) ltac:(lia)).
  unfold sgn. rewrite !Z.pow_add_r in * by lia. change (2 ^ 1) with 2 in H. set (q := b / 2 ^ mb / 2 ^ eb) in *. set (E := b / 2 ^ mb mod 2 ^ eb) in *. set (M := b mod 2 ^ mb) in *.
  set (x := 2 ^ mb) in *. set (y := 2 ^ eb) in *.
  assert (B : b = q * (x * y) + (E * x + M)) by (rewrite D1, D2; ring). assert (0 <= E * x + M < x * y) by nia. clear D1 D2. clearbody q E M x y.
  assert (0 <= q < 2) by nia. destruct (Z.leb_spec (x * y) b); assert (q = 0 \/ q = 1) as [-> | ->] by lia; lia.
Qed.
Lemma decode_encode mb eb b s m e : 0 < mb -> 1 < eb -> 0 <= b < 2 ^ (mb + eb + 1) -> fdecode mb eb b = Fin s m e -> fencode mb eb s m e = b.
Proof.
  intros Hm He H D. destruct (split_bits mb eb b ltac:(lia) ltac:(lia) H) as (s0 & E & M & HE & HM & Eb).
  pose proof (Z.pow_pos_nonneg 2 mb ltac:(lia) ltac:(lia)) as Pm. assert (Pe : 4 <= 2 ^ eb) by (change 4 with (2 ^ 2); apply Z.pow_le_mono_r; lia).
  rewrite (bits_decode mb eb s0 E M) in D by (try lia; assumption). destruct (Z.eqb_spec E 0) as [->|E0].
  - injection D as -> <- <-. unfold fencode. fold (sgn mb eb s). destruct (Z.eqb_spec M 0) as [->|M0]; [lia|].
    assert (HL : 0 <= Z.log2 M < mb) by (split; [apply Z.log2_nonneg|apply Z.log2_lt_pow2; lia]). rewrite Z.max_r by lia. rewrite !Z.sub_diag.
    unfold nearest. cbn [Z.leb Z.compare Z.mul]. change (2 ^ 0) with 1. rewrite Z.min_l by nia. lia.
  - destruct (Z.eqb_spec E (2 ^ eb - 1)); [destruct (M =? 0); discriminate|]. injection D as -> <- <-. unfold fencode. fold (sgn mb eb s). destruct (Z.eqb_spec (2 ^ mb + M) 0); [lia|].
    assert (HL : Z.log2 (2 ^ mb + M) = mb) by (apply Z.log2_unique; [lia|]; rewrite Z.pow_succ_r; lia). rewrite HL. rewrite Z.max_l by lia.
    replace (E - 1 + emin mb eb - (mb + (E - 1 + emin mb eb) - mb)) with 0 by lia. unfold nearest. cbn [Z.leb Z.compare]. change (2 ^ 0) with 1.
    replace (mb + (E - 1 + emin mb eb) - mb - emin mb eb) with (E - 1) by lia. rewrite Z.min_l by nia. lia.
Qed.
Lemma decode_pos mb eb b s m e : 0 < mb -> 1 < eb -> 0 <= b < 2 ^ (mb + eb + 1) -> fdecode mb eb b = Fin s m e -> 0 <= m.
Proof.
  intros Hm He H. pose proof (Z.pow_pos_nonneg 2 mb ltac:(lia) ltac:(lia)). pose proof (Z.mod_pos_bound b (2 ^ mb) ltac:(lia)). unfold fdecode.
  destruct (Z.eqb _ 0); [intros D; injection D; lia|]. destruct (Z.eqb _ _); [destruct (Z.eqb _ 0); discriminate|]. intros D; injection D; lia.
Qed.
(** The bits of a value are those of the float with this value. *)
Lemma encode_value mb eb (s : bool) m e b (s' : bool) m' e' : 0 < mb -> 1 < eb -> 0 <= b < 2 ^ (mb + eb + 1) -> fdecode mb eb b = Fin s' m' e' ->
  0 < m -> eqv (if s then - m else m, e) (if s' then - m' else m', e') -> fencode mb eb s m e = b.
Proof.
  intros Hm He H D Pm V. pose proof (decode_pos mb eb b s' m' e' Hm He H D) as P'. rewrite <- (decode_encode mb eb b s' m' e' Hm He H D). unfold eqv in V. cbn [fst snd] in V.
  set (n := Z.min e e') in *. pose proof (Z.pow_pos_nonneg 2 (e - n) ltac:(lia) ltac:(lia)). pose proof (Z.pow_pos_nonneg 2 (e' - n) ltac:(lia) ltac:(lia)).
  assert (s = s' /\ 0 < m' /\ m * 2 ^ (e - n) = m' * 2 ^ (e' - n)) as (-> & Q & W) by (destruct s, s'; split; try reflexivity; try split; nia). clear V.
  destruct (Z.le_gt_cases e e').
  - replace n with e in W by lia. rewrite Z.sub_diag in W. change (2 ^ 0) with 1 in W. pose proof (encode_shift mb eb s' m' e' (e' - e) ltac:(lia) Q) as X. replace (e' - (e' - e)) with e in X by lia. rewrite <- X. f_equal. lia.
  - replace n with e' in W by lia. rewrite Z.sub_diag in W. change (2 ^ 0) with 1 in W. pose proof (encode_shift mb eb s' m e (e - e') ltac:(lia) Pm) as X. replace (e - (e - e')) with e' in X by lia. rewrite <- X. f_equal. lia.
Qed.
Lemma decode_zero (s : bool) mb eb : 0 < mb -> 1 < eb -> fdecode mb eb (if s then 2 ^ (mb + eb) else 0) = Fin s 0 (emin mb eb).
Proof.
  intros Hm He. pose proof (Z.pow_pos_nonneg 2 mb ltac:(lia) ltac:(lia)). pose proof (Z.pow_pos_nonneg 2 eb ltac:(lia) ltac:(lia)).
  rewrite (bits_decode mb eb s 0 0) by (try lia; unfold sgn; lia). reflexivity.
Qed.
(** The bits of a value that some float has have this value. *)
Lemma encode_same mb eb (s : bool) m e b (s' : bool) m' e' : 0 < mb -> 1 < eb -> 0 <= b < 2 ^ (mb + eb + 1) -> fdecode mb eb b = Fin s' m' e' ->
  0 <= m -> eqv (if s then - m else m, e) (if s' then - m' else m', e') ->
  0 <= fencode mb eb s m e < 2 ^ (mb + eb + 1) /\ exists s2 m2 e2, fdecode mb eb (fencode mb eb s m e) = Fin s2 m2 e2 /\ eqv (if s then - m else m, e) (if s2 then - m2 else m2, e2).
Proof.
  intros Hm He H D P V. destruct (Z.eq_dec m 0) as [->|N].
  - unfold fencode. cbn [Z.eqb]. split.
    + rewrite (Z.pow_add_r 2 (mb + eb) 1) by lia. pose proof (Z.pow_pos_nonneg 2 (mb + eb) ltac:(lia) ltac:(lia)). destruct s; lia.
    + exists s, 0, (emin mb eb). split; [now apply decode_zero|]. unfold eqv. cbn. destruct s; reflexivity.
  - rewrite (encode_value mb eb s m e b s' m' e') by (try assumption; lia). split; [exact H|]. eauto.
Qed.

Lemma value_float b : numOk Kfloat b -> forall a, value Kfloat b = Some a -> numOk Kdouble (toDouble b) /\ exists a', value Kdouble (toDouble b) = Some a' /\ eqv a a'.
Proof.
  intros [_ H] a V. cbn in H. unfold value in V. destruct (fdecode 23 8 b) as [s m e| |] eqn:D; try discriminate. injection V as <-.
  unfold toDouble. rewrite D. pose proof (decode_pos 23 8 b s m e ltac:(lia) ltac:(lia) ltac:(cbn; lia) D) as P.
  destruct (Z.eq_dec m 0) as [->|N].
  - split; [split; [intros []|cbn; destruct s; lia]|]. exists (if s then - 0 else 0, -1074). split; [destruct s; reflexivity|]. unfold eqv. cbn [fst snd]. destruct s; reflexivity.
  - assert (R : m < 2 ^ 24 /\ -149 <= e <= 104).
    { revert D. unfold fdecode. pose proof (Z.mod_pos_bound b (2 ^ 23) ltac:(lia)). pose proof (Z.mod_pos_bound (b / 2 ^ 23) (2 ^ 8) ltac:(lia)). change (emin 23 8) with (-149).
      destruct (Z.eqb_spec (b / 2 ^ 23 mod 2 ^ 8) 0); [intros D; assert (m = b mod 2 ^ 23) by congruence; assert (e = -149) by congruence; lia|]. destruct (Z.eqb_spec (b / 2 ^ 23 mod 2 ^ 8) (2 ^ 8 - 1)); [destruct (Z.eqb _ 0); discriminate|].
      intros D. assert (m = 2 ^ 23 + b mod 2 ^ 23) by congruence. assert (e = b / 2 ^ 23 mod 2 ^ 8 - 1 + -149) by congruence. lia. }
    destruct R as [R1 R2]. pose proof (encode_exact s m e ltac:(lia) R2) as X. cbv zeta in X. set (L := Z.log2 m) in *.
    assert (HL : 0 <= L < 24) by (unfold L; split; [apply Z.log2_nonneg|apply Z.log2_lt_pow2; lia]).
    split; [split; [intros []|]|].
    + unfold fencode. destruct (Z.eqb_spec m 0); [lia|]. fold L. change (emin 52 11) with (-1074). rewrite Z.max_l by lia. replace (e - (L + e - 52)) with (52 - L) by lia. unfold nearest.
      destruct (Z.leb_spec 0 (52 - L)); [|lia]. pose proof (Z.pow_pos_nonneg 2 (52 - L) ltac:(lia) ltac:(lia)). cbn [isSigned size]. change (52 + 11) with 63. change (8 * Z.of_nat 8) with 64. set (Y := m * 2 ^ (52 - L)). assert (0 < Y) by (unfold Y; nia). clearbody Y. destruct s; lia.
    + unfold value. rewrite X. eexists. split; [reflexivity|]. apply (eqv_any _ _ (L + e - 52)); cbn [fst snd]; [lia|lia|]. rewrite Z.sub_diag. replace (e - (L + e - 52)) with (52 - L) by lia. destruct s; lia.
Qed.
(** From a double, or from an integer. *)
Lemma cast_double k' b y : numOk Kdouble b -> numOk k' y -> sameValue Kdouble b k' y -> exists y', cast k' (RepDouble b) = Some y' /\ numOk k' y' /\ sameValue Kdouble b k' y'.
Proof.
  intros [_ H] NY (a & a' & V & V' & E). cbn in H. pose proof V as V0. unfold value in V. destruct (fdecode 52 11 b) as [s m e| |] eqn:D; try discriminate. injection V as <-.
  pose proof (decode_pos 52 11 b s m e ltac:(lia) ltac:(lia) ltac:(cbn; lia) D) as P.
  assert (INT : match k' with Kfloat | Kdouble => True | _ =>
     value k' y = Some (y, 0) -> (if s then - (if 0 <=? e then m * 2 ^ e else m / 2 ^ (- e)) else (if 0 <=? e then m * 2 ^ e else m / 2 ^ (- e))) = y end).
  { assert (VI : eqv (if s then - m else m, e) (y, 0) -> (if s then - (if 0 <=? e then m * 2 ^ e else m / 2 ^ (- e)) else (if 0 <=? e then m * 2 ^ e else m / 2 ^ (- e))) = y).
    { unfold eqv. cbn [fst snd]. destruct (Z.leb_spec 0 e).
      - rewrite Z.min_r by lia. rewrite !Z.sub_0_r. change (2 ^ 0) with 1. destruct s; nia.
      - rewrite Z.min_l by lia. rewrite Z.sub_diag. change (2 ^ 0) with 1. change (0 - e) with (- e). pose proof (Z.pow_pos_nonneg 2 (- e) ltac:(lia) ltac:(lia)). intros W.
        destruct s; [replace m with (- y * 2 ^ (- e)) by lia|replace m with (y * 2 ^ (- e)) by lia]; rewrite Z.div_mul by lia; lia. }
    rewrite V' in *. destruct k'; try exact I; intros W; apply VI; injection W as ->; exact E. }
  assert (FIN : forall z, z = y -> value k' y = Some (y, 0) -> match k' with Kfloat | Kdouble => False | _ => True end -> exists y', (if (lo k' <=? z) && (z <? hi k') then Some (castInt k' z) else None) = Some y' /\ numOk k' y' /\ sameValue Kdouble b k' y').
  { intros z -> W KI. exists y. split.
    - destruct NY as [NS NY]. destruct k'; try (elim KI; fail); cbn [lo hi isSigned castInt size] in *;
        try (destruct NY as [->| ->]; reflexivity);
        (match goal with |- (if ?c then _ else _) = _ => replace c with true by lia end; f_equal; first [apply Z.mod_small; exact NY|apply to_signed_id; [cbn; lia|exact NY]]).
    - split; [exact NY|]. exists (if s then - m else m, e), a'. auto. }
  destruct k'; cbn [cast]; rewrite ?D; try (apply FIN; [apply INT; reflexivity|reflexivity|exact I]).
  - unfold toFloat. rewrite D. unfold value in V'. destruct (fdecode 23 8 y) as [s' m' e'| |] eqn:D'; try discriminate. injection V' as <-. destruct NY as [_ NY].
    destruct (encode_same 23 8 s m e y s' m' e' ltac:(lia) ltac:(lia) ltac:(exact NY) D' P E) as (R & s2 & m2 & e2 & D2 & E2).
    eexists. split; [reflexivity|]. split.
    + split; [|exact R]. intros [S1 S2]. unfold fdecode in D2. rewrite S1 in D2. cbn in D2. destruct (Z.eqb_spec (fencode 23 8 s m e mod 8388608) 0) as [Q|Q]; discriminate D2.
    + exists (if s then - m else m, e), (if s2 then - m2 else m2, e2). split; [exact V0|]. split; [unfold value; now rewrite D2|exact E2].
  - exists b. split; [reflexivity|]. split; [split; [intros []|exact H]|]. exists (if s then - m else m, e), (if s then - m else m, e). repeat split; exact V0.
Qed.
Lemma cast_int k k' z y : match k with Kfloat | Kdouble => False | _ => True end -> numOk k' y -> eqv (z, 0) (match value k' y with Some b => b | None => (0, 0) end) -> value k' y <> None ->
  exists y', cast k' (RepInt z) = Some y' /\ numOk k' y' /\ sameValue k z k' y'.
Proof.
  intros KI NY E N. assert (VK : value k z = Some (z, 0)) by (destruct k; try reflexivity; elim KI).
  assert (FL : forall mb eb (s' : bool) m' e', 0 < mb -> 1 < eb -> 0 <= y < 2 ^ (mb + eb + 1) -> fdecode mb eb y = Fin s' m' e' -> eqv (z, 0) (if s' then - m' else m', e') ->
    0 <= fencode mb eb (z <? 0) (Z.abs z) 0 < 2 ^ (mb + eb + 1) /\ exists s2 m2 e2, fdecode mb eb (fencode mb eb (z <? 0) (Z.abs z) 0) = Fin s2 m2 e2 /\ eqv (z, 0) (if s2 then - m2 else m2, e2)).
  { intros mb eb s' m' e' Hm He HY D EQ. pose proof (encode_same mb eb (z <? 0) (Z.abs z) 0 y s' m' e' Hm He HY D ltac:(lia)) as X.
    replace (if z <? 0 then - Z.abs z else Z.abs z) with z in X by (destruct (Z.ltb_spec z 0); lia). auto. }
  destruct k'; cbn [cast]; try (destruct NY as [NS NY]; cbn [value] in E; unfold eqv in E; cbn in E; assert (z = y) as -> by lia; exists y; cbn [castInt isSigned size] in *; split;
    [first [destruct NY as [->| ->]; reflexivity|f_equal; first [apply Z.mod_small; exact NY|apply to_signed_id; [cbn; lia|exact NY]]]|split; [split; [exact NS|exact NY]|exists (y, 0), (y, 0); auto using eqv_refl]]; fail).
  - unfold value in E, N. destruct (fdecode 23 8 y) as [s' m' e'| |] eqn:D'; try congruence. destruct NY as [_ NY].
    destruct (FL 23 8 s' m' e' ltac:(lia) ltac:(lia) NY D' E) as (R & s2 & m2 & e2 & D2 & E2). eexists. split; [reflexivity|]. split.
    + split; [|exact R]. intros [S1 S2]. unfold fdecode in D2. rewrite S1 in D2. cbn in D2. destruct (Z.eqb_spec (fencode 23 8 (z <? 0) (Z.abs z) 0 mod 8388608) 0) as [Q|Q]; discriminate D2.
    + exists (z, 0), (if s2 then - m2 else m2, e2). split; [exact VK|]. split; [unfold value; now rewrite D2|exact E2].
  - unfold value in E, N. destruct (fdecode 52 11 y) as [s' m' e'| |] eqn:D'; try congruence. destruct NY as [_ NY].
    destruct (FL 52 11 s' m' e' ltac:(lia) ltac:(lia) NY D' E) as (R & s2 & m2 & e2 & D2 & E2). eexists. split; [reflexivity|]. split.
    + split; [intros []|exact R].
    + exists (z, 0), (if s2 then - m2 else m2, e2). split; [exact VK|]. split; [unfold value; now rewrite D2|exact E2].
Qed.
Lemma cast_value k k' z : numOk k z -> (exists y, numOk k' y /\ sameValue k z k' y) -> exists y, cast k' (toNumeric k z) = Some y /\ numOk k' y /\ sameValue k z k' y.
Proof.
  intros NZ (y & NY & S). destruct k; cbn [toNumeric];
    try (destruct S as (a & b & V & V' & E); injection V as <-; eapply cast_int; [exact I|exact NY|rewrite V'; exact E|congruence]; fail).
  - destruct S as (a & b & V & V' & E). destruct (value_float z NZ a V) as (ND & a' & VD & ED).
    destruct (cast_double k' (toDouble z) y ND NY) as (y' & C & NY' & (c & d & W & W' & E')).
    { exists a', b. split; [exact VD|]. split; [exact V'|]. eapply eqv_trans; [apply eqv_sym; exact ED|exact E]. }
    exists y'. split; [exact C|]. split; [exact NY'|]. exists a, d. split; [exact V|]. split; [exact W'|]. rewrite VD in W. injection W as <-. eapply eqv_trans; eassumption.
  - eapply cast_double; eauto.
Qed.
