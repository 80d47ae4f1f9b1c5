(* Proofs about keys hashed to 32 bits, and sums of 128 bits. *)
From Coq Require Import Lia ZifyBool ZifyNat.
From Verif Require Import UtilProofs HashSpec.

Lemma lor_plus a b k : 0 <= k -> 0 <= a -> 0 <= b < 2 ^ k -> Z.lor (a * 2 ^ k) b = a * 2 ^ k + b.
Proof.
  intros Hk Ha Hb. assert (D : Z.land (a * 2 ^ k) b = 0).
  { apply Z.bits_inj'. intros i Hi. rewrite Z.land_spec, Z.bits_0, <- Z.shiftl_mul_pow2 by exact Hk. rewrite Z.shiftl_spec by exact Hi. destruct (Z.ltb_spec i k) as [L|L]; [rewrite Z.testbit_neg_r by lia; reflexivity|]. rewrite (testbit_high b k i Hb L). apply andb_false_r. }
  rewrite Z.add_nocarry_lxor by exact D. symmetry. apply Z.lxor_lor, D.
Qed.
Lemma rotl_eq w x k : 0 <= k <= w -> 0 <= x < 2 ^ w -> rotl w x k = (x mod 2 ^ (w - k)) * 2 ^ k + x / 2 ^ (w - k).
Proof.
  intros Hk Hx. unfold rotl. rewrite Z.shiftl_mul_pow2, Z.shiftr_div_pow2 by lia.
  assert (P : 0 < 2 ^ k) by (apply Z.pow_pos_nonneg; lia). assert (Q : 0 < 2 ^ (w - k)) by (apply Z.pow_pos_nonneg; lia). assert (E : 2 ^ w = 2 ^ (w - k) * 2 ^ k) by (rewrite <- Z.pow_add_r by lia; f_equal; lia).
  rewrite E, Z.mul_mod_distr_r by lia. apply lor_plus; [lia|apply Z.mod_pos_bound, Q|]. split; [apply Z.div_pos; lia|]. apply Z.div_lt_upper_bound; [exact Q|]. rewrite <- E. lia.
Qed.
Lemma rotl_inj w k x y : 0 <= k <= w -> 0 <= x < 2 ^ w -> 0 <= y < 2 ^ w -> rotl w x k = rotl w y k -> x = y.
Proof.
  intros Hk Hx Hy. rewrite !rotl_eq by assumption. assert (P : 0 < 2 ^ k) by (apply Z.pow_pos_nonneg; lia). assert (Q : 0 < 2 ^ (w - k)) by (apply Z.pow_pos_nonneg; lia). assert (E : 2 ^ w = 2 ^ (w - k) * 2 ^ k) by (rewrite <- Z.pow_add_r by lia; f_equal; lia).
  assert (B : forall z, 0 <= z < 2 ^ w -> 0 <= z / 2 ^ (w - k) < 2 ^ k). { intros z Hz. split; [apply Z.div_pos; lia|]. apply Z.div_lt_upper_bound; [exact Q|]. rewrite <- E. lia. }
  pose proof (B x Hx) as Bx. pose proof (B y Hy) as By. pose proof (Z.div_mod x (2 ^ (w - k)) ltac:(lia)) as Dx. pose proof (Z.div_mod y (2 ^ (w - k)) ltac:(lia)) as Dy. set (a := x mod 2 ^ (w - k)) in *. set (b := y mod 2 ^ (w - k)) in *. set (c := x / 2 ^ (w - k)) in *. set (d := y / 2 ^ (w - k)) in *. clearbody a b c d. intros H.
  destruct (Z.div_mod_unique (2 ^ k) a b c d) as (Ea & Ec); [lia|lia|lia|]. rewrite Dx, Dy, Ea, Ec. reflexivity.
Qed.
Lemma rotl_32 x k : 0 <= k <= 32 -> is32 x -> is32 (rotl 32 x k).
Proof. intros Hk Hx. apply lor_bound; [lia|apply Z.mod_pos_bound; lia|apply shiftr_bound; [lia|exact Hx]]. Qed.
Lemma u32_32 x : is32 (u32 x).
Proof. apply u32_range. Qed.
Lemma u32_mul_inj a b x y : (a * b) mod 2 ^ 32 = 1 -> is32 x -> is32 y -> u32 (x * a) = u32 (y * a) -> x = y.
Proof. intros M Hx Hy E. rewrite <- (mul_inv (2 ^ 32) a b x ltac:(lia) M Hx), <- (mul_inv (2 ^ 32) a b y ltac:(lia) M Hy). unfold u32 in E. rewrite E. reflexivity. Qed.
Lemma u32_add_inj c x y : u32 (x + c) = u32 (y + c) -> u32 x = u32 y.
Proof. unfold u32. intros E. replace x with (x + c - c) by lia. replace y with (y + c - c) by lia. rewrite (Zminus_mod (x + c)), (Zminus_mod (y + c)), E. reflexivity. Qed.

Definition spread (v : Z) : Z := u32 (rotl 32 (u32 (v * 0xcc9e2d51)) 15 * 0x1b873593).
Lemma spread_inj x y : is32 x -> is32 y -> spread x = spread y -> x = y.
Proof.
  intros Hx Hy E. unfold spread in E. apply (u32_mul_inj _ 0x56ed309b) in E; [|reflexivity|apply rotl_32; [lia|apply u32_32]|apply rotl_32; [lia|apply u32_32]]. apply rotl_inj in E; [|lia|apply u32_32|apply u32_32]. apply (u32_mul_inj _ 0xdee13bb1) in E; [exact E|reflexivity|exact Hx|exact Hy].
Qed.
Lemma feed_eq a v : feed a v = u32 (rotl 32 (Z.lxor a (spread v)) 13 * 5 + 0xe6546b64).
Proof. reflexivity. Qed.
Lemma feed_32 a v : is32 (feed a v).
Proof. rewrite feed_eq. apply u32_32. Qed.
Lemma spread_32 v : is32 (spread v).
Proof. apply u32_32. Qed.
Lemma lxor_32 x y : is32 x -> is32 y -> is32 (Z.lxor x y).
Proof. intros Hx Hy. apply (lxor_bound x y 32); [lia|exact Hx|exact Hy]. Qed.
Lemma feed_mix a b v u : is32 a -> is32 b -> feed a v = feed b u -> Z.lxor a (spread v) = Z.lxor b (spread u).
Proof.
  intros Ha Hb. rewrite !feed_eq. intros E. apply u32_add_inj in E. apply (u32_mul_inj _ 0xcccccccd) in E; [|reflexivity|apply rotl_32; [lia|apply lxor_32; [assumption|apply spread_32]]|apply rotl_32; [lia|apply lxor_32; [assumption|apply spread_32]]].
  apply rotl_inj in E; [exact E|lia|apply lxor_32; [assumption|apply spread_32]|apply lxor_32; [assumption|apply spread_32]].
Qed.
Lemma feed_inj_l a b v : is32 a -> is32 b -> feed a v = feed b v -> a = b.
Proof. intros Ha Hb E. apply feed_mix in E; [|assumption|assumption]. apply (f_equal (fun z => Z.lxor z (spread v))) in E. rewrite !Z.lxor_assoc, Z.lxor_nilpotent, !Z.lxor_0_r in E. exact E. Qed.
Lemma feed_inj_r a v u : is32 a -> is32 v -> is32 u -> feed a v = feed a u -> v = u.
Proof. intros Ha Hv Hu E. apply feed_mix in E; [|assumption|assumption]. apply (f_equal (Z.lxor a)) in E. rewrite <- !Z.lxor_assoc, Z.lxor_nilpotent, !Z.lxor_0_l in E. apply spread_inj; assumption. Qed.
Lemma feeds_32 ws : forall a, is32 a -> is32 (fold_left feed ws a).
Proof. induction ws as [|w ws IH]; intros a Ha; [exact Ha|]. apply IH, feed_32. Qed.
Lemma feeds_inj ws : forall a b, is32 a -> is32 b -> fold_left feed ws a = fold_left feed ws b -> a = b.
Proof. induction ws as [|w ws IH]; intros a b Ha Hb E; [exact E|]. cbn [fold_left] in E. apply IH in E; [|apply feed_32|apply feed_32]. apply feed_inj_l in E; assumption. Qed.
Lemma finalize_avalanche h : finalize h = avalanche32 h.
Proof. reflexivity. Qed.
Lemma avalanche32_inj x y : is32 x -> is32 y -> avalanche32 x = avalanche32 y -> x = y.
Proof. intros Hx Hy E. rewrite <- (avalanche32_inv x Hx), <- (avalanche32_inv y Hy), E. reflexivity. Qed.

Theorem hash32_inj x y : is32 x -> is32 y -> hash32 x = hash32 y -> x = y.
Proof. apply avalanche32_inj. Qed.

(* ---- keys as words ---- *)
Lemma tail3 a b c : is_byte a -> is_byte b -> is_byte c -> tailWord 0 [a; b; c] = 65536 * a + 256 * b + c.
Proof.
  unfold is_byte. intros Ha Hb Hc. cbn [tailWord]. change (u32 (Z.shiftl 0 8)) with 0. rewrite Z.lor_0_l. rewrite (Z.shiftl_mul_pow2 a) by lia. unfold u32. rewrite (Z.mod_small (a * 2 ^ 8)) by lia. rewrite (lor_plus a b 8) by lia. rewrite Z.shiftl_mul_pow2 by lia. rewrite Z.mod_small by lia. rewrite (lor_plus (a * 2 ^ 8 + b) c 8) by lia. lia.
Qed.
Lemma tail2 a b : is_byte a -> is_byte b -> tailWord 0 [a; b] = 256 * a + b.
Proof.
  unfold is_byte. intros Ha Hb. cbn [tailWord]. change (u32 (Z.shiftl 0 8)) with 0. rewrite Z.lor_0_l. rewrite (Z.shiftl_mul_pow2 a) by lia. unfold u32. rewrite (Z.mod_small (a * 2 ^ 8)) by lia. rewrite (lor_plus a b 8) by lia. lia.
Qed.
Lemma le4 a b c d : le [a; b; c; d] = a + 256 * b + 65536 * c + 16777216 * d.
Proof. cbn [le]. lia. Qed.
Lemma four (P : list Z -> Prop) : P [] -> (forall a, P [a]) -> (forall a b, P [a; b]) -> (forall a b c, P [a; b; c]) -> (forall a b c d l, P l -> P (a :: b :: c :: d :: l)) -> forall l, P l.
Proof.
  intros P0 P1 P2 P3 P4. fix F 1. intros [|a [|b [|c [|d l]]]]; [exact P0|apply P1|apply P2|apply P3|apply P4, F].
Qed.
Lemma feedBytes_groups l : forall acc, bytes_ok l -> feedBytes acc l = fold_left feed (groups l) acc.
Proof.
  induction l as [|a|a b|a b c|a b c d l IH] using four; intros acc H; unfold bytes_ok in *; repeat match goal with H : Forall is_byte (_ :: _) |- _ => apply Forall_cons_iff in H; destruct H end.
  - reflexivity.
  - reflexivity.
  - cbn [feedBytes groups fold_left]. rewrite tail2 by assumption. reflexivity.
  - cbn [feedBytes groups fold_left]. rewrite tail3 by assumption. reflexivity.
  - cbn [feedBytes groups fold_left]. rewrite IH by assumption. rewrite le4. reflexivity.
Qed.
Lemma groups_32 l : bytes_ok l -> Forall is32 (groups l).
Proof.
  induction l as [|a|a b|a b c|a b c d l IH] using four; intros H; unfold bytes_ok in *; repeat match goal with H : Forall is_byte (_ :: _) |- _ => apply Forall_cons_iff in H; destruct H end; unfold is_byte in *; cbn [groups]; repeat (apply Forall_cons; [unfold is32; lia|]); try apply Forall_nil. apply IH. assumption.
Qed.
Lemma feedPart_words p acc : partOk p -> feedPart acc p = fold_left feed (wordsOf p) acc.
Proof.
  destruct p as [x|x|b|l]; intros H; cbn [feedPart wordsOf partOk] in *; try reflexivity; [|apply feedBytes_groups, H].
  cbn [fold_left]. unfold feed64, u32, is64 in *. rewrite Z.shiftr_div_pow2 by lia. rewrite (Z.mod_small (x / 2 ^ 32)); [reflexivity|]. split; [apply Z.div_pos; lia|apply Z.div_lt_upper_bound; lia].
Qed.
Lemma wordsOf_32 p : partOk p -> Forall is32 (wordsOf p).
Proof.
  destruct p as [x|x|b|l]; intros H; cbn [wordsOf partOk] in *; [| | |apply groups_32, H]; repeat (apply Forall_cons; [|]); try apply Forall_nil; try exact H.
  - unfold is32. apply Z.mod_pos_bound. lia.
  - unfold is32, is64 in *. split; [apply Z.div_pos; lia|apply Z.div_lt_upper_bound; lia].
  - destruct (zeroFloat b); [unfold is32; lia|exact H].
Qed.
Lemma feedParts_words ps : Forall partOk ps -> forall acc, fold_left feedPart ps acc = fold_left feed (flat_map wordsOf ps) acc.
Proof. induction 1 as [|p ps Hp Hps IH]; intros acc; [reflexivity|]. cbn [fold_left flat_map]. rewrite fold_left_app, <- feedPart_words by exact Hp. apply IH. Qed.
Theorem hash_words ps qs : Forall partOk ps -> Forall partOk qs -> flat_map wordsOf ps = flat_map wordsOf qs -> hashOf ps = hashOf qs.
Proof. intros Hp Hq E. unfold hashOf. rewrite !feedParts_words by assumption. rewrite E. reflexivity. Qed.
Lemma flat_32 ps : Forall partOk ps -> Forall is32 (flat_map wordsOf ps).
Proof. induction 1 as [|p ps Hp Hps IH]; [constructor|]. cbn [flat_map]. apply Forall_app. split; [apply wordsOf_32, Hp|exact IH]. Qed.
Theorem one_word ps qs a v u b : Forall partOk ps -> Forall partOk qs -> flat_map wordsOf ps = a ++ v :: b -> flat_map wordsOf qs = a ++ u :: b -> v <> u -> hashOf ps <> hashOf qs.
Proof.
  intros Hp Hq Ep Eq N E. apply N. pose proof (flat_32 ps Hp) as Fp. pose proof (flat_32 qs Hq) as Fq. rewrite Ep in Fp. rewrite Eq in Fq. apply Forall_app in Fp. destruct Fp as (_ & Fp). apply Forall_app in Fq. destruct Fq as (_ & Fq). apply Forall_inv in Fp. apply Forall_inv in Fq.
  unfold hashOf in E. rewrite !feedParts_words, Ep, Eq in E by assumption. rewrite !finalize_avalanche in E. assert (Z0 : is32 0) by (unfold is32; lia). apply avalanche32_inj in E; [|apply feeds_32, Z0|apply feeds_32, Z0]. rewrite !fold_left_app in E. cbn [fold_left] in E. apply feeds_inj in E; [|apply feed_32|apply feed_32]. apply feed_inj_r in E; [exact E|apply feeds_32, Z0|exact Fp|exact Fq].
Qed.
Theorem float_equal a b x y : floatEq x y -> hashOf (a ++ PFloat x :: b) = hashOf (a ++ PFloat y :: b).
Proof.
  intros H. unfold hashOf. rewrite !fold_left_app. cbn [fold_left feedPart]. unfold feedFloat. destruct H as [->|(Hx & Hy)]; [reflexivity|].
  assert (Z0 : forall v, zeroFloat v = true -> (if isZero v then 0 else v) = 0) by (intros v Hv; unfold zeroFloat in Hv; apply orb_prop in Hv; destruct Hv as [Hv|Hv]; apply Z.eqb_eq in Hv; subst v; reflexivity).
  rewrite (Z0 x Hx), (Z0 y Hy). reflexivity.
Qed.

(* ---- what collides ---- *)
Lemma groups_app a b : (length a mod 4 = 0)%nat -> groups (a ++ b) = groups a ++ groups b.
Proof.
  induction a as [|x|x y|x y z|x y z w a IH] using four; intros H; [reflexivity|discriminate H|discriminate H|discriminate H|]. cbn [app groups]. f_equal. apply IH. replace (length (x :: y :: z :: w :: a)) with (length a + 1 * 4)%nat in H by (cbn [length]; lia). rewrite Nat.mod_add in H by lia. exact H.
Qed.
Theorem boundary_collision p q a b : (length a mod 4 = 0)%nat -> Forall partOk p -> Forall partOk q -> bytes_ok a -> bytes_ok b -> hashOf (p ++ PBytes a :: PBytes b :: q) = hashOf (p ++ PBytes (a ++ b) :: q).
Proof.
  intros L Hp Hq Ha Hb. assert (Hab : bytes_ok (a ++ b)) by (apply Forall_app; split; assumption). apply hash_words; [apply Forall_app; split; [exact Hp|repeat (apply Forall_cons; [assumption|]); exact Hq]|apply Forall_app; split; [exact Hp|apply Forall_cons; [exact Hab|exact Hq]]|].
  rewrite !flat_map_app. cbn [flat_map wordsOf]. rewrite groups_app by exact L. rewrite <- app_assoc. reflexivity.
Qed.
Theorem nul_collision p q a t : (length a mod 4 = 0)%nat -> (1 <= length t <= 2)%nat -> Forall partOk p -> Forall partOk q -> bytes_ok (a ++ t) -> hashOf (p ++ PBytes (a ++ t) :: q) = hashOf (p ++ PBytes (a ++ 0 :: t) :: q).
Proof.
  intros L Lt Hp Hq Hat. assert (H0 : bytes_ok (a ++ 0 :: t)) by (apply Forall_app in Hat; destruct Hat as (Ha & Ht); apply Forall_app; split; [exact Ha|apply Forall_cons; [unfold is_byte; lia|exact Ht]]).
  apply hash_words; [apply Forall_app; split; [exact Hp|apply Forall_cons; [exact Hat|exact Hq]]|apply Forall_app; split; [exact Hp|apply Forall_cons; [exact H0|exact Hq]]|].
  rewrite !flat_map_app. cbn [flat_map wordsOf]. rewrite !groups_app by exact L. do 2 f_equal. f_equal. destruct t as [|x [|y [|z t]]]; cbn [length] in Lt; try lia; cbn [groups]; f_equal; lia.
Qed.
Theorem hash64_collision x : is64 x -> exists y, is64 y /\ y <> x /\ hash64 y = hash64 x.
Proof.
  intros Hx. pose proof (avalanche64_range x Hx) as R. set (h := avalanche64 x) in *. set (h' := (h + 2 ^ 32) mod 2 ^ 64). assert (R' : 0 <= h' < 2 ^ 64) by (apply Z.mod_pos_bound; lia). exists (deavalanche64 h').
  assert (Dr : is64 (deavalanche64 h')).
  { unfold is64, deavalanche64. repeat first [apply xorshr_bound; [lia|lia|]|apply u64_range]. }
  split; [exact Dr|]. split.
  - intros E. apply (f_equal avalanche64) in E. rewrite deavalanche64_inv in E by exact R'. fold h in E. unfold h' in E. clearbody h. destruct (Z.ltb_spec (h + 2 ^ 32) (2 ^ 64)) as [S|S]; [rewrite Z.mod_small in E by lia; lia|]. rewrite <- (Z_mod_plus_full (h + 2 ^ 32) (-1)) in E. rewrite Z.mod_small in E by lia. lia.
  - unfold hash64. rewrite deavalanche64_inv by exact R'. fold h. unfold h', u32. change (2 ^ 64) with (2 ^ 32 * 2 ^ 32). rewrite Z.rem_mul_r by lia. rewrite Z.mul_comm, Z_mod_plus_full, Z.mod_mod by lia. rewrite <- (Z.mul_1_l (2 ^ 32)) at 1. rewrite Z_mod_plus_full. reflexivity.
Qed.

(* ---- sums ---- *)
Theorem add128_ok x y : is64 (fst x) -> is64 (snd x) -> is64 (fst y) -> is64 (snd y) -> value128 (add128 x y) = (value128 x + value128 y) mod 2 ^ 128 /\ is64 (fst (add128 x y)) /\ is64 (snd (add128 x y)).
Proof.
  destruct x as (a, b), y as (c, d). unfold is64, value128, add128, u64. cbn [fst snd]. intros Ha Hb Hc Hd. split; [|split; apply Z.mod_pos_bound; lia].
  apply (Z.mod_unique _ _ ((a + c + (if (b + d) mod 2 ^ 64 <? d then 1 else 0)) / 2 ^ 64)).
  - left. pose proof (Z.mod_pos_bound ((a + c) mod 2 ^ 64 + (if (b + d) mod 2 ^ 64 <? d then 1 else 0)) (2 ^ 64) ltac:(lia)). pose proof (Z.mod_pos_bound (b + d) (2 ^ 64) ltac:(lia)). lia.
  - rewrite Z.add_mod_idemp_l by lia. set (cy := if (b + d) mod 2 ^ 64 <? d then 1 else 0). assert (E : (b + d) mod 2 ^ 64 = b + d - 2 ^ 64 * cy).
    { unfold cy. destruct (Z.ltb_spec (b + d) (2 ^ 64)) as [S|S].
      - rewrite Z.mod_small by lia. destruct (Z.ltb_spec (b + d) d); lia.
      - replace (b + d) with ((b + d - 2 ^ 64) + 1 * 2 ^ 64) by lia. rewrite Z_mod_plus_full, Z.mod_small by lia. destruct (Z.ltb_spec (b + d - 2 ^ 64) d); lia. }
    clearbody cy. rewrite E. pose proof (Z.div_mod (a + c + cy) (2 ^ 64) ltac:(lia)) as D. lia.
Qed.
