From Coq Require Import Lra Lia.
From Verif Require Export MathSpec.
Local Open Scope R_scope.

Ltac vec := repeat match goal with v : v3 |- _ => destruct v | v : v4 |- _ => destruct v | m : m3 |- _ => destruct m | m : m34 |- _ => destruct m | m : m4 |- _ => destruct m | v : v2 |- _ => destruct v end.
Ltac open := cbv [isRotation turned unit4 orthonormal rotationMatrix point inner outer plus times origin
  q_rotate q_mul q_inverted q_identity xyz v3w add3 sub3 scale3 neg3 neg4 mul3 cross3 dot3 m3_apply m3_mul m3_transposed m3_fromQuaternion m34_apply m34_apply4 m34_linear m34_of
  m34_fromQuaternion m34_mul m34_invertedOrtho m34_scale m34_translation m34_toFloat4x4 m4_apply m4_mul m4_transposed m4_fromQuaternion m4_of m4_scale m4_invertedOrtho setW m34_mul4 m4_mul34
  qp_apply qp_mul qp_inverted qps_apply qps_after qps_toFloat4x4 qps_toFloat3x4 rotateUnitX rotateUnitY rotateUnitZ length2_3 length2_4 mix1 sub4
  vx vy vz wx wy wz ww a0 a1 a2 b0 b1 b2 b3 c0 c1 c2 c3 quat pos sQuat sPos sScale x2 y2] in *.
Lemma V3_eq a b c a' b' c' : a = a' -> b = b' -> c = c' -> V3 a b c = V3 a' b' c'.
Proof. congruence. Qed.
Lemma V4_eq a b c d a' b' c' d' : a = a' -> b = b' -> c = c' -> d = d' -> V4 a b c d = V4 a' b' c' d'.
Proof. congruence. Qed.
Lemma M3_eq a b c a' b' c' : a = a' -> b = b' -> c = c' -> M3 a b c = M3 a' b' c'.
Proof. congruence. Qed.
Lemma M34_eq a b c d a' b' c' d' : a = a' -> b = b' -> c = c' -> d = d' -> M34 a b c d = M34 a' b' c' d'.
Proof. congruence. Qed.
Lemma M4_eq a b c d a' b' c' d' : a = a' -> b = b' -> c = c' -> d = d' -> M4 a b c d = M4 a' b' c' d'.
Proof. congruence. Qed.
Ltac parts := repeat first [apply V3_eq | apply V4_eq | apply M3_eq | apply M34_eq | apply M4_eq].

(** ** Quaternions *)
Definition norm (q : v4) : R := wx q * wx q + wy q * wy q + wz q * wz q + ww q * ww q.
(** [q v q*], for all quaternions. *)
Definition sandwich (q : v4) (v : v3) : v3 :=
  plus (plus (times (ww q * ww q - inner (xyz q) (xyz q)) v) (times (2 * inner (xyz q) v) (xyz q))) (times (2 * ww q) (outer (xyz q) v)).
Lemma rotate_sandwich q v : q_rotate q v = plus (sandwich q v) (times (1 - norm q) v).
Proof. vec. unfold sandwich, norm. open. parts; ring. Qed.
Lemma unit_sandwich q v : unit4 q -> q_rotate q v = sandwich q v.
Proof. intros H. rewrite rotate_sandwich. unfold norm. unfold unit4 in H. rewrite H. destruct (sandwich q v). vec. open. parts; ring. Qed.
Lemma sandwich_mul a b v : sandwich (q_mul a b) v = sandwich a (sandwich b v).
Proof. vec. unfold sandwich. open. parts; ring. Qed.
Lemma norm_mul a b : norm (q_mul a b) = norm a * norm b.
Proof. vec. unfold norm. open. ring. Qed.
Lemma unit_mul a b : unit4 a -> unit4 b -> unit4 (q_mul a b).
Proof. intros A B. pose proof (norm_mul a b) as H. unfold norm in H. unfold unit4 in *. rewrite H, A, B. ring. Qed.
Lemma unit_inverted a : unit4 a -> unit4 (q_inverted a).
Proof. unfold unit4. intros <-. vec. open. ring. Qed.
Lemma rotate_mul a b v : unit4 a -> unit4 b -> q_rotate (q_mul a b) v = q_rotate a (q_rotate b v).
Proof. intros A B. rewrite !unit_sandwich by auto using unit_mul. apply sandwich_mul. Qed.
Lemma mul_inverted a : unit4 a -> q_mul (q_inverted a) a = q_identity /\ q_mul a (q_inverted a) = q_identity.
Proof. intros H. unfold unit4 in H. vec. open. split; parts; try ring; rewrite <- H; ring. Qed.
Lemma rotate_identity v : q_rotate q_identity v = v.
Proof. vec. open. parts; ring. Qed.
Lemma rotate_inverted q v : unit4 q -> q_rotate (q_inverted q) (q_rotate q v) = v /\ q_rotate q (q_rotate (q_inverted q) v) = v.
Proof.
  intros H. pose proof (unit_inverted q H) as H'. rewrite <- !rotate_mul by assumption. destruct (mul_inverted q H) as [-> ->]. split; apply rotate_identity.
Qed.
Lemma rotation q : unit4 q -> isRotation (q_rotate q).
Proof.
  intros H. split; [|split].
  - intros. vec. open. parts; ring.
  - intros a b. rewrite !unit_sandwich by exact H. transitivity (norm q * norm q * inner a b); [vec; unfold sandwich, norm; open; ring|]. unfold norm. unfold unit4 in H. rewrite H. ring.
  - intros a b. rewrite !unit_sandwich by exact H. transitivity (times (norm q) (sandwich q (outer a b))).
    + unfold norm. unfold unit4 in H. rewrite H. destruct (sandwich q (outer a b)). open. parts; ring.
    + vec. unfold sandwich, norm. open. parts; ring.
Qed.
Lemma mul_assoc a b c : q_mul (q_mul a b) c = q_mul a (q_mul b c).
Proof. vec. open. parts; ring. Qed.
Lemma unit_axes q : rotateUnitX q = q_rotate q (V3 1 0 0) /\ rotateUnitY q = q_rotate q (V3 0 1 0) /\ rotateUnitZ q = q_rotate q (V3 0 0 1).
Proof. vec. open. repeat split; parts; ring. Qed.
Lemma isUnit_exact u : inner u u = 1 -> isUnit u = true.
Proof.
  intros H. unfold isUnit. change (length2_3 u) with (inner u u). rewrite H. destruct (Rlt_dec _ _) as [L|L]; [reflexivity|]. exfalso. apply L.
  replace (1 - 1) with 0 by ring. rewrite Rabs_R0. lra.
Qed.
Lemma axis_angle u angle : inner u u = 1 -> exists q, fromAxisAngle u angle = Some q /\ unit4 q /\ forall v, q_rotate q v = turned u angle v.
Proof.
  intros H. unfold fromAxisAngle. rewrite (isUnit_exact u H). eexists. split; [reflexivity|].
  pose proof (sin2_cos2 (angle / 2)) as P. unfold Rsqr in P.
  assert (C : cos angle = 1 - 2 * (sin (angle / 2) * sin (angle / 2))).
  { replace angle with (2 * (angle / 2)) at 1 by field. rewrite cos_2a_sin. ring. }
  assert (Sn : sin angle = 2 * sin (angle / 2) * cos (angle / 2)).
  { replace angle with (2 * (angle / 2)) at 1 by field. rewrite sin_2a. ring. }
  set (s := sin (angle / 2)) in *. set (c := cos (angle / 2)) in *. clearbody s c. split.
  - unfold inner in H. unfold unit4. cbn. transitivity (s * s * (vx u * vx u + vy u * vy u + vz u * vz u) + c * c); [ring|]. rewrite H. lra.
  - intros v. unfold turned. rewrite C, Sn. destruct u as [a b d], v as [x y z]. open.
    assert (E : d * d = 1 - a * a - b * b) by lra.
    parts.
    + transitivity (x - 2 * (s * s) * x * (a*a + b*b + d*d) + 2 * s * c * (b * z - d * y) + 2 * (s * s) * (a * x + b * y + d * z) * a); [ring|]. rewrite H. ring.
    + transitivity (y - 2 * (s * s) * y * (a*a + b*b + d*d) + 2 * s * c * (d * x - a * z) + 2 * (s * s) * (a * x + b * y + d * z) * b); [ring|]. rewrite H. ring.
    + transitivity (z - 2 * (s * s) * z * (a*a + b*b + d*d) + 2 * s * c * (a * y - b * x) + 2 * (s * s) * (a * x + b * y + d * z) * d); [ring|]. rewrite H. ring.
Qed.
Lemma matrix_rotates q v : m3_apply (m3_fromQuaternion q) v = q_rotate q v.
Proof. vec. open. parts; ring. Qed.

(** ** From matrices *)
Section Ortho.
Variables m00 m01 m02 m10 m11 m12 m20 m21 m22 : R.
Let m := M3 (V3 m00 m01 m02) (V3 m10 m11 m12) (V3 m20 m21 m22).
Hypothesis H : rotationMatrix m.
Lemma cofactors : (m20 = m01*m12 - m02*m11 /\ m21 = m02*m10 - m00*m12 /\ m22 = m00*m11 - m01*m10) /\
  (m00 = m11*m22 - m12*m21 /\ m01 = m12*m20 - m10*m22 /\ m02 = m10*m21 - m11*m20) /\
  (m10 = m21*m02 - m22*m01 /\ m11 = m22*m00 - m20*m02 /\ m12 = m20*m01 - m21*m00).
Proof.
  unfold m in H. open. destruct H as ((A & B & C & D & E & F) & G). injection G as G0 G1 G2. split; [repeat split; symmetry; assumption|].
  split; repeat split.
  - rewrite <- G1, <- G2. transitivity (m00 * (m10*m10+m11*m11+m12*m12) - m10 * (m00*m10+m01*m11+m02*m12)); [rewrite B, D; ring|ring].
  - rewrite <- G0, <- G2. transitivity (m01 * (m10*m10+m11*m11+m12*m12) - m11 * (m00*m10+m01*m11+m02*m12)); [rewrite B, D; ring|ring].
  - rewrite <- G0, <- G1. transitivity (m02 * (m10*m10+m11*m11+m12*m12) - m12 * (m00*m10+m01*m11+m02*m12)); [rewrite B, D; ring|ring].
  - rewrite <- G1, <- G2. transitivity (m10 * (m00*m00+m01*m01+m02*m02) - m00 * (m00*m10+m01*m11+m02*m12)); [rewrite A, D; ring|ring].
  - rewrite <- G0, <- G2. transitivity (m11 * (m00*m00+m01*m01+m02*m02) - m01 * (m00*m10+m01*m11+m02*m12)); [rewrite A, D; ring|ring].
  - rewrite <- G0, <- G1. transitivity (m12 * (m00*m00+m01*m01+m02*m02) - m02 * (m00*m10+m01*m11+m02*m12)); [rewrite A, D; ring|ring].
Qed.
Lemma rows : (m00*m00+m10*m10+m20*m20 = 1 /\ m01*m01+m11*m11+m21*m21 = 1 /\ m02*m02+m12*m12+m22*m22 = 1) /\
  (m00*m01+m10*m11+m20*m21 = 0 /\ m01*m02+m11*m12+m21*m22 = 0 /\ m02*m00+m12*m10+m22*m20 = 0).
Proof.
  pose proof cofactors as ((P0 & P1 & P2) & (Q0 & Q1 & Q2) & (R0 & R1 & R2)). unfold m in H. open. destruct H as ((A & B & C & D & E & F) & _).
  assert (DET : m00 * (m11*m22 - m12*m21) + m01 * (m12*m20 - m10*m22) + m02 * (m10*m21 - m11*m20) = 1) by (rewrite <- Q0, <- Q1, <- Q2; exact A).
  split; repeat split.
  - transitivity (m00 * (m11*m22 - m12*m21) + m10 * (m21*m02 - m22*m01) + m20 * (m01*m12 - m02*m11)); [rewrite <- Q0, <- R0, <- P0; ring|]. rewrite <- DET. ring.
  - transitivity (m01 * (m12*m20 - m10*m22) + m11 * (m22*m00 - m20*m02) + m21 * (m02*m10 - m00*m12)); [rewrite <- Q1, <- R1, <- P1; ring|]. rewrite <- DET. ring.
  - transitivity (m02 * (m10*m21 - m11*m20) + m12 * (m20*m01 - m21*m00) + m22 * (m00*m11 - m01*m10)); [rewrite <- Q2, <- R2, <- P2; ring|]. rewrite <- DET. ring.
  - transitivity (m00 * (m12*m20 - m10*m22) + m10 * (m22*m00 - m20*m02) + m20 * (m02*m10 - m00*m12)); [rewrite <- Q1, <- R1, <- P1; ring|ring].
  - transitivity (m01 * (m10*m21 - m11*m20) + m11 * (m20*m01 - m21*m00) + m21 * (m00*m11 - m01*m10)); [rewrite <- Q2, <- R2, <- P2; ring|ring].
  - transitivity (m02 * (m11*m22 - m12*m21) + m12 * (m21*m02 - m22*m01) + m22 * (m01*m12 - m02*m11)); [rewrite <- Q0, <- R0, <- P0; ring|ring].
Qed.
(** Four times the products of two components of the quaternion. *)
Let tw := 1 + m00 + m11 + m22. Let tx := 1 + m00 - m11 - m22. Let ty := 1 - m00 + m11 - m22. Let tz := 1 - m00 - m11 + m22.
Let xy := m01 + m10. Let xz := m20 + m02. Let yz := m12 + m21. Let xw := m12 - m21. Let yw := m20 - m02. Let zw := m01 - m10.
Lemma minors : (xw*xw = tx*tw /\ yw*yw = ty*tw /\ zw*zw = tz*tw /\ xy*xy = tx*ty /\ xz*xz = tx*tz /\ yz*yz = ty*tz) /\
  (xw*yw = xy*tw /\ xw*zw = xz*tw /\ yw*zw = yz*tw) /\ (xy*xz = yz*tx /\ xy*xw = yw*tx /\ xz*xw = zw*tx) /\
  (xy*yz = xz*ty /\ xy*yw = xw*ty /\ yz*yw = zw*ty) /\ (xz*yz = xy*tz /\ xz*zw = xw*tz /\ yz*zw = yw*tz).
Proof.
  pose proof cofactors as ((P0 & P1 & P2) & (Q0 & Q1 & Q2) & (R0 & R1 & R2)). pose proof rows as ((S0 & S1 & S2) & (T0 & T1 & T2)). unfold m in H. open. destruct H as ((A & B & C & D & E & F) & _).
  unfold tw, tx, ty, tz, xy, xz, yz, xw, yw, zw. clear H m tw tx ty tz xy xz yz xw yw zw.
  repeat split; lra.
Qed.
Lemma products x y z w : 4*(x*x) = tx -> 4*(y*y) = ty -> 4*(z*z) = tz -> 4*(w*w) = tw ->
  4*(x*y) = xy -> 4*(x*z) = xz -> 4*(y*z) = yz -> 4*(x*w) = xw -> 4*(y*w) = yw -> 4*(z*w) = zw ->
  unit4 (V4 x y z w) /\ m3_fromQuaternion (V4 x y z w) = m.
Proof. unfold tw, tx, ty, tz, xy, xz, yz, xw, yw, zw, m. clear. intros. open. split; [lra|]. parts; lra. Qed.
Lemma from k t s : 0 < t -> (s = 1 \/ s = 0) -> k = sqrt t * (s - 1/2) -> 4 * (k * k) = t /\ k <> 0.
Proof.
  intros T Q ->. pose proof (sqrt_sqrt t (Rlt_le _ _ T)) as E. pose proof (sqrt_lt_R0 t T) as P. destruct Q as [-> | ->]; (split; [rewrite <- E at 3; field|lra]).
Qed.
Lemma quarter k : k <> 0 -> 4 * (k * (1 / 4 / k)) = 1.
Proof. intros. field. exact H0. Qed.
Lemma scaled a b c t k : 4 * (k * k) = t -> k <> 0 -> a * b = c * t -> 4 * ((a * (1/4/k)) * (b * (1/4/k))) = c.
Proof. intros T K E. transitivity (4 * (a * b) * ((1/4/k) * (1/4/k))); [ring|]. rewrite E, <- T. field. exact K. Qed.
Lemma scaled1 a k : k <> 0 -> 4 * (k * (a * (1/4/k))) = a.
Proof. intros K. field. exact K. Qed.
Lemma fromOrtho_spec : exists q, fromOrtho m = Some q /\ unit4 q /\ m3_fromQuaternion q = m.
Proof.
  pose proof minors as ((M1 & M2 & M3' & M4' & M5 & M6) & (W1 & W2 & W3) & (X1 & X2 & X3) & (Y1 & Y2 & Y3) & (Z1 & Z2 & Z3)).
  unfold fromOrtho. cbn [m a0 a1 a2 vx vy vz]. fold tw. fold tx. fold ty. fold tz. fold xw. fold yw. fold zw. fold xy. fold xz. fold yz.
  unfold geq at 1. destruct (Rle_dec (1/2) tw) as [L|L].
  { eexists. split; [reflexivity|]. assert (B : 4 * (sqrt tw * (1/2) * (sqrt tw * (1/2))) = tw /\ sqrt tw * (1/2) <> 0) by (apply from with (s := 1); [lra|left; reflexivity|field]). destruct B as [B N].
    set (k := sqrt tw * (1/2)) in *. clearbody k.
    apply products; try exact B; try (rewrite Rmult_comm with (r2 := k); apply scaled1; exact N); try (apply scaled with (t := tw); assumption).
    all: rewrite (Rmult_comm (_ * _) k); apply scaled1; exact N. }
  unfold geq at 1. destruct (Rle_dec (1/2) tx) as [L1|L1].
  { eexists. split; [reflexivity|]. assert (B : 4 * (sqrt tx * (bool01 (geq xw 0) - 1/2) * (sqrt tx * (bool01 (geq xw 0) - 1/2))) = tx /\ sqrt tx * (bool01 (geq xw 0) - 1/2) <> 0) by (apply from with (s := bool01 (geq xw 0)); [lra|unfold bool01; destruct (geq xw 0); auto|reflexivity]). destruct B as [B N].
    set (k := sqrt tx * (bool01 (geq xw 0) - 1/2)) in *. clearbody k.
    apply products; try exact B; try (apply scaled1; exact N); try (apply scaled with (t := tx); [exact B|exact N|lra]). }
  unfold geq at 1. destruct (Rle_dec (1/2) ty) as [L2|L2].
  { eexists. split; [reflexivity|]. assert (B : 4 * (sqrt ty * (bool01 (geq yw 0) - 1/2) * (sqrt ty * (bool01 (geq yw 0) - 1/2))) = ty /\ sqrt ty * (bool01 (geq yw 0) - 1/2) <> 0) by (apply from with (s := bool01 (geq yw 0)); [lra|unfold bool01; destruct (geq yw 0); auto|reflexivity]). destruct B as [B N].
    set (k := sqrt ty * (bool01 (geq yw 0) - 1/2)) in *. clearbody k.
    apply products; try exact B; try (apply scaled1; exact N); try (rewrite (Rmult_comm (_ * _) k); apply scaled1; exact N); try (apply scaled with (t := ty); [exact B|exact N|lra]). }
  unfold geq at 1. destruct (Rle_dec (1/2) tz) as [L3|L3].
  { eexists. split; [reflexivity|]. assert (B : 4 * (sqrt tz * (bool01 (geq zw 0) - 1/2) * (sqrt tz * (bool01 (geq zw 0) - 1/2))) = tz /\ sqrt tz * (bool01 (geq zw 0) - 1/2) <> 0) by (apply from with (s := bool01 (geq zw 0)); [lra|unfold bool01; destruct (geq zw 0); auto|reflexivity]). destruct B as [B N].
    set (k := sqrt tz * (bool01 (geq zw 0) - 1/2)) in *. clearbody k.
    apply products; try exact B; try (apply scaled1; exact N); try (rewrite (Rmult_comm (_ * _) k); apply scaled1; exact N); try (apply scaled with (t := tz); [exact B|exact N|lra]). }
  exfalso. unfold tw, tx, ty, tz in *. lra.
Qed.
End Ortho.
Lemma from_matrix m : rotationMatrix m -> exists q, fromOrtho m = Some q /\ unit4 q /\ forall v, q_rotate q v = m3_apply m v.
Proof.
  intros H. destruct m as [[a b c] [d e f] [g h i]]. destruct (fromOrtho_spec _ _ _ _ _ _ _ _ _ H) as (q & E & U & X). exists q. split; [exact E|]. split; [exact U|].
  intros v. rewrite <- X. symmetry. apply matrix_rotates.
Qed.
Lemma ortho_total m : exists q, fromOrtho m = Some q.
Proof.
  unfold fromOrtho. unfold geq. repeat match goal with |- context [if (if Rle_dec ?a ?b then true else false) then _ else None] => idtac end.
  destruct (Rle_dec (1/2) (1 + vx (a0 m) + vy (a1 m) + vz (a2 m))); [eauto|]. destruct (Rle_dec (1/2) (1 + vx (a0 m) - vy (a1 m) - vz (a2 m))); [eauto|].
  destruct (Rle_dec (1/2) (1 - vx (a0 m) + vy (a1 m) - vz (a2 m))); [eauto|]. destruct (Rle_dec (1/2) (1 - vx (a0 m) - vy (a1 m) + vz (a2 m))); [eauto|]. exfalso. lra.
Qed.
Lemma matrix_is_rotation q : unit4 q -> rotationMatrix (m3_fromQuaternion q).
Proof.
  intros H. destruct (rotation q H) as (_ & I & O). pose proof (matrix_rotates q (V3 1 0 0)) as X. pose proof (matrix_rotates q (V3 0 1 0)) as Y. pose proof (matrix_rotates q (V3 0 0 1)) as Z.
  assert (X' : a0 (m3_fromQuaternion q) = q_rotate q (V3 1 0 0)) by (rewrite <- X; destruct q; open; parts; ring).
  assert (Y' : a1 (m3_fromQuaternion q) = q_rotate q (V3 0 1 0)) by (rewrite <- Y; destruct q; open; parts; ring).
  assert (Z' : a2 (m3_fromQuaternion q) = q_rotate q (V3 0 0 1)) by (rewrite <- Z; destruct q; open; parts; ring).
  unfold rotationMatrix, orthonormal. rewrite X', Y', Z', !I, <- O. split; [open; repeat split; ring|]. f_equal. open. parts; ring.
Qed.
(** Quaternions with the same matrix are the same up to the sign. *)
Lemma same_up_to_sign p q : unit4 p -> unit4 q -> m3_fromQuaternion p = m3_fromQuaternion q -> p = q \/ p = neg4 q.
Proof.
  destruct p as [x y z w], q as [a b c d]. intros P Q E. open. injection E as E1 E2 E3 E4 E5 E6 E7 E8 E9.
  assert (XX : x*x = a*a) by lra. assert (YY : y*y = b*b) by lra. assert (ZZ : z*z = c*c) by lra. assert (WW : w*w = d*d) by lra.
  assert (XY : x*y = a*b) by lra. assert (XZ : x*z = a*c) by lra. assert (YZ : y*z = b*c) by lra. assert (XW : x*w = a*d) by lra. assert (YW : y*w = b*d) by lra. assert (ZW : z*w = c*d) by lra.
  set (s := x*a + y*b + z*c + w*d).
  assert (SA : x = s * a). { unfold s. transitivity (x * (a*a) + (y*x) * 0 + x * (b*b + c*c + d*d)); [transitivity (x * (a*a+b*b+c*c+d*d)); [rewrite Q; ring|ring]|].
    transitivity (x*(a*a) + y*(a*b) + z*(a*c) + w*(a*d)); [|ring]. rewrite <- XY, <- XZ, <- XW, <- YY, <- ZZ, <- WW. ring. }
  assert (SB : y = s * b). { unfold s. transitivity (x*(a*b) + y*(b*b) + z*(b*c) + w*(b*d)); [|ring]. rewrite <- XY, <- YZ, <- YW. transitivity (y * (a*a+b*b+c*c+d*d)); [rewrite Q; ring|]. rewrite <- XX, <- ZZ, <- WW. ring. }
  assert (SC : z = s * c). { unfold s. transitivity (x*(a*c) + y*(b*c) + z*(c*c) + w*(c*d)); [|ring]. rewrite <- XZ, <- YZ, <- ZW. transitivity (z * (a*a+b*b+c*c+d*d)); [rewrite Q; ring|]. rewrite <- XX, <- YY, <- WW. ring. }
  assert (SD : w = s * d). { unfold s. transitivity (x*(a*d) + y*(b*d) + z*(c*d) + w*(d*d)); [|ring]. rewrite <- XW, <- YW, <- ZW. transitivity (w * (a*a+b*b+c*c+d*d)); [rewrite Q; ring|]. rewrite <- XX, <- YY, <- ZZ. ring. }
  assert (S1 : s * s = 1). { transitivity (s * s * (a*a+b*b+c*c+d*d)); [rewrite Q; ring|]. rewrite <- P. rewrite SA at 1 2. rewrite SB at 1 2. rewrite SC at 1 2. rewrite SD at 1 2. ring. }
  assert (C : s = 1 \/ s = -1). { assert (Z0 : (s - 1) * (s + 1) = 0) by lra. apply Rmult_integral in Z0. destruct Z0; [left|right]; lra. }
  clearbody s. destruct C as [-> | ->]; [left|right]; parts; lra.
Qed.
Lemma there_and_back q : unit4 q -> fromOrtho (m3_fromQuaternion q) = Some q \/ fromOrtho (m3_fromQuaternion q) = Some (neg4 q).
Proof.
  intros U. pose proof (matrix_is_rotation q U) as H. destruct (m3_fromQuaternion q) as [[a b c] [d e f] [g h i]] eqn:E.
  destruct (fromOrtho_spec _ _ _ _ _ _ _ _ _ H) as (p & -> & V & X). rewrite <- E in X. destruct (same_up_to_sign p q V U X) as [-> | ->]; auto.
Qed.

(** ** Unit vectors *)
Lemma normalized_spec v : norm v > 0 -> norm (normalized4 v) = 1 /\ forall u, sandwich (normalized4 v) u = times (/ norm v) (sandwich v u).
Proof.
  intros P. unfold normalized4, div4, length4. change (length2_4 v) with (norm v). pose proof (sqrt_sqrt (norm v) (Rlt_le _ _ P)) as Q. pose proof (sqrt_lt_R0 _ P) as S0.
  set (n := norm v) in *. set (r := sqrt n) in *. set (k := 1 / r). assert (K : k * k = / n) by (unfold k; rewrite <- Q; field; lra). split.
  - transitivity (k * k * norm v); [unfold norm; cbn; ring|]. fold n. rewrite K. field. lra.
  - intros u. rewrite <- K. clearbody k. destruct v, u. unfold sandwich. open. parts; ring.
Qed.
Lemma unit_vectors s e : inner s s = 1 -> inner e e = 1 -> inner s e >= -1 + 1/1000000 ->
  unit4 (fromUnitVectors s e) /\ q_rotate (fromUnitVectors s e) s = e.
Proof.
  intros A B C. unfold fromUnitVectors. change (dot3 s e) with (inner s e). change (cross3 s e) with (outer s e). destruct (Rlt_dec (inner s e + 1) (1/1000000)) as [L|L]; [lra|].
  set (d := inner s e) in *.
  assert (N : norm (v3w (outer s e) (d + 1)) = 2 * (d + 1)).
  { transitivity (inner s s * inner e e - d * d + (d + 1) * (d + 1)); [unfold d; destruct s, e; unfold norm; open; ring|]. rewrite A, B. ring. }
  assert (P : norm (v3w (outer s e) (d + 1)) > 0) by lra. destruct (normalized_spec _ P) as [U R]. split; [exact U|]. rewrite unit_sandwich by exact U. rewrite R, N.
  assert (W : sandwich (v3w (outer s e) (d + 1)) s = times (2 * (d + 1)) e).
  { transitivity (plus (times ((d + 1) * (d + 1) - (inner s s * inner e e - d * d) - 2 * (d + 1) * d) s) (times (2 * (d + 1) * inner s s) e)).
    - unfold d. destruct s, e. unfold sandwich. open. parts; ring.
    - rewrite A, B. clearbody d. destruct s, e. open. parts; ring. }
  rewrite W. destruct e. open. parts; field; lra.
Qed.
Lemma opposite s e : inner s s = 1 -> inner e e = 1 -> inner s e < -1 + 1/1000000 ->
  unit4 (fromUnitVectors s e) /\ q_rotate (fromUnitVectors s e) s = times (-1) s.
Proof.
  intros A B C. unfold fromUnitVectors. change (dot3 s e) with (inner s e). destruct (Rlt_dec (inner s e + 1) (1/1000000)) as [L|L]; [|lra].
  set (n := if Rlt_dec (Rabs (vx s)) (9/10) then V3 1 0 0 else V3 0 1 0). change (cross3 s n) with (outer s n).
  assert (N : norm (v3w (outer s n) 0) > 0).
  { replace (norm (v3w (outer s n) 0)) with (inner s s * inner n n - inner s n * inner s n) by (destruct s, n; unfold norm; open; ring). rewrite A.
    unfold n. destruct (Rlt_dec (Rabs (vx s)) (9/10)) as [T|T].
    - assert (vx s < 9/10 /\ -(9/10) < vx s) by (apply Rabs_def2 in T; destruct T; split; lra). destruct s as [a b c]. open. assert (Q : a * a < 1) by nra. lra.
    - assert (vx s >= 9/10 \/ vx s <= -(9/10)). { destruct (Rcase_abs (vx s)) as [Q|Q]; [rewrite (Rabs_left _ Q) in T; right; lra|rewrite (Rabs_right _ Q) in T; left; lra]. }
      destruct s as [a b c]. open. assert (Q : a * a >= 81/100) by (destruct H; nra). pose proof (Rle_0_sqr c) as K. unfold Rsqr in K. lra. }
  destruct (normalized_spec _ N) as [U R]. split; [exact U|]. rewrite unit_sandwich by exact U. rewrite R.
  assert (W : sandwich (v3w (outer s n) 0) s = times (- norm (v3w (outer s n) 0)) s) by (clearbody n; destruct s, n; unfold sandwich, norm; open; parts; ring).
  rewrite W. set (k := norm (v3w (outer s n) 0)) in *. clearbody k. destruct s. open. parts; field; lra.
Qed.

(** ** Mixing *)
Definition inner4 (a b : v4) : R := wx a * wx b + wy a * wy b + wz a * wz b + ww a * ww b.
Lemma closer a b : (negatedIfCloserTo a b = a \/ negatedIfCloserTo a b = neg4 a) /\ inner4 (negatedIfCloserTo a b) b >= 0.
Proof.
  unfold negatedIfCloserTo. destruct (Rlt_dec _ _) as [L|L]; (split; [auto|]); destruct a as [x y z w], b as [c d e f]; unfold inner4; open; lra.
Qed.
Lemma neg_unit q : unit4 q -> unit4 (neg4 q).
Proof. intros H. destruct q. open. lra. Qed.
Lemma neg_rotates q v : q_rotate (neg4 q) v = q_rotate q v.
Proof. destruct q, v. open. parts; ring. Qed.
Lemma normalized_unit q : unit4 q -> normalized4 q = q.
Proof. intros H. unfold normalized4, div4, length4. unfold unit4 in H. unfold length2_4. rewrite H, sqrt_1. destruct q. cbn. parts; field. Qed.
Lemma mix_spec a b f : unit4 a -> unit4 b -> 0 <= f <= 1 -> unit4 (q_mix a b f).
Proof.
  intros A B F. unfold q_mix. destruct (closer a b) as [C D]. set (c := negatedIfCloserTo a b) in *. assert (U : unit4 c) by (destruct C as [-> | ->]; auto using neg_unit).
  apply normalized_spec. replace (norm (mix4 c b f)) with ((1-f)*(1-f) * norm c + f*f * norm b + 2*f*(1-f) * inner4 c b) by (clearbody c; destruct c, b; unfold norm, inner4; cbn; unfold mix1; ring).
  change (norm c = 1) in U. change (norm b = 1) in B. rewrite U, B.
  assert (K : 0 <= 2*f*(1-f) * inner4 c b) by (apply Rmult_le_pos; [|lra]; apply Rmult_le_pos; lra).
  assert (T : 0 <= (2*f - 1) * (2*f - 1)) by apply Rle_0_sqr. lra.
Qed.
Lemma mix_start a b v : unit4 a -> q_rotate (q_mix a b 0) v = q_rotate a v.
Proof.
  intros A. unfold q_mix. destruct (closer a b) as [C _]. set (c := negatedIfCloserTo a b) in *. assert (U : unit4 c) by (destruct C as [-> | ->]; auto using neg_unit).
  replace (mix4 c b 0) with c by (clearbody c; destruct c, b; unfold mix4, mix1; cbn; parts; ring). rewrite normalized_unit by exact U. destruct C as [-> | ->]; [reflexivity|apply neg_rotates].
Qed.
Lemma mix_end a b : unit4 b -> q_mix a b 1 = b.
Proof.
  intros B. unfold q_mix. destruct (negatedIfCloserTo a b) as [x y z w]. replace (mix4 (V4 x y z w) b 1) with b by (destruct b; unfold mix4, mix1; cbn; parts; ring). apply normalized_unit. exact B.
Qed.

(** ** Matrices *)
Lemma m34_mul_apply a b v : m34_apply (m34_mul a b) v = m34_apply a (m34_apply b v).
Proof. vec. open. parts; ring. Qed.
Lemma m3_mul_apply a b v : m3_apply (m3_mul a b) v = m3_apply a (m3_apply b v).
Proof. vec. open. parts; ring. Qed.
Lemma m4_mul_apply a b v : m4_apply (m4_mul a b) v = m4_apply a (m4_apply b v).
Proof. vec. open. parts; ring. Qed.
Lemma m34_as_4 a v : m4_apply (m34_toFloat4x4 a) v = m34_apply4 a v.
Proof. vec. open. parts; ring. Qed.
Lemma m34_point a v : m34_apply4 a (point v) = point (m34_apply a v).
Proof. vec. open. parts; ring. Qed.
Lemma mixed a b c : m34_mul4 a c = m4_mul (m34_toFloat4x4 a) c /\ m4_mul34 c b = m4_mul c (m34_toFloat4x4 b) /\ m34_toFloat4x4 (m34_mul a b) = m4_mul (m34_toFloat4x4 a) (m34_toFloat4x4 b).
Proof. vec. open. repeat split; parts; ring. Qed.
Lemma inverted34 m v : orthonormal (b0 m) (b1 m) (b2 m) -> m34_apply (m34_invertedOrtho m) (m34_apply m v) = v.
Proof.
  intros H. destruct m as [[a b c] [d e f] [g h i] [p q r]], v as [x y z]. open. destruct H as (A & B & C & D & E & F).
  parts.
  - transitivity (x * (a*a+b*b+c*c) + y * (a*d+b*e+c*f) + z * (g*a+h*b+i*c)); [ring|]. rewrite A, D, F. ring.
  - transitivity (x * (a*d+b*e+c*f) + y * (d*d+e*e+f*f) + z * (d*g+e*h+f*i)); [ring|]. rewrite B, D, E. ring.
  - transitivity (x * (g*a+h*b+i*c) + y * (d*g+e*h+f*i) + z * (g*g+h*h+i*i)); [ring|]. rewrite C, E, F. ring.
Qed.
Lemma inverted4 m : m4_invertedOrtho (m34_toFloat4x4 m) = m34_toFloat4x4 (m34_invertedOrtho m).
Proof. vec. open. parts; ring. Qed.
