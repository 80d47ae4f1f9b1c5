(* C83 and C84: axis-aligned rotations, and quaternions, matrices and motions, are what geometry says. *)
From Coq Require Import Lra Lia.
From Verif Require Export MathMore MathAxis.
Local Open Scope R_scope.

(** ** C83: axes and the rotations of a cube *)
(** Cross products, dot products, signs and negation of axes are those of their vectors, and the assertion of the cross product fails only for parallel axes. *)
Theorem C83_axes : forall a b, axis a -> axis b ->
  ax_toFloat3 a = Some (vec3 a) /\
  (forall c, ax_cross a b = Some c -> axis c /\ vec3 c = outer (vec3 a) (vec3 b)) /\ (ax_cross a b = None <-> outer (vec3 a) (vec3 b) = origin) /\
  IZR (ax_dot a b) = inner (vec3 a) (vec3 b) /\ (ax_isPerp a b = true <-> inner (vec3 a) (vec3 b) = 0) /\
  axis (ax_negate a) /\ vec3 (ax_negate a) = times (-1) (vec3 a) /\ (forall v, ax_dotV a v = inner (vec3 a) v) /\
  vec3 a = times (IZR (ax_sgn a)) (vec3 (ax_abs a)) /\ (vec3 (ax_abs a) = V3 1 0 0 \/ vec3 (ax_abs a) = V3 0 1 0 \/ vec3 (ax_abs a) = V3 0 0 1) /\
  (forall s, match ax_mulSign a s with Some b => (s = 1%Z \/ s = (-1)%Z) /\ axis b /\ vec3 b = times (IZR s) (vec3 a) | None => s <> 1%Z /\ s <> (-1)%Z end).
Proof.
  intros a b A B. split; [exact (to_float a A)|]. split.
  { intros c E. pose proof (cross_spec a b A B) as H. rewrite E in H. exact H. }
  split; [exact (cross_fails a b A B)|]. split; [exact (dot_spec a b A B)|]. split; [exact (perp_spec a b A B)|].
  split; [exact (proj1 (negate_spec a A))|]. split; [exact (proj2 (negate_spec a A))|]. split; [intros v; exact (dotV_spec a v A)|].
  split; [exact (proj1 (proj2 (axis_sign a A)))|]. split; [exact (proj2 (proj2 (axis_sign a A)))|]. intros s. exact (mulSign_spec a s A).
Qed.
Print Assumptions C83_axes.
(** Applying a rotation of axes to a vector or an axis is applying the matrix of its columns. *)
Theorem C83_apply : forall r, proper r -> ar_toFloat3x3 r = Some (matrix r) /\ (forall v, ar_apply r v = Some (m3_apply (matrix r) v)) /\
  forall c, axis c -> axis (ar_mulAxis r c) /\ vec3 (ar_mulAxis r c) = m3_apply (matrix r) (vec3 c).
Proof.
  intros r P. split.
  - destruct P as (A & B & C & _). unfold ar_toFloat3x3. rewrite !to_float by assumption. reflexivity.
  - split; [intros v; exact (apply_spec r v P)|]. destruct P as (A & B & C & _). intros c X. exact (mulAxis_spec r c A B C X).
Qed.
Print Assumptions C83_apply.
(** Products compose and inverses undo. *)
Theorem C83_group : forall a b, proper a -> proper b ->
  (proper (ar_mul a b) /\ forall v, m3_apply (matrix (ar_mul a b)) v = m3_apply (matrix a) (m3_apply (matrix b) v)) /\
  (exists i, ar_inverted a = Some i /\ proper i /\ ar_mul i a = ar_identity /\ ar_mul a i = ar_identity) /\ (forall v, m3_apply (matrix ar_identity) v = v).
Proof.
  intros a b A B. split; [|split].
  - destruct (mul_spec a b A B) as [P M]. split; [exact P|]. intros v. rewrite M. apply m3_mul_apply.
  - destruct (inverted_spec a A) as (i & E & P & L & R & _). exists i. auto.
  - intros v. unfold matrix, ar_identity. cbn [r0 r1 r2]. known. destruct v. open. parts; ring.
Qed.
Print Assumptions C83_group.
(** The enumeration visits each of the 48 ways to map axes to axes at right angles exactly once, and nothing else. *)
Theorem C83_all : (forall r, In r ar_forEach <-> proper r) /\ NoDup ar_forEach /\ List.length ar_forEach = 48%nat.
Proof. split; [intros r; symmetry; exact (listed r)|exact once]. Qed.
Print Assumptions C83_all.
(** Right-handed ones are those that are rotations; the makers give right-handed ones with the wanted columns. *)
Theorem C83_handed : 
  (forall r, proper r -> exists b, ar_isRightHanded r = Some b /\ (b = true <-> rotationMatrix (matrix r))) /\
  (forall v i, axis v -> (0 <= i < 3)%Z -> exists r, ar_makeBasis v i = Some r /\ ar_get r i = v /\ rotationMatrix (matrix r)) /\
  (forall x y, axis x -> axis y -> inner (vec3 x) (vec3 y) = 0 -> exists r, ar_of2 x y = Some r /\ r0 r = x /\ r1 r = y /\ rotationMatrix (matrix r)).
Proof.
  assert (H : forall r, proper r -> exists b, ar_isRightHanded r = Some b /\ (b = true <-> rotationMatrix (matrix r))).
  { intros r P. destruct (hand_spec r P) as (b & E & Q). exists b. split; [exact E|]. rewrite Q. unfold rotationMatrix, matrix. cbn [a0 a1 a2]. destruct P as (_ & _ & _ & O). tauto. }
  split; [exact H|]. split.
  - intros v i V I. destruct (basis_spec v i V I) as (r & E & P & G & T). exists r. split; [exact E|]. split; [exact G|]. destruct (H r P) as (b & E' & Q). rewrite T in E'. injection E' as <-. tauto.
  - intros x y X Y O. destruct (of2_spec x y X Y O) as (r & E & P & G & G' & T). exists r. split; [exact E|]. split; [exact G|]. split; [exact G'|]. destruct (H r P) as (b & E' & Q). rewrite T in E'. injection E' as <-. tauto.
Qed.
Print Assumptions C83_handed.
(** Right angles in the plane turn counterclockwise, and as rotations around z they do the same and keep z. *)
Theorem C83_plane : forall n v, (0 <= n < 4)%Z -> ax2_apply n v = quarterTurns (Z.to_nat n) v /\
  exists r, ar_fromRot2D n = Some r /\ proper r /\ forall z, m3_apply (matrix r) (V3 (x2 v) (y2 v) z) = V3 (x2 (quarterTurns (Z.to_nat n) v)) (y2 (quarterTurns (Z.to_nat n) v)) z.
Proof. intros n v N. destruct (plane_spec n v N) as (E & r & F & P & A). split; [exact E|]. exists r. rewrite <- E. auto. Qed.
Print Assumptions C83_plane.
(** The order is a strict total one. *)
Theorem C83_order : forall a b c, ar_less a a = false /\ (ar_less a b = true -> ar_less b c = true -> ar_less a c = true) /\ (a = b \/ ar_less a b = true \/ ar_less b a = true).
Proof. exact less_spec. Qed.
Print Assumptions C83_order.
(** With positions: applying adds the position after rotating, products compose, and inverses undo. *)
Theorem C83_moved : forall a b v, proper (apRot a) -> proper (apRot b) ->
  arp_apply a v = Some (plus (m3_apply (matrix (apRot a)) v) (apPos a)) /\
  (exists c w, arp_mul a b = Some c /\ arp_apply b v = Some w /\ arp_apply c v = arp_apply a w) /\ (exists i w, arp_inverted a = Some i /\ arp_apply a v = Some w /\ arp_apply i w = Some v).
Proof.
  intros a b v A B. split; [unfold arp_apply; rewrite (apply_spec _ _ A); reflexivity|]. split; [|exact (arp_inverted_spec a v A)].
  destruct (arp_mul_spec a b v A B) as (c & w & E & F & G & _). exists c, w. auto.
Qed.
Print Assumptions C83_moved.
Example C83_turn : proper (AR 2 1 4) /\ ar_isRightHanded (AR 2 1 4) = Some true /\ ar_mul (AR 2 1 4) (AR 2 1 4) = AR 1 3 4 /\ ar_inverted (AR 2 1 4) = Some (AR 3 0 4) /\
  ar_mulAxis (AR 2 1 4) 0 = 2%Z /\ ax_cross 0 2 = Some 4%Z /\ ax_cross 2 0 = Some 5%Z /\ ax_cross 0 1 = None /\ ar_isRightHanded (AR 0 2 5) = Some false.
Proof. split; [apply listed; vm_compute; tauto|]. repeat split; vm_compute; reflexivity. Qed.

(** Refuted: the 4x4 matrix of a rotation with a position moves points as [arp_apply] does. The position is left out: the matrix is right only when it is zero. *)
Theorem C83_matrix_refuted : forall a v m w, proper (apRot a) -> arp_toFloat4x4 a = Some m -> arp_apply a v = Some w -> (m4_apply m (point v) = point w <-> apPos a = origin).
Proof.
  intros a v m w P M W. unfold arp_toFloat4x4 in M. destruct (C83_apply _ P) as (E & F & _). rewrite E in M. cbn [option_map] in M. injection M as <-.
  unfold arp_apply in W. rewrite F in W. cbn [option_map] in W. injection W as <-. destruct (matrix (apRot a)) as [[? ? ?] [? ? ?] [? ? ?]], (apPos a) as [x y z], v. open. split; intros H.
  - injection H. intros. parts; lra.
  - injection H as -> -> ->. parts; ring.
Qed.
Print Assumptions C83_matrix_refuted.
(** Refuted: the opposite of a direction of the plane is its negation. It is for Y, and is the direction itself for X. *)
Theorem C83_opposite_refuted : forall n v, (0 <= n < 4)%Z -> ax2_toFloat2 n = Some v ->
  exists w, ax2_toFloat2 (ax2_negate n) = Some w /\ (w = V2 (- x2 v) (- y2 v) <-> (n = 1 \/ n = 3)%Z).
Proof.
  intros n v N E. assert (Q : (n = 0 \/ n = 1 \/ n = 2 \/ n = 3)%Z) by lia.
  destruct Q as [-> | [-> | [-> | ->]]]; vm_compute in E; injection E as <-; (eexists; split; [vm_compute; reflexivity|]); (split; [intros H; first [lia | (exfalso; cbn [x2 y2] in H; injection H; intros; lra)] | intros H; first [(exfalso; lia) | (cbn [x2 y2]; f_equal; ring)]]).
Qed.
Print Assumptions C83_opposite_refuted.
(** Refuted: every reflection of the plane has a rotation of axes. The four mirrored ones fail the assertion. *)
Theorem C83_reflection_refuted : forall i, (4 <= i < 8)%Z -> refl_toAxisRot i = None.
Proof. intros i I. unfold refl_toAxisRot. destruct (Z.ltb_spec i 4); [lia|reflexivity]. Qed.
Print Assumptions C83_reflection_refuted.

(** ** C84: quaternions, matrices and motions *)
(** A unit quaternion rotates; products compose, and inverses undo. *)
Theorem C84_quaternions : forall a b, unit4 a -> unit4 b ->
  isRotation (q_rotate a) /\ unit4 (q_mul a b) /\ (forall v, q_rotate (q_mul a b) v = q_rotate a (q_rotate b v)) /\
  unit4 (q_inverted a) /\ (forall v, q_rotate (q_inverted a) (q_rotate a v) = v /\ q_rotate a (q_rotate (q_inverted a) v) = v) /\
  q_mul (q_inverted a) a = q_identity /\ q_mul a (q_inverted a) = q_identity /\ (forall v, q_rotate q_identity v = v) /\
  rotateUnitX a = q_rotate a (V3 1 0 0) /\ rotateUnitY a = q_rotate a (V3 0 1 0) /\ rotateUnitZ a = q_rotate a (V3 0 0 1) /\ (forall c, q_mul (q_mul a b) c = q_mul a (q_mul b c)).
Proof.
  intros a b A B. split; [exact (rotation a A)|]. split; [exact (unit_mul a b A B)|]. split; [intros v; exact (rotate_mul a b v A B)|]. split; [exact (unit_inverted a A)|].
  split; [intros v; exact (rotate_inverted a v A)|]. split; [exact (proj1 (mul_inverted a A))|]. split; [exact (proj2 (mul_inverted a A))|]. split; [exact rotate_identity|].
  split; [exact (proj1 (unit_axes a))|]. split; [exact (proj1 (proj2 (unit_axes a)))|]. split; [exact (proj2 (proj2 (unit_axes a)))|]. intros c. apply mul_assoc.
Qed.
Print Assumptions C84_quaternions.
(** The quaternion of an axis and an angle, and the matrix, turn by that angle around that axis. *)
Theorem C84_axis_angle : forall u angle, inner u u = 1 ->
  exists q m, fromAxisAngle u angle = Some q /\ unit4 q /\ m3_rotation u angle = Some m /\ forall v, q_rotate q v = turned u angle v /\ m3_apply m v = turned u angle v.
Proof.
  intros u angle U. destruct (axis_angle u angle U) as (q & E & Q & R). exists q, (m3_fromQuaternion q). split; [exact E|]. split; [exact Q|]. split; [unfold m3_rotation; rewrite E; reflexivity|].
  intros v. split; [apply R|]. rewrite matrix_rotates. apply R.
Qed.
Print Assumptions C84_axis_angle.
(** What the matrix of a quaternion does to vectors is what the quaternion does. *)
Theorem C84_matrices : forall q p v, m3_apply (m3_fromQuaternion q) v = q_rotate q v /\ m34_apply (m34_fromQuaternion q p) v = qp_apply (QP q p) v /\
  m4_apply (m4_fromQuaternion q p) (point v) = point (qp_apply (QP q p) v).
Proof. intros q p v. split; [apply matrix_rotates|]. split; destruct q, p, v; open; parts; ring. Qed.
Print Assumptions C84_matrices.
(** Every rotation matrix has a unit quaternion that rotates the same way; from a quaternion to its matrix and back gives the quaternion or its negation, which rotates the same way. *)
Theorem C84_from_matrix : (forall m, rotationMatrix m -> exists q, fromOrtho m = Some q /\ unit4 q /\ forall v, q_rotate q v = m3_apply m v) /\
  (forall q, unit4 q -> rotationMatrix (m3_fromQuaternion q) /\ (fromOrtho (m3_fromQuaternion q) = Some q \/ fromOrtho (m3_fromQuaternion q) = Some (neg4 q))) /\
  (forall q v, q_rotate (neg4 q) v = q_rotate q v) /\
  (forall m v, rotationMatrix (m34_linear m) -> exists p, qp_fromOrtho m = Some p /\ unit4 (quat p) /\ qp_apply p v = m34_apply m v).
Proof.
  split; [exact from_matrix|]. split; [intros q U; split; [exact (matrix_is_rotation q U)|exact (there_and_back q U)]|]. split; [exact neg_rotates|].
  intros m v R. destruct (from_matrix _ R) as (q & E & U & A). exists (QP q (b3 m)). unfold qp_fromOrtho. rewrite E. split; [reflexivity|]. split; [exact U|].
  unfold qp_apply. cbn [quat pos]. rewrite A. destruct m as [[? ? ?] [? ? ?] [? ? ?] [? ? ?]], v. open. parts; ring.
Qed.
Print Assumptions C84_from_matrix.
(** The quaternion between two unit vectors takes the first to the second, unless they are all but opposite. *)
Theorem C84_between_partial : forall s e, inner s s = 1 -> inner e e = 1 ->
  unit4 (fromUnitVectors s e) /\ (inner s e >= -1 + 1/1000000 -> q_rotate (fromUnitVectors s e) s = e) /\ (e = times (-1) s -> q_rotate (fromUnitVectors s e) s = e).
Proof.
  intros s e A B. destruct (Rlt_le_dec (inner s e) (-1 + 1/1000000)) as [L|L].
  - destruct (opposite s e A B L) as [U V]. split; [exact U|]. split; [intros X; lra|]. intros ->. exact V.
  - apply Rle_ge in L. destruct (unit_vectors s e A B L) as [U V]. split; [exact U|]. split; intros; exact V.
Qed.
Print Assumptions C84_between_partial.
(** Refuted: for vectors that are nearly opposite, the first is taken to its own opposite, whichever the second is. *)
Theorem C84_between_refuted : (forall s e, inner s s = 1 -> inner e e = 1 -> inner s e < -1 + 1/1000000 -> q_rotate (fromUnitVectors s e) s = times (-1) s) /\
  exists s e, inner s s = 1 /\ inner e e = 1 /\ q_rotate (fromUnitVectors s e) s <> e.
Proof.
  split; [intros s e A B L; exact (proj2 (opposite s e A B L))|].
  exists (V3 1 0 0), (V3 (-99999999/100000001) (20000/100000001) 0).
  assert (A : inner (V3 1 0 0) (V3 1 0 0) = 1) by (open; lra). assert (B : inner (V3 (-99999999/100000001) (20000/100000001) 0) (V3 (-99999999/100000001) (20000/100000001) 0) = 1) by (open; field).
  split; [exact A|]. split; [exact B|]. rewrite (proj2 (opposite _ _ A B ltac:(open; lra))). open. intros H. injection H. intros. lra.
Qed.
Print Assumptions C84_between_refuted.
(** Mixing two unit quaternions gives a unit quaternion; at 0 it rotates as the first and at 1 as the second. *)
Theorem C84_mix : forall a b, unit4 a -> unit4 b -> (forall f, 0 <= f <= 1 -> unit4 (q_mix a b f)) /\ (forall v, q_rotate (q_mix a b 0) v = q_rotate a v) /\ q_mix a b 1 = b.
Proof. intros a b A B. split; [intros f F; exact (mix_spec a b f A B F)|]. split; [intros v; exact (mix_start a b v A)|exact (mix_end a b B)]. Qed.
Print Assumptions C84_mix.
(** Motions compose and are undone; scaled ones too are moved by motions, and their matrices do what they do. *)
Theorem C84_motions : forall a b s v, unit4 (quat a) -> unit4 (quat b) -> unit4 (sQuat s) ->
  unit4 (quat (qp_mul a b)) /\ qp_apply (qp_mul a b) v = qp_apply a (qp_apply b v) /\
  unit4 (quat (qp_inverted a)) /\ qp_apply (qp_inverted a) (qp_apply a v) = v /\ qp_apply a (qp_apply (qp_inverted a) v) = v /\
  qps_apply (qps_after a s) v = qp_apply a (qps_apply s v) /\
  m34_apply (qps_toFloat3x4 s) v = qps_apply s v /\ m4_apply (qps_toFloat4x4 s) (point v) = point (qps_apply s v).
Proof.
  assert (L : forall q u w, q_rotate q (add3 u w) = add3 (q_rotate q u) (q_rotate q w)) by (intros q u w; destruct q, u, w; open; parts; ring).
  assert (N : forall q u, q_rotate q (neg3 u) = neg3 (q_rotate q u)) by (intros q u; destruct q, u; open; parts; ring).
  intros a b s v A B C. split; [exact (unit_mul _ _ A B)|]. split.
  { unfold qp_apply, qp_mul. cbn [quat pos]. rewrite rotate_mul, L by assumption. generalize (q_rotate (quat a) (q_rotate (quat b) v)) (q_rotate (quat a) (pos b)) (pos a). intros [? ? ?] [? ? ?] [? ? ?]. open. parts; ring. }
  split; [exact (unit_inverted _ A)|]. split.
  { unfold qp_apply, qp_inverted. cbn [quat pos]. rewrite L, N, (proj1 (rotate_inverted _ v A)). generalize (q_rotate (q_inverted (quat a)) (pos a)). destruct v. intros [? ? ?]. open. parts; ring. }
  split.
  { unfold qp_apply, qp_inverted. cbn [quat pos]. rewrite L, !N, !(proj2 (rotate_inverted _ _ A)). destruct v, (pos a). open. parts; ring. }
  split.
  { unfold qps_apply, qp_apply, qps_after. cbn [quat pos sQuat sPos sScale]. rewrite rotate_mul, L by assumption. generalize (q_rotate (quat a) (q_rotate (sQuat s) (mul3 v (sScale s)))) (q_rotate (quat a) (sPos s)) (pos a). intros [? ? ?] [? ? ?] [? ? ?]. open. parts; ring. }
  destruct s as [[? ? ? ?] [? ? ?] [? ? ?]], v. clear. split; open; parts; ring.
Qed.
Print Assumptions C84_motions.
(** Products of matrices compose, whatever their shapes, and the inverse of a matrix with orthonormal columns undoes it. *)
Theorem C84_products : forall a b c d e f (m n : m34) v w,
  m3_apply (m3_mul a b) v = m3_apply a (m3_apply b v) /\ m34_apply (m34_mul c d) v = m34_apply c (m34_apply d v) /\ m4_apply (m4_mul e f) w = m4_apply e (m4_apply f w) /\
  m4_apply (m34_toFloat4x4 c) w = m34_apply4 c w /\ m34_apply4 c (point v) = point (m34_apply c v) /\
  m4_apply (m34_mul4 c e) w = m34_apply4 c (m4_apply e w) /\ m4_apply (m4_mul34 e c) w = m4_apply e (m34_apply4 c w) /\
  (orthonormal (b0 m) (b1 m) (b2 m) -> m34_apply (m34_invertedOrtho m) (m34_apply m v) = v /\ m4_apply (m4_invertedOrtho (m34_toFloat4x4 m)) (m4_apply (m34_toFloat4x4 m) (point v)) = point v).
Proof.
  intros. split; [apply m3_mul_apply|]. split; [apply m34_mul_apply|]. split; [apply m4_mul_apply|]. split; [apply m34_as_4|]. split; [apply m34_point|].
  split; [rewrite (proj1 (mixed c c e)), m4_mul_apply, m34_as_4; reflexivity|]. split; [rewrite (proj1 (proj2 (mixed c c e))), m4_mul_apply, m34_as_4; reflexivity|].
  intros O. split; [exact (inverted34 m v O)|]. rewrite inverted4, !m34_as_4, !m34_point, inverted34 by exact O. reflexivity.
Qed.
Print Assumptions C84_products.
(** The orthographic projection takes the rectangle and the depths to the ranges from -1 to 1. *)
Theorem C84_orthographic : forall r n f v, x2 (mins r) <> x2 (maxs r) -> y2 (mins r) <> y2 (maxs r) -> n <> f ->
  m4_apply (m4_ortho r n f) (point v) = point (V3 (ranged (x2 (mins r)) (x2 (maxs r)) (vx v)) (ranged (y2 (mins r)) (y2 (maxs r)) (vy v)) (ranged n f (- vz v))).
Proof. exact ortho_spec. Qed.
Print Assumptions C84_orthographic.
(** The perspective projection takes the frustum (the rectangle at distance one) to the same ranges, for frustums whose y range is centred or as large as the x range. *)
Theorem C84_perspective_partial : forall r n f d X Y, x2 (mins r) <> x2 (maxs r) -> y2 (mins r) <> y2 (maxs r) -> 0 < n < f -> 0 < d ->
  y2 (mins r) + y2 (maxs r) = 0 \/ y2 (maxs r) - y2 (mins r) = x2 (maxs r) - x2 (mins r) ->
  exists m z, m4_projection r n f = Some m /\
  projected (m4_apply m (point (V3 (X * d) (Y * d) (- d)))) = V3 (ranged (x2 (mins r)) (x2 (maxs r)) X) (ranged (y2 (mins r)) (y2 (maxs r)) Y) z /\ (-1 <= z <= 1 <-> n <= d <= f).
Proof.
  intros r n f d X Y A B NF D S. destruct (projection_spec r n f d X Y A B ltac:(lra) ltac:(lra) ltac:(lra) D) as (m & E & P & _). exists m. eexists. split; [exact E|]. split; [|exact (depth n f d NF D)].
  rewrite P. parts; try reflexivity. unfold ranged. destruct S as [S|S].
  - rewrite S. replace (y2 (mins r)) with (- y2 (maxs r)) in * by lra. field. lra.
  - rewrite <- S. field. lra.
Qed.
Print Assumptions C84_perspective_partial.
(** Refuted for every other frustum: heights are off by a fixed amount. *)
Theorem C84_perspective_refuted : forall r n f d X Y m, x2 (mins r) <> x2 (maxs r) -> y2 (mins r) <> y2 (maxs r) -> 0 < n < f -> 0 < d ->
  m4_projection r n f = Some m -> y2 (mins r) + y2 (maxs r) <> 0 -> y2 (maxs r) - y2 (mins r) <> x2 (maxs r) - x2 (mins r) ->
  vy (projected (m4_apply m (point (V3 (X * d) (Y * d) (- d))))) <> ranged (y2 (mins r)) (y2 (maxs r)) Y.
Proof.
  intros r n f d X Y m A B NF D E S1 S2. destruct (projection_spec r n f d X Y A B ltac:(lra) ltac:(lra) ltac:(lra) D) as (m' & E' & P & _). rewrite E in E'. injection E' as <-. rewrite P. cbn [vy]. unfold ranged. intros Q.
  set (h := y2 (maxs r) - y2 (mins r)) in *. set (w := x2 (maxs r) - x2 (mins r)) in *. set (s := y2 (mins r) + y2 (maxs r)) in *.
  assert (h <> 0) by (unfold h; lra). assert (w <> 0) by (unfold w; lra).
  assert (Z : s / w = s / h). { transitivity (2 * Y / h - (2 * (Y - y2 (mins r)) / h - 1)); [lra|]. replace s with (h + 2 * y2 (mins r)) by (unfold s, h; ring). field. assumption. }
  apply S2. assert (s * (h - w) = 0). { replace (s * (h - w)) with ((s / w - s / h) * (h * w)) by (field; split; assumption). rewrite Z. ring. }
  apply Rmult_integral in H1. destruct H1; [contradiction|]. lra.
Qed.
Print Assumptions C84_perspective_refuted.
(** The camera looking along a direction that is not vertical sees that direction straight ahead, and sees up as up. *)
Theorem C84_look : forall d, vx d <> 0 \/ vy d <> 0 -> m4_apply (lookAt d) (v3w d 0) = V4 0 0 (- sqrt (inner d d)) 0 /\
  exists m, lookAt d = m4_of m origin /\ rotationMatrix m /\ vx (m3_apply m (V3 0 0 1)) = 0 /\ vy (m3_apply m (V3 0 0 1)) > 0.
Proof. exact look. Qed.
Print Assumptions C84_look.
(** Scalings with offsets of the plane compose and are undone. *)
Theorem C84_scaled : forall a b p, sp_apply (sp_mul a b) p = sp_apply a (sp_apply b p) /\
  (x2 (spScale a) <> 0 -> y2 (spScale a) <> 0 -> sp_apply (sp_inverted a) (sp_apply a p) = p /\ sp_apply a (sp_apply (sp_inverted a) p) = p).
Proof. intros a b p. split; [apply sp_mul_apply|]. apply sp_inverted_apply. Qed.
Print Assumptions C84_scaled.
(** Refuted: the translation by p adds p. It sends every point to p, for its scale is zero. *)
Theorem C84_translation_refuted : forall p q, sp_apply (sp_translation p) q = p.
Proof. intros [a b] [c d]. unfold sp_apply, sp_translation. cbn. f_equal; ring. Qed.
Print Assumptions C84_translation_refuted.
(** The curve starts at its first point and ends at its last, and its slope (by the x component; the others are the same) is three times what is given for it: refuted unless it is zero. *)
Theorem C84_curve_refuted : forall p0 p1 p2 p3, cubic p0 p1 p2 p3 0 = p0 /\ cubic p0 p1 p2 p3 1 = p3 /\
  forall t, derivable_pt_lim (fun t => vx (cubic p0 p1 p2 p3 t)) t (3 * vx (derivativeCubic p0 p1 p2 p3 t)) /\
  derivable_pt_lim (fun t => vy (cubic p0 p1 p2 p3 t)) t (3 * vy (derivativeCubic p0 p1 p2 p3 t)) /\ derivable_pt_lim (fun t => vz (cubic p0 p1 p2 p3 t)) t (3 * vz (derivativeCubic p0 p1 p2 p3 t)).
Proof.
  intros [a b c] [d e f] [g h i] [j k l]. unfold cubic, derivativeCubic. cbv [add3 scale3 mix3 sub3 vx vy vz]. split; [parts; ring|]. split; [parts; ring|].
  intros t. split; [|split]; apply cubic_slope.
Qed.
Print Assumptions C84_curve_refuted.
(** Refuted: a matrix that is not orthonormal fails the assertion. No matrix of numbers does. *)
Theorem C84_assertion_refuted : forall m, exists q, fromOrtho m = Some q.
Proof. exact ortho_total. Qed.
Print Assumptions C84_assertion_refuted.

(** Cases that meet the hypotheses. *)
Example C84_unit : unit4 (V4 (3/5) 0 0 (4/5)) /\ unit4 (V4 0 (5/13) 0 (12/13)) /\ inner (V3 (2/3) (2/3) (1/3)) (V3 (2/3) (2/3) (1/3)) = 1.
Proof. unfold unit4. repeat split; try (open; field). Qed.
Example C84_rotated : rotationMatrix (M3 (V3 0 1 0) (V3 (-1) 0 0) (V3 0 0 1)) /\ q_rotate (V4 (3/5) 0 0 (4/5)) (V3 0 1 0) = V3 0 (7/25) (24/25).
Proof. split; [unfold rotationMatrix, orthonormal; open; repeat split; try (parts; lra); lra|]. open. parts; field. Qed.
