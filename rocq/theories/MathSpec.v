(* What rotations, motions and projections are, in the words of geometry. *)
From Verif Require Export MathModel.
Local Open Scope R_scope.

(** Inner and outer products of vectors. *)
Definition inner (a b : v3) : R := vx a * vx b + vy a * vy b + vz a * vz b.
Definition outer (a b : v3) : v3 := V3 (vy a * vz b - vz a * vy b) (vz a * vx b - vx a * vz b) (vx a * vy b - vy a * vx b).
Definition plus (a b : v3) : v3 := V3 (vx a + vx b) (vy a + vy b) (vz a + vz b).
Definition times (s : R) (a : v3) : v3 := V3 (s * vx a) (s * vy a) (s * vz a).
Definition origin : v3 := V3 0 0 0.
(** A rotation is linear and keeps inner products (lengths and angles) and outer products (which hand is the right one). *)
Definition isRotation (f : v3 -> v3) : Prop :=
  (forall s a b, f (plus a (times s b)) = plus (f a) (times s (f b))) /\
  (forall a b, inner (f a) (f b) = inner a b) /\ (forall a b, f (outer a b) = outer (f a) (f b)).
(** The rotation by an angle around a unit vector, counterclockwise as seen from its tip. *)
Definition turned (u : v3) (angle : R) (v : v3) : v3 :=
  plus (plus (times (cos angle) v) (times (sin angle) (outer u v))) (times ((1 - cos angle) * inner u v) u).
(** Quaternions of length one. *)
Definition unit4 (q : v4) : Prop := wx q * wx q + wy q * wy q + wz q * wz q + ww q * ww q = 1.
(** The columns have length one and are perpendicular to each other. *)
Definition orthonormal (a b c : v3) : Prop :=
  inner a a = 1 /\ inner b b = 1 /\ inner c c = 1 /\ inner a b = 0 /\ inner b c = 0 /\ inner c a = 0.
Definition rotationMatrix (m : m3) : Prop := orthonormal (a0 m) (a1 m) (a2 m) /\ outer (a0 m) (a1 m) = a2 m.
(** A point as homogeneous coordinates, and back. *)
Definition point (v : v3) : v4 := V4 (vx v) (vy v) (vz v) 1.
Definition projected (v : v4) : v3 := V3 (wx v / ww v) (wy v / ww v) (wz v / ww v).
(** The linear map that takes lo to -1 and hi to 1. *)
Definition ranged (lo hi x : R) : R := 2 * (x - lo) / (hi - lo) - 1.

(** ** Axes *)
(** The vector of an axis, by its number in [Axis3]: XPos, XNeg, YPos, YNeg, ZPos, ZNeg. *)
Definition vec3 (a : Z) : v3 :=
  if Z.eq_dec a 0 then V3 1 0 0 else if Z.eq_dec a 1 then V3 (-1) 0 0 else if Z.eq_dec a 2 then V3 0 1 0
  else if Z.eq_dec a 3 then V3 0 (-1) 0 else if Z.eq_dec a 4 then V3 0 0 1 else V3 0 0 (-1).
Definition axis (a : Z) : Prop := (0 <= a < 6)%Z.
(** The matrix whose columns are the images of the axes. *)
Definition matrix (r : axisRot) : m3 := M3 (vec3 (r0 r)) (vec3 (r1 r)) (vec3 (r2 r)).
(** Three axes that are perpendicular to each other. *)
Definition proper (r : axisRot) : Prop := axis (r0 r) /\ axis (r1 r) /\ axis (r2 r) /\ orthonormal (vec3 (r0 r)) (vec3 (r1 r)) (vec3 (r2 r)).
(** A vector of the plane turned by a number of right angles, counterclockwise. *)
Fixpoint quarterTurns (n : nat) (v : v2) : v2 := match n with O => v | S n => let w := quarterTurns n v in V2 (- y2 w) (x2 w) end.
