(* Model of vectors, quaternions, matrices and axis-aligned rotations (ply-math). M is /repo/repos/plywood/src/math/math/ply-math.
   Simplification: [float] is the real numbers. Nothing is rounded and nothing overflows, and the literals 1e-6f and 0.9f are
   these decimal fractions. Division by zero gives what the real numbers of Coq give; the theorems exclude it. An axis is the
   number of its enumerator. [None] is a failed assertion. *)
From Coq Require Export Reals ZArith List Bool.
Export ListNotations.
Local Open Scope R_scope.

(** M/Vector.h [Float2], [Float3], [Float4]. *)
Record v2 := V2 { x2 : R; y2 : R }.
Record v3 := V3 { vx : R; vy : R; vz : R }.
Record v4 := V4 { wx : R; wy : R; wz : R; ww : R }.
(** Vector.h:549-583, 971-1005. *)
Definition neg3 (a : v3) := V3 (- vx a) (- vy a) (- vz a).
Definition add3 (a b : v3) := V3 (vx a + vx b) (vy a + vy b) (vz a + vz b).
Definition sub3 (a b : v3) := V3 (vx a - vx b) (vy a - vy b) (vz a - vz b).
Definition mul3 (a b : v3) := V3 (vx a * vx b) (vy a * vy b) (vz a * vz b).
Definition scale3 (a : v3) (s : R) := V3 (vx a * s) (vy a * s) (vz a * s).
Definition div3 (a : v3) (s : R) := let oob := 1 / s in V3 (vx a * oob) (vy a * oob) (vz a * oob).
Definition neg4 (a : v4) := V4 (- wx a) (- wy a) (- wz a) (- ww a).
Definition sub4 (a b : v4) := V4 (wx a - wx b) (wy a - wy b) (wz a - wz b) (ww a - ww b).
Definition div4 (a : v4) (s : R) := let oob := 1 / s in V4 (wx a * oob) (wy a * oob) (wz a * oob) (ww a * oob).
(** Vector.h:441-448, 454-456, 627-629, 840-848; Vector.cpp:32-34, 47-49, 58-60. *)
Definition dot3 (a b : v3) := vx a * vx b + vy a * vy b + vz a * vz b.
Definition length2_3 (a : v3) := vx a * vx a + vy a * vy a + vz a * vz a.
Definition length3 (a : v3) := sqrt (length2_3 a).
Definition isUnit (a : v3) : bool := if Rlt_dec (Rabs (1 - length2_3 a)) (1 / 1000) then true else false.
Definition normalized3 (a : v3) := div3 a (length3 a).
Definition cross3 (a b : v3) := V3 (vy a * vz b - vz a * vy b) (vz a * vx b - vx a * vz b) (vx a * vy b - vy a * vx b).
Definition length2_4 (a : v4) := wx a * wx a + wy a * wy a + wz a * wz a + ww a * ww a.
Definition length4 (a : v4) := sqrt (length2_4 a).
Definition normalized4 (a : v4) := div4 a (length4 a).
(** M/Core.h:107-110 [mix], by components. *)
Definition mix1 (a b t : R) := a * (1 - t) + b * t.
Definition mix3 (a b : v3) (t : R) := V3 (mix1 (vx a) (vx b) t) (mix1 (vy a) (vy b) t) (mix1 (vz a) (vz b) t).
Definition mix4 (a b : v4) (t : R) := V4 (mix1 (wx a) (wx b) t) (mix1 (wy a) (wy b) t) (mix1 (wz a) (wz b) t) (mix1 (ww a) (ww b) t).

(** M/Quaternion.h:34-138 [Quaternion], as the [Float4] it is cast to. *)
Definition xyz (q : v4) : v3 := V3 (wx q) (wy q) (wz q).
Definition v3w (v : v3) (w : R) : v4 := V4 (vx v) (vy v) (vz v) w.
Definition q_identity : v4 := V4 0 0 0 1.
Definition q_inverted (q : v4) : v4 := V4 (- wx q) (- wy q) (- wz q) (ww q).
(** Quaternion.cpp:11-16. *)
Definition fromAxisAngle (u : v3) (radians : R) : option v4 :=
  if isUnit u then
    let c := cos (radians / 2) in let s := sin (radians / 2) in Some (V4 (s * vx u) (s * vy u) (s * vz u) c)
  else None.
(** Quaternion.cpp:18-32. *)
Definition fromUnitVectors (start end_ : v3) : v4 :=
  let w := dot3 start end_ + 1 in
  if Rlt_dec w (1 / 1000000) then
    let notCollinear := if Rlt_dec (Rabs (vx start)) (9 / 10) then V3 1 0 0 else V3 0 1 0 in
    let axis := cross3 start notCollinear in
    normalized4 (v3w axis 0)
  else
    let v := cross3 start end_ in normalized4 (v3w v w).
(** M/Matrix.h [Float3x3], [Float3x4], [Float4x4]: columns. *)
Record m3 := M3 { a0 : v3; a1 : v3; a2 : v3 }.
Record m34 := M34 { b0 : v3; b1 : v3; b2 : v3; b3 : v3 }.
Record m4 := M4 { c0 : v4; c1 : v4; c2 : v4; c3 : v4 }.
(** Quaternion.cpp:34-62 [quaternionFromOrtho]: [m i j] is component j of column i. *)
Definition bool01 (b : bool) : R := if b then 1 else 0.
Definition geq (a b : R) : bool := if Rle_dec b a then true else false.
Definition fromOrtho (m : m3) : option v4 :=
  let m00 := vx (a0 m) in let m01 := vy (a0 m) in let m02 := vz (a0 m) in
  let m10 := vx (a1 m) in let m11 := vy (a1 m) in let m12 := vz (a1 m) in
  let m20 := vx (a2 m) in let m21 := vy (a2 m) in let m22 := vz (a2 m) in
  let tw := 1 + m00 + m11 + m22 in
  if geq tw (1 / 2) then
    let w := sqrt tw * (1 / 2) in let f := (1 / 4) / w in
    Some (V4 ((m12 - m21) * f) ((m20 - m02) * f) ((m01 - m10) * f) w)
  else let tx := 1 + m00 - m11 - m22 in
  if geq tx (1 / 2) then
    let wco := m12 - m21 in
    let x := sqrt tx * (bool01 (geq wco 0) - 1 / 2) in let f := (1 / 4) / x in
    Some (V4 x ((m01 + m10) * f) ((m20 + m02) * f) (wco * f))
  else let ty := 1 - m00 + m11 - m22 in
  if geq ty (1 / 2) then
    let wco := m20 - m02 in
    let y := sqrt ty * (bool01 (geq wco 0) - 1 / 2) in let f := (1 / 4) / y in
    Some (V4 ((m01 + m10) * f) y ((m12 + m21) * f) (wco * f))
  else let tz := 1 - m00 - m11 + m22 in
  if geq tz (1 / 2) then
    let wco := m01 - m10 in
    let z := sqrt tz * (bool01 (geq wco 0) - 1 / 2) in let f := (1 / 4) / z in
    Some (V4 ((m20 + m02) * f) ((m12 + m21) * f) z (wco * f))
  else None.
(** Quaternion.cpp:74-84. *)
Definition rotateUnitX (q : v4) : v3 :=
  let '(V4 x y z w) := q in V3 (1 - 2 * y * y - 2 * z * z) (2 * x * y + 2 * z * w) (2 * x * z - 2 * y * w).
Definition rotateUnitY (q : v4) : v3 :=
  let '(V4 x y z w) := q in V3 (2 * x * y - 2 * z * w) (1 - 2 * x * x - 2 * z * z) (2 * y * z + 2 * x * w).
Definition rotateUnitZ (q : v4) : v3 :=
  let '(V4 x y z w) := q in V3 (2 * x * z + 2 * y * w) (2 * y * z - 2 * x * w) (1 - 2 * x * x - 2 * y * y).
(** Quaternion.cpp:86-90. *)
Definition negatedIfCloserTo (q other : v4) : v4 :=
  if Rlt_dec (length2_4 (sub4 q other)) (length2_4 (sub4 (neg4 q) other)) then q else neg4 q.
(** Quaternion.cpp:92-96 [operator *] on a vector. *)
Definition q_rotate (q : v4) (v : v3) : v3 :=
  let t := scale3 (cross3 (xyz q) v) 2 in
  add3 (add3 v (scale3 t (ww q))) (cross3 (xyz q) t).
(** Quaternion.cpp:98-103 [operator *] on quaternions. *)
Definition q_mul (a b : v4) : v4 :=
  V4 (ww a * wx b + wx a * ww b + wy a * wz b - wz a * wy b)
     (ww a * wy b - wx a * wz b + wy a * ww b + wz a * wx b)
     (ww a * wz b + wx a * wy b - wy a * wx b + wz a * ww b)
     (ww a * ww b - wx a * wx b - wy a * wy b - wz a * wz b).
(** Quaternion.cpp:105-107. *)
Definition q_mix (a b : v4) (f : R) : v4 := normalized4 (mix4 (negatedIfCloserTo a b) b f).

(** Matrix.cpp:67-133. *)
Definition m3_identity : m3 := M3 (V3 1 0 0) (V3 0 1 0) (V3 0 0 1).
Definition m3_scale (s : v3) : m3 := M3 (V3 (vx s) 0 0) (V3 0 (vy s) 0) (V3 0 0 (vz s)).
Definition m3_fromQuaternion (q : v4) : m3 :=
  let '(V4 x y z w) := q in
  M3 (V3 (1 - 2 * y * y - 2 * z * z) (2 * x * y + 2 * z * w) (2 * x * z - 2 * y * w))
     (V3 (2 * x * y - 2 * z * w) (1 - 2 * x * x - 2 * z * z) (2 * y * z + 2 * x * w))
     (V3 (2 * x * z + 2 * y * w) (2 * y * z - 2 * x * w) (1 - 2 * x * x - 2 * y * y)).
Definition m3_rotation (u : v3) (radians : R) : option m3 := option_map m3_fromQuaternion (fromAxisAngle u radians).
Definition m3_transposed (m : m3) : m3 :=
  M3 (V3 (vx (a0 m)) (vx (a1 m)) (vx (a2 m))) (V3 (vy (a0 m)) (vy (a1 m)) (vy (a2 m))) (V3 (vz (a0 m)) (vz (a1 m)) (vz (a2 m))).
Definition m3_apply (m : m3) (v : v3) : v3 :=
  V3 (vx (a0 m) * vx v + vx (a1 m) * vy v + vx (a2 m) * vz v)
     (vy (a0 m) * vx v + vy (a1 m) * vy v + vy (a2 m) * vz v)
     (vz (a0 m) * vx v + vz (a1 m) * vy v + vz (a2 m) * vz v).
Definition m3_mul (a b : m3) : m3 := M3 (m3_apply a (a0 b)) (m3_apply a (a1 b)) (m3_apply a (a2 b)).
(** Matrix.h:317-319 [asFloat3x3]; Matrix.cpp:138-233. *)
Definition m34_linear (m : m34) : m3 := M3 (b0 m) (b1 m) (b2 m).
Definition m34_of (m : m3) (pos : v3) : m34 := M34 (a0 m) (a1 m) (a2 m) pos.
Definition m34_toFloat4x4 (m : m34) : m4 := M4 (v3w (b0 m) 0) (v3w (b1 m) 0) (v3w (b2 m) 0) (v3w (b3 m) 1).
Definition m34_scale (s : v3) : m34 := M34 (V3 (vx s) 0 0) (V3 0 (vy s) 0) (V3 0 0 (vz s)) (V3 0 0 0).
Definition m34_translation (p : v3) : m34 := M34 (V3 1 0 0) (V3 0 1 0) (V3 0 0 1) p.
Definition m34_fromQuaternion (q : v4) (pos : v3) : m34 :=
  let '(V4 x y z w) := q in
  M34 (V3 (1 - 2 * y * y - 2 * z * z) (2 * x * y + 2 * z * w) (2 * x * z - 2 * y * w))
      (V3 (2 * x * y - 2 * z * w) (1 - 2 * x * x - 2 * z * z) (2 * y * z + 2 * x * w))
      (V3 (2 * x * z + 2 * y * w) (2 * y * z - 2 * x * w) (1 - 2 * x * x - 2 * y * y)) pos.
Definition m34_invertedOrtho (m : m34) : m34 :=
  let t := m3_transposed (m34_linear m) in m34_of t (m3_apply t (neg3 (b3 m))).
Definition m34_apply (m : m34) (v : v3) : v3 :=
  V3 (vx (b0 m) * vx v + vx (b1 m) * vy v + vx (b2 m) * vz v + vx (b3 m))
     (vy (b0 m) * vx v + vy (b1 m) * vy v + vy (b2 m) * vz v + vy (b3 m))
     (vz (b0 m) * vx v + vz (b1 m) * vy v + vz (b2 m) * vz v + vz (b3 m)).
Definition m34_apply4 (m : m34) (v : v4) : v4 :=
  V4 (vx (b0 m) * wx v + vx (b1 m) * wy v + vx (b2 m) * wz v + vx (b3 m) * ww v)
     (vy (b0 m) * wx v + vy (b1 m) * wy v + vy (b2 m) * wz v + vy (b3 m) * ww v)
     (vz (b0 m) * wx v + vz (b1 m) * wy v + vz (b2 m) * wz v + vz (b3 m) * ww v) (ww v).
Definition m34_mul (a b : m34) : m34 :=
  M34 (m3_apply (m34_linear a) (b0 b)) (m3_apply (m34_linear a) (b1 b)) (m3_apply (m34_linear a) (b2 b)) (m34_apply a (b3 b)).
(** Matrix.cpp:238-379. *)
Definition m4_of (m : m3) (pos : v3) : m4 := M4 (v3w (a0 m) 0) (v3w (a1 m) 0) (v3w (a2 m) 0) (v3w pos 1).
Definition m4_scale (s : v3) : m4 := M4 (V4 (vx s) 0 0 0) (V4 0 (vy s) 0 0) (V4 0 0 (vz s) 0) (V4 0 0 0 1).
Definition m4_fromQuaternion (q : v4) (pos : v3) : m4 :=
  let '(V4 x y z w) := q in
  M4 (V4 (1 - 2 * y * y - 2 * z * z) (2 * x * y + 2 * z * w) (2 * x * z - 2 * y * w) 0)
     (V4 (2 * x * y - 2 * z * w) (1 - 2 * x * x - 2 * z * z) (2 * y * z + 2 * x * w) 0)
     (V4 (2 * x * z + 2 * y * w) (2 * y * z - 2 * x * w) (1 - 2 * x * x - 2 * y * y) 0) (v3w pos 1).
(** M/Box.h:77-130: a rectangle. *)
Record rect := Rect { mins : v2; maxs : v2 }.
Definition m4_projection (f : rect) (zNear zFar : R) : option m4 :=
  if Rlt_dec 0 zNear then if Rlt_dec 0 zFar then
    let ooX := 1 / (x2 (maxs f) - x2 (mins f)) in
    let ooY := 1 / (y2 (maxs f) - y2 (mins f)) in
    let ooZ := 1 / (zNear - zFar) in
    Some (M4 (V4 (2 * ooX) 0 0 0) (V4 0 (2 * ooY) 0 0)
             (V4 ((x2 (mins f) + x2 (maxs f)) * ooX) ((y2 (mins f) + y2 (maxs f)) * ooX) ((zNear + zFar) * ooZ) (- 1))
             (V4 0 0 ((2 * zNear * zFar) * ooZ) 0))
  else None else None.
Definition m4_ortho (r : rect) (zNear zFar : R) : m4 :=
  let tow := 2 / (x2 (maxs r) - x2 (mins r)) in
  let toh := 2 / (y2 (maxs r) - y2 (mins r)) in
  let ooZ := 1 / (zNear - zFar) in
  M4 (V4 tow 0 0 0) (V4 0 toh 0 0) (V4 0 0 (2 * ooZ) 0)
     (V4 (- ((x2 (mins r) + x2 (maxs r)) * (1 / 2)) * tow) (- ((y2 (mins r) + y2 (maxs r)) * (1 / 2)) * toh) ((zNear + zFar) * ooZ) 1).
Definition m4_transposed (m : m4) : m4 :=
  M4 (V4 (wx (c0 m)) (wx (c1 m)) (wx (c2 m)) (wx (c3 m))) (V4 (wy (c0 m)) (wy (c1 m)) (wy (c2 m)) (wy (c3 m)))
     (V4 (wz (c0 m)) (wz (c1 m)) (wz (c2 m)) (wz (c3 m))) (V4 (ww (c0 m)) (ww (c1 m)) (ww (c2 m)) (ww (c3 m))).
Definition m4_apply (m : m4) (v : v4) : v4 :=
  V4 (wx (c0 m) * wx v + wx (c1 m) * wy v + wx (c2 m) * wz v + wx (c3 m) * ww v)
     (wy (c0 m) * wx v + wy (c1 m) * wy v + wy (c2 m) * wz v + wy (c3 m) * ww v)
     (wz (c0 m) * wx v + wz (c1 m) * wy v + wz (c2 m) * wz v + wz (c3 m) * ww v)
     (ww (c0 m) * wx v + ww (c1 m) * wy v + ww (c2 m) * wz v + ww (c3 m) * ww v).
Definition setW (v : v4) (w : R) : v4 := V4 (wx v) (wy v) (wz v) w.
Definition m4_invertedOrtho (m : m4) : m4 :=
  let r := m4_transposed m in
  let r := M4 (setW (c0 r) 0) (setW (c1 r) 0) (setW (c2 r) 0) (c3 r) in
  M4 (c0 r) (c1 r) (c2 r) (setW (m4_apply r (neg4 (c3 m))) 1).
Definition m4_mul (a b : m4) : m4 := M4 (m4_apply a (c0 b)) (m4_apply a (c1 b)) (m4_apply a (c2 b)) (m4_apply a (c3 b)).
Definition m34_mul4 (a : m34) (b : m4) : m4 := M4 (m34_apply4 a (c0 b)) (m34_apply4 a (c1 b)) (m34_apply4 a (c2 b)) (m34_apply4 a (c3 b)).
Definition m4_mul34 (a : m4) (b : m34) : m4 :=
  M4 (m4_apply a (v3w (b0 b) 0)) (m4_apply a (v3w (b1 b) 0)) (m4_apply a (v3w (b2 b) 0)) (m4_apply a (v3w (b3 b) 1)).

(** M/QuatPos.h:74-158, QuatPos.cpp:10-33. *)
Record quatPos := QP { quat : v4; pos : v3 }.
Definition qp_inverted (p : quatPos) : quatPos := let qi := q_inverted (quat p) in QP qi (q_rotate qi (neg3 (pos p))).
Definition qp_fromOrtho (m : m34) : option quatPos := option_map (fun q => QP q (b3 m)) (fromOrtho (m34_linear m)).
Definition qp_apply (p : quatPos) (v : v3) : v3 := add3 (q_rotate (quat p) v) (pos p).
Definition qp_mul (a b : quatPos) : quatPos := QP (q_mul (quat a) (quat b)) (add3 (q_rotate (quat a) (pos b)) (pos a)).
(** QuatPos.h:175-224 [QuatPosScale]. *)
Record quatPosScale := QPS { sQuat : v4; sPos : v3; sScale : v3 }.
Definition qps_apply (p : quatPosScale) (v : v3) : v3 := add3 (q_rotate (sQuat p) (mul3 v (sScale p))) (sPos p).
Definition qps_after (a : quatPos) (b : quatPosScale) : quatPosScale :=
  QPS (q_mul (quat a) (sQuat b)) (add3 (q_rotate (quat a) (sPos b)) (pos a)) (sScale b).
Definition qps_toFloat4x4 (p : quatPosScale) : m4 := m4_mul (m4_fromQuaternion (sQuat p) (sPos p)) (m4_scale (sScale p)).
Definition qps_toFloat3x4 (p : quatPosScale) : m34 := m34_mul (m34_fromQuaternion (sQuat p) (sPos p)) (m34_scale (sScale p)).
(** QuatPos.h:15-54 [ScalePos2]. *)
Record scalePos := SP { spScale : v2; spPos : v2 }.
Definition sp_translation (p : v2) : scalePos := SP (V2 0 0) p.
Definition sp_mul (a b : scalePos) : scalePos :=
  SP (V2 (x2 (spScale a) * x2 (spScale b)) (y2 (spScale a) * y2 (spScale b)))
     (V2 (x2 (spScale a) * x2 (spPos b) + x2 (spPos a)) (y2 (spScale a) * y2 (spPos b) + y2 (spPos a))).
Definition sp_apply (a : scalePos) (p : v2) : v2 := V2 (x2 (spScale a) * x2 p + x2 (spPos a)) (y2 (spScale a) * y2 p + y2 (spPos a)).
Definition sp_inverted (a : scalePos) : scalePos :=
  let ox := 1 / x2 (spScale a) in let oy := 1 / y2 (spScale a) in
  SP (V2 ox oy) (V2 (- x2 (spPos a) * ox) (- y2 (spPos a) * oy)).
(** M/Interpolate.h:10-27, for a vector. *)
Definition cubic (p0 p1 p2 p3 : v3) (t : R) : v3 :=
  let omt := 1 - t in
  add3 (add3 (add3 (scale3 p0 (omt * omt * omt)) (scale3 p1 (3 * omt * omt * t))) (scale3 p2 (3 * omt * t * t))) (scale3 p3 (t * t * t)).
Definition derivativeCubic (p0 p1 p2 p3 : v3) (t : R) : v3 :=
  let q0 := sub3 p1 p0 in let q1 := sub3 p2 p1 in let q2 := sub3 p3 p2 in
  mix3 (mix3 q0 q1 t) (mix3 q1 q2 t) t.
(** M/Extra.h:14-25. *)
Definition lookAt (direction : v3) : m4 :=
  let fwd := normalized3 direction in
  let right := normalized3 (cross3 fwd (V3 0 0 1)) in
  let up := cross3 right fwd in
  m4_transposed (M4 (v3w right 0) (v3w up 0) (v3w (neg3 fwd) 0) (V4 0 0 0 1)).

(** ** M/AxisVector.h *)
Local Open Scope Z_scope.
(** Lines 15-34. *)
Definition ax_abs (v : Z) : Z := Z.land v 6.
Definition ax_sgn (v : Z) : Z := 1 - Z.land v 1 * 2.
Definition ax_isPerp (a b : Z) : bool := negb (Z.land (Z.lxor a b) 6 =? 0).
(** 33-40. *)
Definition ax_cross (a b : Z) : option Z :=
  let diff := b - Z.land a 6 in
  if Z.land diff (Z.lnot 1) =? 0 then None
  else let diff := diff + (if diff <? 0 then 6 else 0) in
       Some (Z.lxor (Z.lxor (Z.lxor 6 a) b) (Z.shiftr diff 2)).
(** 42-47. *)
Definition ax_dot (a b : Z) : Z :=
  let x := Z.lxor a b in
  let mask := (if Z.land x 6 =? 0 then 0 else 1) - 1 in
  Z.land (1 - Z.land x 1 * 2) mask.
(** 49-55. *)
Definition component (v : v3) (i : Z) : R := if i =? 0 then vx v else if i =? 1 then vy v else vz v.
Definition ax_dotV (a : Z) (v : v3) : R := (component v (Z.shiftr a 1) * IZR (1 - Z.land a 1 * 2))%R.
(** 57-64. *)
Definition ax_negate (a : Z) : Z := Z.lxor a 1.
Definition ax_mulSign (a sgn : Z) : option Z :=
  if (sgn =? 1) || (sgn =? -1) then Some (Z.lxor a (if sgn <? 0 then 1 else 0)) else None.
(** 66-70. *)
Definition ax_toFloat3 (a : Z) : option v3 :=
  nth_error [V3 1 0 0; V3 (-1) 0 0; V3 0 1 0; V3 0 (-1) 0; V3 0 0 1; V3 0 0 (-1)]%R (Z.to_nat a).
(** 75-125 [Axis2]. *)
Definition ax2_sgn (a : Z) : Z := 1 - Z.shiftr a 1 * 2.
Definition ax2_negate (a : Z) : Z := Z.land (4 - a) 3.
Definition ax2_apply (rot : Z) (v : v2) : v2 :=
  let p := (x2 v * IZR (ax2_sgn rot))%R in
  let q := (y2 v * IZR (ax2_sgn (Z.land (rot + 1) 3)))%R in
  if Z.land rot 1 =? 0 then V2 p q else V2 q p.
Definition ax2_toFloat2 (a : Z) : option v2 := nth_error [V2 1 0; V2 0 1; V2 (-1) 0; V2 0 (-1)]%R (Z.to_nat a).
Definition ax2_toAxis3 (a : Z) : option Z := nth_error [0; 2; 1; 3] (Z.to_nat a).
Definition ax_toAxis2 (a : Z) : option Z := nth_error [0; 2; 1; 3] (Z.to_nat a).
(** 129-256 [AxisRot]. *)
Record axisRot := AR { r0 : Z; r1 : Z; r2 : Z }.
Definition ar_identity : axisRot := AR 0 2 4.
Definition ar_of2 (x y : Z) : option axisRot := option_map (AR x y) (ax_cross x y).
Definition ar_set (r : axisRot) (i v : Z) : axisRot :=
  if i =? 0 then AR v (r1 r) (r2 r) else if i =? 1 then AR (r0 r) v (r2 r) else AR (r0 r) (r1 r) v.
Definition ar_get (r : axisRot) (i : Z) : Z := if i =? 0 then r0 r else if i =? 1 then r1 r else r2 r.
Definition ar_makeBasis (v i : Z) : option axisRot :=
  if i <? 3 then
    let r := ar_set (AR 0 0 0) i v in
    let i := i + 1 in let i := i - (if 3 <=? i then 3 else 0) in
    let w := v + 2 in let w := w - (if 6 <=? w then 6 else 0) in
    let r := ar_set r i w in
    let i := i + 1 in let i := i - (if 3 <=? i then 3 else 0) in
    option_map (ar_set r i) (ax_cross v w)
  else None.
Definition ar_fromRot2D (rot : Z) : option axisRot :=
  match ax2_toAxis3 rot, ax2_toAxis3 (Z.land (rot + 1) 3) with Some x, Some y => Some (AR x y 4) | _, _ => None end.
Definition ar_isOrtho (r : axisRot) : bool := ax_isPerp (r0 r) (r1 r) && ax_isPerp (r1 r) (r2 r) && ax_isPerp (r2 r) (r0 r).
Definition ar_isRightHanded (r : axisRot) : option bool :=
  if ar_isOrtho r then option_map (fun c => 0 <? ax_dot c (r2 r)) (ax_cross (r0 r) (r1 r)) else None.
Definition ar_mulAxis (r : axisRot) (v : Z) : Z := Z.lxor (ar_get r (Z.shiftr v 1)) (Z.land v 1).
Definition setComponent (v : v3) (i : Z) (s : R) : v3 :=
  if i =? 0 then V3 s (vy v) (vz v) else if i =? 1 then V3 (vx v) s (vz v) else V3 (vx v) (vy v) s.
Definition ar_apply (r : axisRot) (v : v3) : option v3 :=
  if ar_isOrtho r then
    let o := V3 0 0 0 in
    let o := setComponent o (Z.shiftr (r0 r) 1) (vx v * IZR (ax_sgn (r0 r)))%R in
    let o := setComponent o (Z.shiftr (r1 r) 1) (vy v * IZR (ax_sgn (r1 r)))%R in
    Some (setComponent o (Z.shiftr (r2 r) 1) (vz v * IZR (ax_sgn (r2 r)))%R)
  else None.
Definition ar_mul (a b : axisRot) : axisRot := AR (ar_mulAxis a (r0 b)) (ar_mulAxis a (r1 b)) (ar_mulAxis a (r2 b)).
Definition ar_less (a b : axisRot) : bool :=
  if negb (r0 a =? r0 b) then r0 a <? r0 b else if negb (r1 a =? r1 b) then r1 a <? r1 b else r2 a <? r2 b.
Definition ar_inverted (r : axisRot) : option axisRot :=
  if ar_isOrtho r then
    let step o i := let img := ar_get r i in ar_set o (Z.shiftr img 1) (Z.lxor (Z.shiftl i 1) (Z.land img 1)) in
    Some (step (step (step ar_identity 0) 1) 2)
  else None.
Definition ar_toFloat3x3 (r : axisRot) : option m3 :=
  match ax_toFloat3 (r0 r), ax_toFloat3 (r1 r), ax_toFloat3 (r2 r) with Some x, Some y, Some z => Some (M3 x y z) | _, _, _ => None end.
(** 245-255: the arguments of the calls, in order. *)
Definition ar_forEach : list axisRot :=
  flat_map (fun x => flat_map (fun y =>
    if Z.land (Z.lxor x y) 6 =? 0 then []
    else match ax_cross x y with Some z => [AR x y z; AR x y (ax_negate z)] | None => [] end) [0; 1; 2; 3; 4; 5]) [0; 1; 2; 3; 4; 5].
(** 259-304 [AxisRotPos]. *)
Record axisRotPos := ARP { apRot : axisRot; apPos : v3 }.
Definition arp_apply (r : axisRotPos) (v : v3) : option v3 := option_map (fun w => add3 w (apPos r)) (ar_apply (apRot r) v).
Definition arp_mul (a b : axisRotPos) : option axisRotPos :=
  option_map (fun w => ARP (ar_mul (apRot a) (apRot b)) (add3 w (apPos a))) (ar_apply (apRot a) (apPos b)).
Definition arp_inverted (r : axisRotPos) : option axisRotPos :=
  match ar_inverted (apRot r) with
  | Some i => option_map (ARP i) (ar_apply i (neg3 (apPos r)))
  | None => None
  end.
Definition arp_toFloat4x4 (r : axisRotPos) : option m4 := option_map (fun m => m4_of m (V3 0 0 0)) (ar_toFloat3x3 (apRot r)).
(** 307-325. *)
Definition refl_toAxisRot (i : Z) : option axisRot := if i <? 4 then ar_fromRot2D i else None.
