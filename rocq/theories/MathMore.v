From Coq Require Import Lra Lia ZifyBool.
From Verif Require Export MathProofs.
Local Open Scope R_scope.

(** ** Projections *)
Lemma ortho_spec r n f v : x2 (mins r) <> x2 (maxs r) -> y2 (mins r) <> y2 (maxs r) -> n <> f ->
  m4_apply (m4_ortho r n f) (point v) = point (V3 (ranged (x2 (mins r)) (x2 (maxs r)) (vx v)) (ranged (y2 (mins r)) (y2 (maxs r)) (vy v)) (ranged n f (- vz v))).
Proof.
  intros A B C. destruct r as [[a b] [c d]], v as [x y z]. unfold m4_ortho, ranged. cbv [mins maxs] in *. open. parts; field; lra.
Qed.
Lemma projection_spec r n f d X Y : x2 (mins r) <> x2 (maxs r) -> y2 (mins r) <> y2 (maxs r) -> n <> f -> 0 < n -> 0 < f -> 0 < d ->
  exists m, m4_projection r n f = Some m /\
  projected (m4_apply m (point (V3 (X * d) (Y * d) (- d)))) =
    V3 (ranged (x2 (mins r)) (x2 (maxs r)) X)
       ((2 * Y) / (y2 (maxs r) - y2 (mins r)) - (y2 (mins r) + y2 (maxs r)) / (x2 (maxs r) - x2 (mins r)))
       (((n + f) * d - 2 * n * f) / ((f - n) * d)) /\ ww (m4_apply m (point (V3 (X * d) (Y * d) (- d)))) = d.
Proof.
  intros A B C N F D. unfold m4_projection. destruct (Rlt_dec 0 n); [|contradiction]. destruct (Rlt_dec 0 f); [|contradiction]. eexists. split; [reflexivity|].
  destruct r as [[a b] [c e]]. unfold projected, ranged. cbv [mins maxs] in *. open. split; [|ring]. parts; field; lra.
Qed.
Lemma depth n f d : 0 < n < f -> 0 < d -> (-1 <= ((n + f) * d - 2 * n * f) / ((f - n) * d) <= 1 <-> n <= d <= f).
Proof.
  intros H D. assert (P : 0 < (f - n) * d) by (apply Rmult_lt_0_compat; lra).
  assert (U : ((n + f) * d - 2 * n * f) / ((f - n) * d) <= 1 <-> d <= f).
  { split; intros Q.
    - apply (Rmult_le_compat_r _ _ _ (Rlt_le _ _ P)) in Q. unfold Rdiv in Q. rewrite Rmult_assoc, Rinv_l, Rmult_1_r, Rmult_1_l in Q by lra.
      assert (n * d <= n * f) by lra. apply Rmult_le_reg_l with n; lra.
    - apply Rmult_le_reg_r with ((f - n) * d); [exact P|]. unfold Rdiv. rewrite Rmult_assoc, Rinv_l, Rmult_1_r, Rmult_1_l by lra.
      assert (n * d <= n * f) by (apply Rmult_le_compat_l; lra). lra. }
  assert (L : -1 <= ((n + f) * d - 2 * n * f) / ((f - n) * d) <-> n <= d).
  { split; intros Q.
    - apply (Rmult_le_compat_r _ _ _ (Rlt_le _ _ P)) in Q. unfold Rdiv in Q. rewrite (Rmult_assoc _ (/ _)), Rinv_l, Rmult_1_r in Q by lra.
      assert (f * n <= f * d) by lra. apply Rmult_le_reg_l with f; lra.
    - apply Rmult_le_reg_r with ((f - n) * d); [exact P|]. unfold Rdiv. rewrite (Rmult_assoc _ (/ _)), Rinv_l, Rmult_1_r by lra.
      assert (f * n <= f * d) by (apply Rmult_le_compat_l; lra). lra. }
  tauto.
Qed.
Lemma look d : (vx d <> 0 \/ vy d <> 0) -> m4_apply (lookAt d) (v3w d 0) = V4 0 0 (- sqrt (inner d d)) 0 /\
  exists m, lookAt d = m4_of m origin /\ rotationMatrix m /\ vx (m3_apply m (V3 0 0 1)) = 0 /\ vy (m3_apply m (V3 0 0 1)) > 0.
Proof.
  intros H. assert (P : 0 < vx d * vx d + vy d * vy d).
  { pose proof (Rle_0_sqr (vx d)) as A. pose proof (Rle_0_sqr (vy d)) as B. unfold Rsqr in *. destruct H as [H|H]; [pose proof (Rsqr_pos_lt _ H)|pose proof (Rsqr_pos_lt _ H)]; unfold Rsqr in *; lra. }
  destruct d as [x y z]. cbn [vx vy] in P. unfold lookAt, normalized3, div3, length3. cbv [length2_3 vx vy vz cross3].
  pose proof (Rle_0_sqr z) as Z2. unfold Rsqr in Z2.
  assert (N : 0 < x*x + y*y + z*z) by lra. pose proof (sqrt_sqrt _ (Rlt_le _ _ N)) as SN. pose proof (sqrt_lt_R0 _ N) as PN.
  unfold inner. cbn [vx vy vz]. set (l := sqrt (x*x + y*y + z*z)) in *. set (k := 1 / l).
  assert (KL : k * l = 1) by (unfold k; field; lra). assert (KK : k * k * (x*x+y*y+z*z) = 1) by (rewrite <- SN; transitivity ((k*l)*(k*l)); [ring|rewrite KL; ring]).
  assert (KP : 0 < k) by (unfold k; apply Rdiv_lt_0_compat; lra).
  set (E := (y * k * 1 - z * k * 0) * (y * k * 1 - z * k * 0) + (z * k * 0 - x * k * 1) * (z * k * 0 - x * k * 1) + (x * k * 0 - y * k * 0) * (x * k * 0 - y * k * 0)).
  assert (EE : E = k * k * (x*x+y*y)) by (unfold E; ring). assert (EP : 0 < E) by (rewrite EE; apply Rmult_lt_0_compat; [apply Rmult_lt_0_compat; exact KP|exact P]).
  pose proof (sqrt_sqrt _ (Rlt_le _ _ EP)) as SE. pose proof (sqrt_lt_R0 _ EP) as PE. set (e := sqrt E) in *. set (j := 1 / e).
  assert (JE : j * e = 1) by (unfold j; field; lra). assert (JP : 0 < j) by (unfold j; apply Rdiv_lt_0_compat; lra).
  assert (JJ : j * j * (k * k * (x*x+y*y)) = 1) by (rewrite <- EE, <- SE; transitivity ((j*e)*(j*e)); [ring|rewrite JE; ring]).
  clearbody j e k l. clear E EE EP SE PE JE. split.
  - open. parts; try ring. transitivity (- (k * (x*x+y*y+z*z))); [ring|]. rewrite <- SN. transitivity (- ((k * l) * l)); [ring|]. rewrite KL. ring.
  - exists (m3_transposed (M3 (V3 (y*k*j) (-x*k*j) 0) (V3 (-x*z*k*k*j) (-y*z*k*k*j) ((x*x+y*y)*k*k*j)) (V3 (-x*k) (-y*k) (-z*k)))).
    split; [open; parts; ring|]. split.
    + (* the rows are orthonormal *)
      assert (H1 : forall a b c d e f g h i : R, rotationMatrix (M3 (V3 a b c) (V3 d e f) (V3 g h i)) -> rotationMatrix (m3_transposed (M3 (V3 a b c) (V3 d e f) (V3 g h i)))).
      { intros a b c d e' f g h i R. pose proof (rows _ _ _ _ _ _ _ _ _ R) as ((S0 & S1 & S2) & (T0 & T1 & T2)). pose proof (cofactors _ _ _ _ _ _ _ _ _ R) as ((P0 & P1 & P2) & (Q0 & Q1 & Q2) & (R0 & R1 & R2)).
        open. split; [repeat split; lra|]. parts; lra. }
      apply H1. clear H1. set (s := x*x+y*y) in *.
      assert (S1 : j*j*k*k*s = 1) by (rewrite <- JJ; unfold s; ring). assert (S2 : k*k*(s + z*z) = 1) by (rewrite <- KK; unfold s; ring).
      open. split; [repeat split|].
      * transitivity (j*j*k*k*s); [unfold s; ring|exact S1].
      * transitivity ((j*j*k*k*s) * (k*k*(z*z + s))); [unfold s; ring|]. rewrite S1. rewrite Rplus_comm, S2. ring.
      * transitivity (k*k*(s + z*z)); [unfold s; ring|exact S2].
      * ring.
      * unfold s. ring.
      * ring.
      * parts.
        -- transitivity (-x*k*(j*j*k*k*s)); [unfold s; ring|]. rewrite S1. ring.
        -- transitivity (-y*k*(j*j*k*k*s)); [unfold s; ring|]. rewrite S1. ring.
        -- transitivity (-z*k*(j*j*k*k*s)); [unfold s; ring|]. rewrite S1. ring.
    + open. split; [ring|]. replace ((- x * z * k * k * j) * 0 + (- y * z * k * k * j) * 0 + (x * x + y * y) * k * k * j * 1) with ((x*x+y*y)*k*k*j) by ring.
      apply Rlt_gt. repeat apply Rmult_lt_0_compat; assumption.
Qed.

(** ** Rectangles and curves *)
Lemma sp_mul_apply a b p : sp_apply (sp_mul a b) p = sp_apply a (sp_apply b p).
Proof. destruct a as [[] []], b as [[] []], p. unfold sp_apply, sp_mul. cbn. f_equal; ring. Qed.
Lemma sp_inverted_apply a p : x2 (spScale a) <> 0 -> y2 (spScale a) <> 0 -> sp_apply (sp_inverted a) (sp_apply a p) = p /\ sp_apply a (sp_apply (sp_inverted a) p) = p.
Proof. destruct a as [[] []], p. unfold sp_apply, sp_inverted. cbn. intros. split; f_equal; field; assumption. Qed.
Lemma cubic_slope a b c d t : derivable_pt_lim (fun t => a * ((1-t)*(1-t)*(1-t)) + b * (3*(1-t)*(1-t)*t) + c * (3*(1-t)*t*t) + d * (t*t*t)) t
  (3 * mix1 (mix1 (b - a) (c - b) t) (mix1 (c - b) (d - c) t) t).
Proof.
  set (p2 := 3 * (c - 2 * b + a)). set (p3 := d - 3 * c + 3 * b - a).
  intros eps E. set (K := Rabs (p2 + 3 * p3 * t) + Rabs p3 + 1).
  assert (KP : 0 < K) by (unfold K; pose proof (Rabs_pos (p2 + 3 * p3 * t)); pose proof (Rabs_pos p3); lra).
  assert (DP : 0 < Rmin 1 (eps / K)) by (apply Rmin_pos; [lra|apply Rdiv_lt_0_compat; assumption]).
  exists (mkposreal _ DP). intros h H L. cbn in L. cbv beta.
  assert (L1 : Rabs h < 1) by (eapply Rlt_le_trans; [exact L|apply Rmin_l]). assert (L2 : Rabs h < eps / K) by (eapply Rlt_le_trans; [exact L|apply Rmin_r]).
  match goal with |- Rabs ?e < _ => replace e with (h * ((p2 + 3 * p3 * t) + p3 * h)) by (unfold p2, p3, mix1; field; exact H) end.
  rewrite Rabs_mult. apply Rle_lt_trans with (Rabs h * K).
  - apply Rmult_le_compat_l; [apply Rabs_pos|]. eapply Rle_trans; [apply Rabs_triang|]. rewrite Rabs_mult. unfold K.
    assert (Rabs p3 * Rabs h <= Rabs p3 * 1) by (apply Rmult_le_compat_l; [apply Rabs_pos|lra]). lra.
  - apply Rlt_le_trans with (eps / K * K); [apply Rmult_lt_compat_r; assumption|]. right. field. lra.
Qed.
