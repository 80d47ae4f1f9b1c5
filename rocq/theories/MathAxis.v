From Coq Require Import Lra Lia ZifyBool.
From Verif Require Export MathProofs.
Local Open Scope Z_scope.

Lemma axis_cases a : axis a -> a = 0 \/ a = 1 \/ a = 2 \/ a = 3 \/ a = 4 \/ a = 5.
Proof. unfold axis. lia. Qed.
Ltac cases H := apply axis_cases in H; destruct H as [-> | [-> | [-> | [-> | [-> | ->]]]]].
Ltac vecs := cbv [vec3 Z.eq_dec Z_rec Z_rect Z_rec Z.eq_dec sumbool_rect sumbool_rec Pos.eq_dec positive_rect positive_rec Z.eq_dec] in *.
Lemma vecs0 : vec3 0 = V3 1 0 0 /\ vec3 1 = V3 (-1) 0 0 /\ vec3 2 = V3 0 1 0 /\ vec3 3 = V3 0 (-1) 0 /\ vec3 4 = V3 0 0 1 /\ vec3 5 = V3 0 0 (-1).
Proof. repeat split. Qed.
Ltac known := rewrite ?(proj1 vecs0), ?(proj1 (proj2 vecs0)), ?(proj1 (proj2 (proj2 vecs0))), ?(proj1 (proj2 (proj2 (proj2 vecs0)))), ?(proj1 (proj2 (proj2 (proj2 (proj2 vecs0))))), ?(proj2 (proj2 (proj2 (proj2 (proj2 vecs0))))) in *.
Lemma to_float a : axis a -> ax_toFloat3 a = Some (vec3 a).
Proof. intros H. cases H; reflexivity. Qed.
Lemma cross_spec a b : axis a -> axis b -> match ax_cross a b with Some c => axis c /\ vec3 c = outer (vec3 a) (vec3 b) | None => outer (vec3 a) (vec3 b) = origin end.
Proof.
  intros A B. cases A; cases B; match goal with |- match ?e with _ => _ end => let v := eval vm_compute in e in change e with v end; cbv iota;
    try (split; [unfold axis; lia|]); known; open; parts; ring.
Qed.
Lemma cross_fails a b : axis a -> axis b -> (ax_cross a b = None <-> outer (vec3 a) (vec3 b) = origin).
Proof.
  intros A B. pose proof (cross_spec a b A B) as H. destruct (ax_cross a b) as [c|]; [|tauto]. split; [discriminate|]. intros E. destruct H as [C H]. rewrite E in H. exfalso.
  cases C; known; unfold origin in H; injection H; intros; lra.
Qed.
Lemma dot_spec a b : axis a -> axis b -> IZR (ax_dot a b) = inner (vec3 a) (vec3 b).
Proof. intros A B. cases A; cases B; match goal with |- IZR ?e = _ => let v := eval vm_compute in e in change e with v end; known; open; ring. Qed.
Lemma perp_spec a b : axis a -> axis b -> (ax_isPerp a b = true <-> inner (vec3 a) (vec3 b) = 0%R).
Proof.
  intros A B. cases A; cases B; match goal with |- ?e = true <-> _ => let v := eval vm_compute in e in change e with v end; known; open; split; intros H; try reflexivity; try discriminate; lra.
Qed.
Lemma negate_spec a : axis a -> axis (ax_negate a) /\ vec3 (ax_negate a) = times (-1) (vec3 a).
Proof. intros A. cases A; (split; [unfold axis; match goal with |- (_ <= ?e < _)%Z => let v := eval vm_compute in e in change e with v end; lia|]); match goal with |- vec3 ?e = _ => let v := eval vm_compute in e in change e with v end; known; open; parts; ring. Qed.
Lemma dotV_spec a v : axis a -> ax_dotV a v = inner (vec3 a) v.
Proof. intros A. destruct v as [x y z]. cases A; known; unfold ax_dotV, component; open; cbn; ring. Qed.
Lemma axis_sign a : axis a -> axis (ax_abs a) /\ vec3 a = times (IZR (ax_sgn a)) (vec3 (ax_abs a)) /\ (vec3 (ax_abs a) = V3 1 0 0 \/ vec3 (ax_abs a) = V3 0 1 0 \/ vec3 (ax_abs a) = V3 0 0 1).
Proof.
  intros A. cases A; (match goal with |- context [ax_abs ?e] => let v := eval vm_compute in (ax_abs e) in change (ax_abs e) with v end); (match goal with |- context [ax_sgn ?e] => let v := eval vm_compute in (ax_sgn e) in change (ax_sgn e) with v end);
    (split; [unfold axis; lia|]); known; (split; [open; parts; ring|tauto]).
Qed.
Lemma mulSign_spec a s : axis a -> match ax_mulSign a s with Some b => (s = 1 \/ s = -1) /\ axis b /\ vec3 b = times (IZR s) (vec3 a) | None => s <> 1 /\ s <> -1 end.
Proof.
  intros A. unfold ax_mulSign. destruct (Z.eqb_spec s 1) as [->|N1].
  - cbn [orb]. split; [auto|]. cases A; (split; [unfold axis; match goal with |- (_ <= ?e < _)%Z => let v := eval vm_compute in e in change e with v end; lia|]); match goal with |- vec3 ?e = _ => let v := eval vm_compute in e in change e with v end; known; open; parts; ring.
  - destruct (Z.eqb_spec s (-1)) as [->|N2]; [|split; assumption]. cbn [orb]. split; [auto|]. cases A; (split; [unfold axis; match goal with |- (_ <= ?e < _)%Z => let v := eval vm_compute in e in change e with v end; lia|]); match goal with |- vec3 ?e = _ => let v := eval vm_compute in e in change e with v end; known; open; parts; ring.
Qed.
(** ** All rotations *)
Lemma ortho_proper r : proper r <-> axis (r0 r) /\ axis (r1 r) /\ axis (r2 r) /\ ar_isOrtho r = true.
Proof.
  unfold proper, ar_isOrtho. split; intros (A & B & C & O); (split; [exact A|]; split; [exact B|]; split; [exact C|]); pose proof (perp_spec _ _ A B); pose proof (perp_spec _ _ B C); pose proof (perp_spec _ _ C A).
  - destruct O as (_ & _ & _ & D & E & F). rewrite !andb_true_iff. tauto.
  - rewrite !andb_true_iff in O. unfold orthonormal.
    assert (U : forall x, axis x -> inner (vec3 x) (vec3 x) = 1%R) by (intros x X; cases X; known; open; ring).
    rewrite !U by assumption. tauto.
Qed.
Definition arEqb (a b : axisRot) : bool := (r0 a =? r0 b) && (r1 a =? r1 b) && (r2 a =? r2 b).
Lemma arEqb_eq a b : arEqb a b = true <-> a = b.
Proof. unfold arEqb. rewrite !andb_true_iff, !Z.eqb_eq. destruct a, b; cbn. split; [intros [[-> ->] ->]; reflexivity|intros X; injection X as -> -> ->; auto]. Qed.
Lemma listed r : proper r <-> In r ar_forEach.
Proof.
  rewrite ortho_proper. split.
  - intros (A & B & C & O). destruct r as [x y z]. cbn [r0 r1 r2] in *.
    assert (E : existsb (arEqb (AR x y z)) ar_forEach = true) by (cases A; cases B; cases C; first [vm_compute; reflexivity | exfalso; vm_compute in O; discriminate O]).
    apply existsb_exists in E. destruct E as (r & I & E). apply arEqb_eq in E. subst r. exact I.
  - intros I. assert (F : forallb (fun r => (0 <=? r0 r) && (r0 r <? 6) && (0 <=? r1 r) && (r1 r <? 6) && (0 <=? r2 r) && (r2 r <? 6) && ar_isOrtho r) ar_forEach = true) by (vm_compute; reflexivity).
    rewrite forallb_forall in F. specialize (F r I). unfold axis. lia.
Qed.
Lemma once : NoDup ar_forEach /\ List.length ar_forEach = 48%nat.
Proof.
  split; [|reflexivity]. assert (N : forall l, (fix nd l := match l with [] => true | x :: l => negb (existsb (arEqb x) l) && nd l end) l = true -> NoDup l).
  { induction l as [|x l IH]; intros H; [constructor|]. apply andb_true_iff in H. destruct H as [H1 H2]. constructor; [|apply IH; exact H2].
    intros I. apply negb_true_iff in H1. assert (existsb (arEqb x) l = true); [|congruence]. apply existsb_exists. exists x. split; [exact I|apply arEqb_eq; reflexivity]. }
  apply N. vm_compute. reflexivity.
Qed.
Ltac each I := apply listed in I; cbv [ar_forEach flat_map] in I; cbn in I; repeat (destruct I as [<-|I]); try (destruct I).
Lemma apply_spec r v : proper r -> ar_apply r v = Some (m3_apply (matrix r) v).
Proof.
  intros I. apply listed in I. destruct v as [x y z]. let l := eval vm_compute in ar_forEach in change ar_forEach with l in I. cbn [In] in I.
  repeat (destruct I as [<-|I]; [unfold matrix; cbn [r0 r1 r2]; known; open; cbn; f_equal; parts; ring|]). destruct I.
Qed.
Lemma mulAxis_spec r c : axis (r0 r) -> axis (r1 r) -> axis (r2 r) -> axis c -> axis (ar_mulAxis r c) /\ vec3 (ar_mulAxis r c) = m3_apply (matrix r) (vec3 c).
Proof.
  intros A B C D. destruct r as [x y z]. cbn [r0 r1 r2] in *.
  pose proof (negate_spec x A) as [N1 E1]. pose proof (negate_spec y B) as [N2 E2]. pose proof (negate_spec z C) as [N3 E3]. unfold ax_negate in *.
  unfold ar_mulAxis, matrix. cases D; (match goal with |- context [ar_get _ ?e] => let v := eval vm_compute in e in change e with v end); cbn [ar_get Z.eqb Pos.eqb r0 r1 r2 Z.land Pos.land Z.of_N]; rewrite ?Z.lxor_0_r;
    (split; [assumption|]); rewrite ?E1, ?E2, ?E3; known; destruct (vec3 x), (vec3 y), (vec3 z); open; parts; ring.
Qed.
Lemma mul_spec a b : proper a -> proper b -> proper (ar_mul a b) /\ matrix (ar_mul a b) = m3_mul (matrix a) (matrix b).
Proof.
  intros PA PB. destruct PA as (A & B & C & O). destruct PB as (A' & B' & C' & O').
  destruct (mulAxis_spec a _ A B C A') as [X1 X2]. destruct (mulAxis_spec a _ A B C B') as [Y1 Y2]. destruct (mulAxis_spec a _ A B C C') as [Z1 Z2].
  assert (M : matrix (ar_mul a b) = m3_mul (matrix a) (matrix b)) by (unfold matrix at 1; unfold ar_mul; cbn [r0 r1 r2]; rewrite X2, Y2, Z2; reflexivity).
  split; [|exact M]. unfold proper. cbn [ar_mul r0 r1 r2]. split; [exact X1|]. split; [exact Y1|]. split; [exact Z1|]. rewrite X2, Y2, Z2.
  assert (I : forall v w, inner (m3_apply (matrix a) v) (m3_apply (matrix a) w) = inner v w).
  { intros v w. unfold matrix. destruct O as (P & Q & R & S1 & T & U). destruct (vec3 (r0 a)) as [a1 b1 c1], (vec3 (r1 a)) as [a2 b2 c2], (vec3 (r2 a)) as [a3 b3 c3], v as [x y z], w as [x' y' z']. open.
    transitivity (x*x'*(a1*a1+b1*b1+c1*c1) + y*y'*(a2*a2+b2*b2+c2*c2) + z*z'*(a3*a3+b3*b3+c3*c3) + (x*y'+y*x')*(a1*a2+b1*b2+c1*c2) + (y*z'+z*y')*(a2*a3+b2*b3+c2*c3) + (z*x'+x*z')*(a3*a1+b3*b1+c3*c1))%R; [ring|].
    rewrite P, Q, R, S1, T, U. ring. }
  unfold orthonormal. rewrite !I. exact O'.
Qed.
Lemma inverted_spec r : proper r -> exists i, ar_inverted r = Some i /\ proper i /\ ar_mul i r = ar_identity /\ ar_mul r i = ar_identity /\ matrix i = m3_transposed (matrix r).
Proof.
  intros I. assert (F : forallb (fun r => match ar_inverted r with Some i => existsb (arEqb i) ar_forEach && arEqb (ar_mul i r) ar_identity && arEqb (ar_mul r i) ar_identity | None => false end) ar_forEach = true) by (vm_compute; reflexivity).
  rewrite forallb_forall in F. specialize (F r (proj1 (listed r) I)). destruct (ar_inverted r) as [i|] eqn:E; [|discriminate]. exists i. split; [reflexivity|].
  rewrite !andb_true_iff in F. destruct F as [[F1 F2] F3]. apply arEqb_eq in F2, F3. apply existsb_exists in F1. destruct F1 as (j & J & Q). apply arEqb_eq in Q. subst j. apply listed in J. split; [exact J|]. split; [exact F2|]. split; [exact F3|].
  apply listed in I. let l := eval vm_compute in ar_forEach in change ar_forEach with l in I. cbn [In] in I.
  repeat (destruct I as [<-|I]; [vm_compute in E; injection E as <-; reflexivity|]). destruct I.
Qed.
Lemma hand_spec r : proper r -> exists b, ar_isRightHanded r = Some b /\ (b = true <-> outer (vec3 (r0 r)) (vec3 (r1 r)) = vec3 (r2 r)).
Proof.
  intros I. apply listed in I. let l := eval vm_compute in ar_forEach in change ar_forEach with l in I. cbn [In] in I.
  repeat (destruct I as [<-|I]; [eexists; split; [vm_compute; reflexivity|]; cbn [r0 r1 r2]; known; open; split; intros X; first [discriminate X | reflexivity | (parts; ring) | (exfalso; injection X; intros; lra)]|]). destruct I.
Qed.
Lemma basis_spec v i : axis v -> 0 <= i < 3 -> exists r, ar_makeBasis v i = Some r /\ proper r /\ ar_get r i = v /\ ar_isRightHanded r = Some true.
Proof.
  intros V I. assert (Q : i = 0 \/ i = 1 \/ i = 2) by lia.
  destruct Q as [-> | [-> | ->]]; cases V; (eexists; split; [vm_compute; reflexivity|]; split; [apply listed; vm_compute; tauto|]; split; reflexivity).
Qed.
Lemma of2_spec x y : axis x -> axis y -> inner (vec3 x) (vec3 y) = 0%R -> exists r, ar_of2 x y = Some r /\ proper r /\ r0 r = x /\ r1 r = y /\ ar_isRightHanded r = Some true.
Proof.
  intros X Y H. apply (perp_spec x y X Y) in H. cases X; cases Y; first [discriminate H | (eexists; split; [vm_compute; reflexivity|]; split; [apply listed; vm_compute; tauto|]; repeat split)].
Qed.
Lemma plane_spec n v : 0 <= n < 4 -> ax2_apply n v = quarterTurns (Z.to_nat n) v /\
  exists r, ar_fromRot2D n = Some r /\ proper r /\ forall z, m3_apply (matrix r) (V3 (x2 v) (y2 v) z) = V3 (x2 (ax2_apply n v)) (y2 (ax2_apply n v)) z.
Proof.
  intros N. assert (Q : n = 0 \/ n = 1 \/ n = 2 \/ n = 3) by lia. destruct v as [x y].
  destruct Q as [-> | [-> | [-> | ->]]]; (unfold ax2_apply; repeat (match goal with |- context [ax2_sgn ?e] => let v := eval vm_compute in (ax2_sgn e) in change (ax2_sgn e) with v end); (match goal with |- context [?e =? 0] => let v := eval vm_compute in (e =? 0) in change (e =? 0) with v end);
    (match goal with |- context [Z.to_nat ?e] => let v := eval vm_compute in (Z.to_nat e) in change (Z.to_nat e) with v end); cbv iota zeta; cbn [quarterTurns x2 y2];
    split; [f_equal; ring|]; eexists; split; [vm_compute; reflexivity|]; split; [apply listed; vm_compute; tauto|];
    intros z; unfold matrix; cbn [r0 r1 r2 x2 y2]; known; open; parts; ring).
Qed.
Lemma less_spec a b c : ar_less a a = false /\ (ar_less a b = true -> ar_less b c = true -> ar_less a c = true) /\ (a = b \/ ar_less a b = true \/ ar_less b a = true).
Proof.
  unfold ar_less. destruct a as [a b' c'], b as [d e f], c as [g h i]. cbn [r0 r1 r2]. split; [rewrite !Z.eqb_refl; cbn; apply Z.ltb_irrefl|]. split.
  - repeat match goal with |- context [?x =? ?y] => destruct (Z.eqb_spec x y) end; cbn [negb]; lia.
  - destruct (Z.eqb_spec a d) as [->|]; destruct (Z.eqb_spec b' e) as [->|]; destruct (Z.eqb_spec c' f) as [->|]; rewrite ?Z.eqb_refl; cbn [negb];
      try (left; reflexivity); right; repeat match goal with |- context [?x =? ?y] => destruct (Z.eqb_spec x y) end; cbn [negb]; try lia.
Qed.
Lemma arp_mul_spec a b v : proper (apRot a) -> proper (apRot b) -> exists c w, arp_mul a b = Some c /\ arp_apply b v = Some w /\ arp_apply c v = arp_apply a w /\ arp_apply c v <> None.
Proof.
  intros A B. destruct (mul_spec _ _ A B) as [P M]. unfold arp_mul, arp_apply. rewrite !(apply_spec (apRot a)), (apply_spec (apRot b)) by assumption. cbn [option_map]. do 2 eexists. split; [reflexivity|]. split; [reflexivity|]. cbn [apRot apPos].
  rewrite (apply_spec _ _ P), (apply_spec _ _ A), M. cbn [option_map]. split; [|discriminate]. f_equal. destruct (matrix (apRot a)), (matrix (apRot b)), (apPos a), (apPos b), v. vec. open. parts; ring.
Qed.
Lemma arp_inverted_spec a v : proper (apRot a) -> exists i w, arp_inverted a = Some i /\ arp_apply a v = Some w /\ arp_apply i w = Some v.
Proof.
  intros A. destruct (inverted_spec _ A) as (i & E & P & L & _ & T). unfold arp_inverted, arp_apply. rewrite E, !(apply_spec i), (apply_spec (apRot a)) by assumption. cbn [option_map]. do 2 eexists. split; [reflexivity|]. split; [reflexivity|].
  cbn [apRot apPos]. rewrite (apply_spec i) by exact P. cbn [option_map]. f_equal.
  assert (Q : forall u, m3_apply (matrix i) (m3_apply (matrix (apRot a)) u) = u).
  { intros u. destruct (mul_spec _ _ P A) as [_ M]. rewrite L in M. rewrite <- m3_mul_apply, <- M. unfold matrix, ar_identity. cbn [r0 r1 r2]. known. destruct u. open. parts; ring. }
  transitivity (m3_apply (matrix i) (m3_apply (matrix (apRot a)) v)); [|apply Q]. destruct (matrix i), (m3_apply (matrix (apRot a)) v), (apPos a). vec. open. parts; ring.
Qed.
