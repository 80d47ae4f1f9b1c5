(* Proofs about loading: what was saved is read, piece by piece. *)
From Coq Require Import Lia ZifyBool ZifyNat.
From Verif Require Import PersistModel PersistSpec PersistSchema PersistWriteProofs.
Local Notation length := List.length.
Local Notation "'do' x <- a ; b" := (match a with Some x => b | None => None end) (at level 200, x pattern, a at level 100, b at level 200).

Section FmtInd.
Context (P : fmt -> Prop).
Context (H1 : P FNull) (H2 : forall k, P (FNum k)) (H3 : P FString) (H4 : P FOther) (H5 : forall n f, P f -> P (FFixed n f)) (H6 : forall f, P f -> P (FArray f))
  (H7 : forall f, P f -> P (FOwned f)) (H8 : forall f, P (FRaw f))
  (H9 : forall name ps ms, Forall (fun m => P (snd m)) ms -> P (FStruct name ps ms)) (H10 : forall name n ids, P (FEnum name n ids))
  (H11 : forall f ids, P f -> P (FEnumArray f ids)) (H12 : forall name ss, Forall (fun m => P (snd m)) ss -> P (FSwitch name ss)).
Fixpoint fmt_ind2 (f : fmt) : P f :=
  let all := fix all (l : list (list Z * fmt)) : Forall (fun m => P (snd m)) l :=
    match l with [] => Forall_nil _ | m :: l => Forall_cons m (fmt_ind2 (snd m)) (all l) end in
  match f with
  | FNull => H1 | FNum k => H2 k | FString => H3 | FOther => H4
  | FFixed n f => H5 n f (fmt_ind2 f)
  | FArray f => H6 f (fmt_ind2 f)
  | FOwned f => H7 f (fmt_ind2 f)
  | FRaw f => H8 f
  | FStruct name ps ms => H9 name ps ms (all ms)
  | FEnum name n ids => H10 name n ids
  | FEnumArray f ids => H11 f ids (fmt_ind2 f)
  | FSwitch name ss => H12 name ss (all ss)
  end.
End FmtInd.

(** One list is part of another, in the same order. *)
Inductive sub {A} : list A -> list A -> Prop :=
| sub_nil : sub [] []
| sub_keep x l l' : sub l l' -> sub (x :: l) (x :: l')
| sub_drop x l l' : sub l l' -> sub l (x :: l').
Lemma sub_none {A} (l : list A) : sub [] l.
Proof. induction l; constructor; auto. Qed.
Lemma sub_app {A} (a b c d : list A) : sub a b -> sub c d -> sub (a ++ c) (b ++ d).
Proof. intros H K. induction H; cbn [app]; try constructor; auto. Qed.
Lemma sub_in {A} (a b : list A) x : sub a b -> In x a -> In x b.
Proof. induction 1 as [|y a b H IH|y a b H IH]; intros K; [exact K|destruct K as [->|K]; [now left|right; auto]|right; auto]. Qed.
Lemma sub_NoDup {A} (a b : list A) : sub a b -> NoDup b -> NoDup a.
Proof. induction 1 as [|y a b H IH|y a b H IH]; intros N; [constructor|inversion N; subst; constructor; [|auto]|inversion N; auto]. intros F. eapply sub_in in F; eauto. Qed.
Fixpoint zseq (a : Z) (n : nat) : list Z := match n with O => [] | S n => a :: zseq (a + 1) n end.
Lemma zseq_app a n m : zseq a (n + m) = zseq a n ++ zseq (a + Z.of_nat n) m.
Proof. revert a. induction n as [|n IH]; intros a; cbn [zseq app Nat.add]; [now rewrite Z.add_0_r|]. rewrite IH. do 3 f_equal. lia. Qed.
Lemma zseq_lt a n x : In x (zseq a n) -> a <= x.
Proof. revert a. induction n as [|n IH]; intros a H; [elim H|]. destruct H as [->|H]; [lia|]. apply IH in H. lia. Qed.
Lemma zseq_NoDup a n : NoDup (zseq a n).
Proof. revert a. induction n as [|n IH]; intros a; constructor; [|apply IH]. intros H. apply zseq_lt in H. lia. Qed.

Lemma to_signed_ok n z : 0 < n -> - 2 ^ (n - 1) <= z < 2 ^ (n - 1) -> to_signed n (z mod 2 ^ n) = z.
Proof.
  intros Hn H. unfold to_signed. rewrite Zmod_mod. assert (E : 2 ^ n = 2 * 2 ^ (n - 1)) by (rewrite <- Z.pow_succ_r by lia; f_equal; lia).
  destruct (Z.neg_nonneg_cases z) as [L|L].
  - replace (z mod 2 ^ n) with (z + 2 ^ n); [destruct (Z.ltb_spec (z + 2 ^ n) (2 ^ (n - 1))); lia|]. rewrite <- (Z.mod_add z 1) by lia. rewrite Z.mod_small; lia.
  - rewrite Z.mod_small by lia. destruct (Z.ltb_spec z (2 ^ (n - 1))); lia.
Qed.
Section Read.
Context (env env' : list tdesc) (dflt : tptr -> val) (target : Z -> option tptr) (base : Z) (os : list entry).
Context (dplain : forall t, plain (dflt t)).
Definition N := zlen (filter linked os).
Context (Hlook : forall a i, look os a = Some i -> 0 <= i < N) (Hfew : N < 2 ^ 32).
Definition lk (a : Z) : bool := match look os a with Some _ => true | None => false end.
Context (Htarget : forall a, lk a = true -> target a <> None).

Fixpoint table (o : Z) (qs : list piece) : list Z :=
  match qs with [] => [] | q :: qs => (match q with Object a _ => if lk a then [o] else [] | _ => [] end) ++ table (o + width q) qs end.
Fixpoint clear (o : Z) (qs : list piece) : Prop :=
  match qs with
  | [] => True
  | q :: qs => match q with Object a _ => lk a = false -> ~ In o (table o qs) | _ => True end /\ clear (o + width q) qs
  end.
Definition Ls (ps : list piece) : list Z := filter lk (objs ps).

(** The reader is at offset o of the data, and the rest is qs. *)
Record At (s : ost) (o : Z) (qs : list piece) : Prop := mkAt {
  at_inp : inp s = (base + o, render os qs);
  at_todo : todo s = table o qs;
  at_clear : clear o qs;
  at_len : base + o + widths qs < 2 ^ 32;
  at_total : zlen (todo s) + zlen (done s) = N }.

Notation map2 := (list (Z * Z)).
Definition found (m : map2) (a : Z) (e : option (Z * tptr)) : Prop := exists n u, e = Some (n, u) /\ target a = Some u /\ In (a, n) m.
(** [rv] reads the pieces ps, and its result has R. *)
Definition reads {A} (rv : ost -> option (A * ost)) (s : ost) (o : Z) (ps qs : list piece) (R : map2 -> A -> Prop) : Prop :=
  exists x s' m d, rv s = Some (x, s') /\ At s' (o + widths ps) qs /\ done s' = done s ++ d /\ Forall2 (found m) (Ls ps) d /\
    fresh s' = fresh s + zlen m /\ map snd m = zseq (fresh s) (length m) /\ sub (map fst m) (objs ps) /\ R m x.

Lemma found_mono m m' a e : incl m m' -> found m a e -> found m' a e.
Proof. intros H (n & u & A & B & C). exists n, u. auto. Qed.
Lemma Ls_app a b : Ls (a ++ b) = Ls a ++ Ls b.
Proof. unfold Ls, objs. now rewrite flat_map_app, filter_app. Qed.
Lemma objs_app a b : objs (a ++ b) = objs a ++ objs b.
Proof. apply flat_map_app. Qed.
Lemma render_app a b : render os (a ++ b) = render os a ++ render os b.
Proof. apply flat_map_app. Qed.
Lemma reads_bind {A B} (f : ost -> option (A * ost)) (g : A -> ost -> option (B * ost)) s o ps1 ps2 qs R1 R :
  reads f s o ps1 (ps2 ++ qs) R1 ->
  (forall x s' m1, At s' (o + widths ps1) (ps2 ++ qs) -> R1 m1 x -> reads (g x) s' (o + widths ps1) ps2 qs (fun m2 y => R (m1 ++ m2) y)) ->
  reads (fun s => do (x, s) <- f s; g x s) s o (ps1 ++ ps2) qs R.
Proof.
  intros (x & s1 & m1 & d1 & A1 & A2 & A3 & A4 & A5 & A6 & A7 & A8) K.
  destruct (K x s1 m1 A2 A8) as (y & s2 & m2 & d2 & B1 & B2 & B3 & B4 & B5 & B6 & B7 & B8).
  exists y, s2, (m1 ++ m2), (d1 ++ d2). rewrite A1. split; [exact B1|]. split; [now rewrite widths_app, Z.add_assoc|].
  split; [now rewrite B3, A3, app_assoc|]. split.
  { rewrite Ls_app. apply Forall2_app; (eapply Forall2_impl; [|eassumption]); intros a e; apply found_mono; intros z Hz; apply in_or_app; auto. }
  split; [rewrite B5, A5, zlen_app; lia|]. split.
  { rewrite map_app, app_length, zseq_app, A6, B6, A5. reflexivity. }
  split; [rewrite map_app, objs_app; now apply sub_app|exact B8].
Qed.
Lemma reads_ret {A} (x : A) s o qs (R : map2 -> A -> Prop) : At s o qs -> R [] x -> reads (fun s => Some (x, s)) s o [] qs R.
Proof.
  intros H K. exists x, s, [], []. cbn [widths fold_right]. rewrite Z.add_0_r, app_nil_r. repeat split; auto; try constructor; try apply H.
  - unfold zlen. cbn. lia.
Qed.
Lemma reads_eq {A} (rv rv' : ost -> option (A * ost)) s o ps qs R : (rv s = rv' s) -> reads rv' s o ps qs R -> reads rv s o ps qs R.
Proof. intros E (x & s1 & m1 & d1 & A1 & H). exists x, s1, m1, d1. split; [congruence|exact H]. Qed.
Lemma reads_weak {A} (rv : ost -> option (A * ost)) s o ps qs (R R' : map2 -> A -> Prop) :
  (forall m x, R m x -> R' m x) -> reads rv s o ps qs R -> reads rv s o ps qs R'.
Proof. intros E (x & s1 & m1 & d1 & A1 & A2 & A3 & A4 & A5 & A6 & A7 & A8). exists x, s1, m1, d1. auto 10. Qed.
(** Bytes. *)
Lemma reads_bytes {A} (f : input -> option (A * input)) l x s o qs :
  (forall p r, f (p, l ++ r) = Some (x, (p + zlen l, r))) -> At s o (Bytes l :: qs) -> reads (rd f) s o [Bytes l] qs (fun m y => m = [] /\ y = x).
Proof.
  intros E [A1 A2 A3 A4 A5]. cbn [render flat_map table clear app width] in *. rewrite widths_cons in A4. cbn [width] in A4.
  exists x, (setInp (base + o + zlen l, render os qs) s), [], []. unfold rd. rewrite A1. fold (render os qs). rewrite E. split; [reflexivity|].
  rewrite widths_cons. cbn [width widths fold_right]. rewrite Z.add_0_r.
  split; [constructor; cbn [inp setInp todo done]; auto; try tauto; try lia; now rewrite Z.add_assoc|]. cbn [setInp done fresh]. rewrite app_nil_r.
  repeat split; auto; try constructor; unfold zlen; cbn; lia.
Qed.

(* ================ parts that are skipped ================ *)
Definition unused (ps : list piece) : Prop := Forall (fun p => match p with Bytes _ => True | Pointer _ _ => False | Object a _ => lk a = false end) ps.
Lemma layout_members ms l ps : members env ms l ps -> length l = length ms /\ length ps = length ms.
Proof. revert l ps. induction ms as [|m ms IH]; intros l ps H; inversion H; subst; cbn; [auto|]. match goal with K : members _ _ _ _ |- _ => destruct (IH _ _ K) end. split; congruence. Qed.
Definition moves (sk : ost -> option ost) (s : ost) (o : Z) (ps qs : list piece) : Prop :=
  exists s', sk s = Some s' /\ At s' (o + widths ps) qs /\ done s' = done s /\ fresh s' = fresh s.
Lemma reads_moves {A} f s o l qs (R : map2 -> A -> Prop) : reads (rd f) s o [Bytes l] qs R -> forall x s', rd f s = Some (x, s') -> moves (fun s => do (_, s) <- rd f s; Some s) s o [Bytes l] qs.
Proof.
  intros (y & s1 & m & d & A1 & A2 & A3 & A4 & A5 & A6 & A7 & A8) x s' E. exists s1. rewrite A1. cbn [Ls objs flat_map app filter] in *.
  inversion A4; subst. inversion A7 as [Q|?|?]; subst. rewrite app_nil_r in A3. split; [reflexivity|]. split; [exact A2|]. split; [exact A3|]. rewrite A5.
  symmetry in Q. apply map_eq_nil in Q. subst. cbn. lia.
Qed.
Lemma moves_bind f g s o ps1 ps2 qs : moves f s o ps1 (ps2 ++ qs) -> (forall s', At s' (o + widths ps1) (ps2 ++ qs) -> moves g s' (o + widths ps1) ps2 qs) ->
  moves (fun s => do s <- f s; g s) s o (ps1 ++ ps2) qs.
Proof.
  intros (s1 & A1 & A2 & A3 & A4) K. destruct (K s1 A2) as (s2 & B1 & B2 & B3 & B4). exists s2. rewrite A1. split; [exact B1|].
  rewrite widths_app, Z.add_assoc. split; [exact B2|]. split; congruence.
Qed.
Lemma moves_eq sk sk' s o ps qs : sk s = sk' s -> moves sk' s o ps qs -> moves sk s o ps qs.
Proof. intros E (s1 & A). exists s1. rewrite E. exact A. Qed.
Lemma moves_reads {A} (x : A) sk s o ps qs (R : map2 -> A -> Prop) : unused ps -> moves sk s o ps qs -> R [] x -> reads (fun s => do s <- sk s; Some (x, s)) s o ps qs R.
Proof.
  intros U (s1 & A1 & A2 & A3 & A4) K. exists x, s1, [], []. rewrite A1, app_nil_r. split; [reflexivity|]. split; [exact A2|]. split; [exact A3|].
  split; [|split; [unfold zlen; cbn; lia|split; [reflexivity|split; [apply sub_none|exact K]]]].
  assert (Q : Ls ps = []); [|rewrite Q; constructor]. unfold Ls. clear - U. induction U as [|p ps H U IH]; [reflexivity|]. cbn [objs flat_map]. rewrite filter_app. fold (objs ps). rewrite IH, app_nil_r.
  destruct p as [l|a t|a t]; [reflexivity|reflexivity|]. cbn [filter]. now rewrite H.
Qed.
Lemma moves_ret s o qs : At s o qs -> moves (fun s => Some s) s o [] qs.
Proof. intros H. exists s. cbn [widths fold_right]. rewrite Z.add_0_r. auto. Qed.
Lemma unused_app a b : unused (a ++ b) <-> unused a /\ unused b.
Proof. apply Forall_app. Qed.
Lemma reads_bytes' {A} (f : input -> option (A * input)) l x s o qs :
  (forall p r, f (p, l ++ r) = Some (x, (p + zlen l, r))) -> At s o (Bytes l :: qs) ->
  exists s', rd f s = Some (x, s') /\ At s' (o + widths [Bytes l]) qs /\ done s' = done s /\ fresh s' = fresh s.
Proof.
  intros E H. destruct (reads_bytes f l x s o qs E H) as (y & s1 & m & d & A1 & A2 & A3 & A4 & A5 & A6 & A7 & -> & ->). exists s1.
  cbn [Ls objs flat_map app filter] in *. inversion A4; subst. rewrite app_nil_r in A3. cbn in A5. rewrite Z.add_0_r in A5. auto.
Qed.
(** An object that nothing points to. *)
Lemma At_object s o a t qs : At s o (Object a t :: qs) -> lk a = false -> At s o qs.
Proof.
  intros [A1 A2 A3 A4 A5] H. cbn [render flat_map table clear app width] in *. rewrite widths_cons in A4. cbn [width] in A4. rewrite H in A2. cbn [app] in A2. rewrite Z.add_0_r in *.
  constructor; auto; tauto.
Qed.
Lemma decode_ok k z : numOk k z -> decode k (le (size k) z) = Some z.
Proof.
  intros [_ H]. unfold decode. rewrite unle_le. destruct k; cbn [isSigned] in *;
    try (rewrite Z.mod_small; [reflexivity|exact H]); try (rewrite to_signed_ok; [reflexivity|cbn; lia|exact H]).
  rewrite Z.mod_small by (cbn; lia). destruct H as [->| ->]; reflexivity.
Qed.
Lemma readU_le' n z : 0 <= z < 2 ^ (8 * Z.of_nat n) -> forall p r, readU n (p, le n z ++ r) = Some (z, (p + zlen (le n z), r)).
Proof. intros H p r. rewrite readU_le by exact H. now rewrite le_zlen. Qed.

Ltac uni := match goal with H : desc ?e ?x = Some ?a, K : desc ?e ?x = Some ?b |- _ =>
  let Q := fresh in assert (Q : a = b) by congruence; try discriminate Q; injection Q; clear H Q; intros; subst end.
Lemma rep_moves f u l pss : (forall v ps qs o s, layout env u v ps -> unused ps -> At s o (ps ++ qs) -> moves (skip f) s o ps qs) ->
  Forall2 (layout env u) l pss -> forall qs o s, unused (concat pss) -> At s o (concat pss ++ qs) -> moves (rep (length l) (skip f)) s o (concat pss) qs.
Proof.
  intros IH H. induction H as [|v p l pss Hv H IHl]; intros qs o s U HA; cbn [concat List.length rep] in *.
  - now apply moves_ret.
  - apply unused_app in U. destruct U as [U1 U2]. rewrite <- app_assoc in HA. apply moves_bind; [exact (IH _ _ _ _ _ Hv U1 HA)|].
    intros s' HA'. now apply IHl.
Qed.
Lemma skip_ok f : forall t v ps qs o s, fmtOf env t f -> layout env t v ps -> unused ps -> At s o (ps ++ qs) -> moves (skip f) s o ps qs.
Proof.
  induction f as [|k| | |n f IH|f IH|f IH|f|name ps0 ms IH|name n ids|f ids IH|name ss IH] using fmt_ind2; intros t v ps qs o s F L U HA;
    inversion F as [k0| |t0 n0 u f0 D F1|t0 u f0 D F1|t0 u f0 D F1|t0 u f0 D|t0 name0 qs0 ms0 qs' ms' D F0 F1|t0 name0 n0 ids0 D F0|t0 u e f0 name0 n0 ids0 D F1 F2 F0|t0 name0 ss0 ss' D F1];
    subst; clear F.
  - inversion L; subst; try discriminate. cbn [skip]. cbn [app] in HA.
    destruct (reads_bytes' (take (size k)) (le (size k) z) (le (size k) z) s o qs) as (s1 & A1 & A2 & A3 & A4).
    { intros p r. rewrite (take_app_n (size k)) by apply le_length. now rewrite le_zlen. }
    { exact HA. }
    exists s1. rewrite A1. rewrite decode_ok by assumption. auto.
  - inversion L; subst; try discriminate. cbn [skip]. cbn [app] in HA.
    destruct (reads_bytes' readBoxed (boxed s0) s0 s o qs) as (s1 & A1 & A2 & A3 & A4); [intros p r; now apply readBoxed_ok|exact HA|].
    exists s1. rewrite A1. auto.
  - inversion L; subst; try discriminate; try congruence. cbn [skip].
    uni.
    rewrite to_nat_zlen. eapply rep_moves; eauto.
  - inversion L; subst; try discriminate; try congruence. cbn [skip]. uni.
    cbn [app] in HA. destruct (reads_bytes' (readU 4) (le 4 (zlen l)) (zlen l) s o (concat ps0 ++ qs)) as (s1 & A1 & A2 & A3 & A4).
    { apply readU_le'. pose proof (zlen_pos l). change (2 ^ (8 * Z.of_nat 4)) with (2 ^ 32). lia. }
    { exact HA. }
    inversion U as [|? ? U1 U2]; subst. destruct (rep_moves f _ l ps0 (fun v ps qs o s Lv => IH _ v ps qs o s F1 Lv) ltac:(assumption) qs _ s1 U2 A2) as (s2 & B1 & B2 & B3 & B4).
    exists s2. rewrite A1, to_nat_zlen, B1. split; [reflexivity|]. rewrite widths_cons. rewrite widths_cons in B2. cbn [widths fold_right] in B2. rewrite Z.add_0_r in B2. rewrite Z.add_assoc.
    split; [exact B2|]. split; congruence.
  - inversion L; subst; try discriminate; try congruence. cbn [skip]. uni.
    inversion U as [|? ? U1 U2]; subst. cbn [app] in HA. apply At_object in HA; [|exact U1].
    match goal with H0 : layout env _ _ ps0 |- _ => destruct (IH _ _ ps0 qs o s F1 H0 U2 HA) as (s1 & A) end. exists s1. rewrite widths_cons. cbn [width]. exact A.
  - inversion L; subst; try discriminate; try congruence. inversion U as [|? ? U1 U2]; subst. elim U1.
  - inversion L; subst; try discriminate; try congruence. cbn [skip]. uni.
    match goal with H : members _ _ _ _ |- _ => rename H into HM end. clear L F0. repeat match goal with H : desc _ _ = _ |- _ => clear H end.
    revert ms IH F1 o s U HA. induction HM as [|n1 t1 ms1 v1 l1 p1 ps1 Hv HM IHm]; intros fms IH F1 o s U HA.
    + inversion F1; subst. cbn [skipMembers concat]. now apply moves_ret.
    + inversion F1 as [|? m' ? fms' [E1 E2] F2]; subst. inversion IH as [|? ? IH1 IH2]; subst. cbn [concat] in *. apply unused_app in U. destruct U as [U1 U2]. rewrite <- app_assoc in HA.
      cbn [skipMembers]. apply moves_bind; [exact (IH1 _ _ _ _ _ _ E2 Hv U1 HA)|]. intros s' HA'. now apply IHm.
  - inversion L; subst; try discriminate; try congruence. cbn [skip]. uni.
    match goal with H : ?n1 = 1 \/ _ |- _ => rename n1 into m end. replace (m <=? 4) with true by lia. cbn [app] in HA.
    destruct (reads_bytes' (take (Z.to_nat m)) (le (Z.to_nat m) (Z.of_nat j)) (le (Z.to_nat m) (Z.of_nat j)) s o qs) as (s1 & A1 & A2 & A3 & A4).
    { intros p r. rewrite (take_app_n (Z.to_nat m)) by apply le_length. now rewrite le_zlen. }
    { exact HA. }
    exists s1. rewrite A1. auto.
  - inversion L; subst; try discriminate; try congruence. 
    uni.
    match goal with |- moves (skip (FEnumArray _ (map fst ?i))) _ _ _ _ => assert (EL : length l = length (map fst i)) by (rewrite map_length; congruence) end. cbn [skip]. rewrite <- EL.
    eapply rep_moves; eauto.
  - inversion L; subst; try discriminate; try congruence. cbn [skip]. uni.
    cbn [app] in HA. destruct (reads_bytes' (readU 2) (le 2 (Z.of_nat j)) (Z.of_nat j) s o (ps0 ++ qs)) as (s1 & A1 & A2 & A3 & A4).
    { apply readU_le'. change (2 ^ (8 * Z.of_nat 2)) with (2 ^ 16). lia. }
    { exact HA. }
    inversion U as [|? ? U1 U2]; subst. match goal with H : nth_error _ j = Some _ |- _ => rename H into EJ end.
    destruct (Forall2_nth _ _ _ _ _ F1 EJ) as (m' & M1 & M2 & M3). cbn [fst snd] in *.
    assert (IHm : forall qs o s, At s o (ps0 ++ qs) -> moves (skip (snd m')) s o ps0 qs).
    { rewrite Forall_forall in IH. intros. eapply (IH m'); eauto. eapply nth_error_In; eauto. }
    destruct (IHm qs _ s1 A2) as (s2 & B1 & B2 & B3 & B4).
    exists s2. rewrite A1, Nat2Z.id. assert (W : withState (fun f => skip f s1) j ss = skip (snd m') s1).
    { clear - M1. revert j M1. induction ss as [|x ss IH]; intros [|j] M; try discriminate; cbn in M; [|exact (IH j M)]. cbn. congruence. }
    rewrite W, B1. split; [reflexivity|]. rewrite widths_cons. rewrite widths_cons in B2. cbn [widths fold_right] in B2. rewrite Z.add_0_r in B2. rewrite Z.add_assoc.
    split; [exact B2|]. split; congruence.
Qed.

(* ================ parts that are loaded ================ *)
Inductive corr (m : map2) : val -> val -> Prop :=
| co_plain v : plain v -> corr m v v
| co_own a n w v : In (a, n) m -> corr m w v -> corr m (VOwn a w) (VOwn n v)
| co_ptr a i u : look os a = Some i -> target a = Some u -> corr m (VPtr a) (VLink i u)
| co_seq l l' : Forall2 (corr m) l l' -> corr m (VSeq l) (VSeq l')
| co_arr l l' : Forall2 (corr m) l l' -> corr m (VArr l) (VArr l')
| co_switch j w v : corr m w v -> corr m (VSwitch j w) (VSwitch j v).
Lemma corr_mono m m' w : incl m m' -> forall v, corr m w v -> corr m' w v.
Proof.
  intros HI. induction w as [z|x|l IH|l IH|a w IH| |a|i u|j w IH] using val_ind2; intros v C; inversion C; subst; try (now apply co_plain); try (constructor; auto; fail); try (econstructor; eauto; fail).
  - constructor. match goal with H : Forall2 _ _ _ |- _ => revert IH; induction H; intros IH; constructor end; inversion IH; subst; auto.
    apply IHForall2; [now constructor|assumption].
  - constructor. match goal with H : Forall2 _ _ _ |- _ => revert IH; induction H; intros IH; constructor end; inversion IH; subst; auto.
    apply IHForall2; [now constructor|assumption].
Qed.
Lemma list_eqb_eq a b : list_eqb a b = true <-> a = b.
Proof.
  revert b. induction a as [|x a IH]; intros [|y b]; cbn; try (split; (discriminate || reflexivity)).
  rewrite andb_true_iff, IH. split; [intros [A ->]; f_equal; lia|]. intros H. injection H as -> ->. split; [lia|reflexivity].
Qed.
Lemma findName_out {A} (l : list (list Z * A)) n : ~ In n (map fst l) -> findName l n = None.
Proof.
  induction l as [|[x y] l IH]; intros H; [reflexivity|]. cbn [findName map fst] in *. destruct (list_eqb n x) eqn:E.
  - apply list_eqb_eq in E. elim H. now left.
  - now rewrite IH by (intros F; apply H; now right).
Qed.
Lemma findName_nth {A} (l : list (list Z * A)) n j y : NoDup (map fst l) -> nth_error l j = Some (n, y) -> findName l n = Some (j, y).
Proof.
  revert j. induction l as [|[x z] l IH]; intros [|j] N E; try discriminate; cbn [findName map fst nth_error] in *; inversion N; subst.
  - injection E as -> ->. now rewrite (proj2 (list_eqb_eq n n) eq_refl).
  - destruct (list_eqb n x) eqn:Q.
    + apply list_eqb_eq in Q. subst. match goal with H : ~ In x _ |- _ => elim H end. apply nth_error_In in E. change x with (fst (x, y)). now apply in_map.
    + now rewrite (IH j).
Qed.
Lemma layout_det v : forall t ps ps', layout env t v ps -> layout env t v ps' -> ps = ps'.
Proof.
  assert (K1 : forall l, Forall (fun v => forall t ps ps', layout env t v ps -> layout env t v ps' -> ps = ps') l ->
    forall u p p', Forall2 (layout env u) l p -> Forall2 (layout env u) l p' -> p = p').
  { induction 1 as [|v0 l Hv H IH]; intros u p p' A B; inversion A; inversion B; subst; [reflexivity|]. f_equal; [eapply Hv; eauto|eapply IH; eauto]. }
  assert (K2 : forall l, Forall (fun v => forall t ps ps', layout env t v ps -> layout env t v ps' -> ps = ps') l ->
    forall ms p p', members env ms l p -> members env ms l p' -> p = p').
  { induction 1 as [|v0 l Hv H IH]; intros ms p p' A B; inversion A; subst; inversion B; subst; [reflexivity|]. f_equal; [eapply Hv; eauto|eapply IH; eauto]. }
  induction v as [z|x|l IH|l IH|a w IH| |a|i u|j w IH] using val_ind2; intros t ps ps' A B; inversion A; subst; inversion B; subst; try discriminate; try congruence; try uni.
  - match goal with H : nth_error (map snd ?i) ?j = Some z, K : nth_error (map snd ?i) ?k = Some z |- _ => assert (j = k); [|now subst] end.
    repeat match goal with H : nth_error (map snd _) _ = Some z |- _ => pose proof (valueIndex_first _ _ _ H ltac:(assumption)); clear H end.
    match goal with A : valueIndex ?i z = Some (Z.of_nat ?j), B : valueIndex ?i z = Some (Z.of_nat ?k) |- _ => assert (Z.of_nat j = Z.of_nat k) by congruence; lia end.
  - f_equal. eapply K1; eauto.
  - f_equal. eapply K2; eauto.
  - f_equal. eapply K1; eauto.
  - do 2 f_equal. eapply K1; eauto.
  - f_equal. eauto.
  - f_equal. match goal with H : nth_error ?i ?j = Some _, K : nth_error ?i ?j = Some _ |- _ => rewrite H in K; injection K as -> -> end. eauto.
Qed.
Lemma droppable_unused t v ps : droppable env target t v -> layout env t v ps -> unused ps.
Proof.
  intros (ps' & L & H) L'. rewrite (layout_det _ _ _ _ L' L). eapply Forall_impl; [|exact H]. intros [l|a u|a u]; auto. intros E.
  destruct (lk a) eqn:K; [|reflexivity]. elim (Htarget a K E).
Qed.
Lemma other_skip f t t' old s : fmtOf env t f -> comparable env env' t t' = false ->
  (forall i, t' = PUser i -> exists d, nth_error env' i = Some d /\ match d with TEnum _ _ _ | TRaw _ => False | _ => True end) ->
  readVal env' dflt base f t' old s = do s <- skip f s; Some (old, s).
Proof.
  intros F C H. destruct t' as [k'| |i'].
  - inversion F; subst; try reflexivity. cbn in C. discriminate.
  - inversion F; subst; try reflexivity. cbn in C. discriminate.
  - destruct (H i' eq_refl) as (d & D & HD). unfold comparable in C. cbn [desc] in C. rewrite D in C.
    assert (E : readVal env' dflt base f (PUser i') old s = readVal env' dflt base f (PUser i') old s) by reflexivity.
    inversion F; subst; match goal with Q : desc env t = Some _ |- _ => rewrite Q in C | _ => idtac end; cbn [readVal]; rewrite D;
      try (destruct t as [| |?]; try discriminate); cbn [desc] in *; destruct d; try contradiction; try discriminate; try reflexivity.
    rewrite C. reflexivity.
Qed.
Lemma At_width s o qs : At s o qs -> base + o < 2 ^ 32.
Proof. intros [_ _ _ A _]. pose proof (widths_pos qs). lia. Qed.
Lemma reads_pointer a u i s o qs : look os a = Some i -> At s o (Pointer a u :: qs) -> reads (rd (readU 4)) s o [Pointer a u] qs (fun m y => m = [] /\ y = i).
Proof.
  intros E [A1 A2 A3 A4 A5]. cbn [render flat_map table clear app width] in *. rewrite widths_cons in A4. cbn [width] in A4. rewrite E in A1. fold (render os qs) in A1.
  exists i, (setInp (base + o + 4, render os qs) s), [], []. unfold rd. rewrite A1. rewrite readU_le by (change (2 ^ (8 * Z.of_nat 4)) with (2 ^ 32); specialize (Hlook _ _ E); lia).
  split; [reflexivity|]. rewrite widths_cons. cbn [width widths fold_right]. rewrite Z.add_0_r.
  split; [constructor; cbn [inp setInp todo done]; auto; try tauto; try lia; now rewrite Z.add_assoc|]. cbn [setInp done fresh]. rewrite app_nil_r.
  repeat split; auto; try constructor; unfold zlen; cbn; lia.
Qed.
Lemma table_ge qs : forall o x, In x (table o qs) -> o <= x.
Proof.
  induction qs as [|q qs IH]; intros o x H; [elim H|]. cbn [table] in H. apply in_app_or in H. destruct H as [H|H].
  - destruct q as [l|a u|a u]; try elim H. destruct (lk a); [|elim H]. destruct H as [->|[]]. lia.
  - apply IH in H. pose proof (width_pos q). lia.
Qed.
(** An owned object. *)
Lemma link_ok s o a u u' qs : At s o (Object a u :: qs) -> (forall x, target a = Some x -> x = u') ->
  exists td d, link (todo s) (done s) o (fresh s, u') = (td, done s ++ d) /\ At (mko (inp s) td (done s ++ d) (fresh s + 1)) o qs /\
    Forall2 (found [(a, fresh s)]) (filter lk [a]) d.
Proof.
  intros [A1 A2 A3 A4 A5] HT. cbn [render flat_map table clear app width] in *. rewrite Z.add_0_r in *. rewrite widths_cons in A4. cbn [width] in A4. destruct A3 as [A3 A6].
  cbn [filter]. destruct (lk a) eqn:K.
  - exists (table o qs), [Some (fresh s, u')]. rewrite A2. cbn [app link]. rewrite Z.ltb_irrefl, Z.eqb_refl. split; [reflexivity|].
    split; [constructor; cbn [inp todo done]; auto; rewrite A2 in A5; cbn [app] in A5; rewrite zlen_cons in A5; rewrite zlen_app, zlen_cons, zlen_nil; lia|].
    constructor; [|constructor]. exists (fresh s), u'. split; [reflexivity|]. split; [|now left].
    destruct (target a) as [x|] eqn:T; [now rewrite (HT x eq_refl)|]. elim (Htarget a K T).
  - exists (table o qs), []. rewrite app_nil_r. rewrite A2. cbn [app]. split; [|split; [|constructor]].
    + pose proof (table_ge qs o) as G. specialize (A3 eq_refl). destruct (table o qs) as [|x r]; [reflexivity|]. cbn [link].
      specialize (G x (or_introl eq_refl)). destruct (Z.ltb_spec o x); [reflexivity|]. elim A3. left. lia.
    + constructor; cbn [inp todo done]; auto. rewrite A2 in A5. exact A5.
Qed.
Definition reading f := forall t t' v old w ps qs o s, fmtOf env t f -> layout env t v ps -> adapts env env' dflt target t t' v old w -> plain old ->
  (forall a u, In (Pointer a u) ps -> lk a = true) -> At s o (ps ++ qs) -> reads (readVal env' dflt base f t' old) s o ps qs (fun m x => corr m w x).
Lemma plain_all l : (plain (VSeq l) <-> Forall plain l) /\ (plain (VArr l) <-> Forall plain l).
Proof.
  assert (K : (fix all l := match l with [] => True | v :: l => plain v /\ all l end) l <-> Forall plain l); [|split; exact K].
  induction l as [|v l IH]; [split; [constructor|reflexivity]|]. split.
  - intros [A B]. constructor; [exact A|now apply IH].
  - intros H. inversion H; subst. split; [assumption|now apply IH].
Qed.
Lemma readSeq_ok f : reading f -> forall u u' l ol l' pss, fmtOf env u f -> Forall2 (layout env u) l pss -> adaptsAll env env' dflt target u u' l ol l' ->
  Forall plain ol -> forall qs o s, (forall a u, In (Pointer a u) (concat pss) -> lk a = true) -> At s o (concat pss ++ qs) ->
  reads (readSeq (readVal env' dflt base f u') ol) s o (concat pss) qs (fun m x => Forall2 (corr m) l' x).
Proof.
  intros IH u u' l ol l' pss F L. revert ol l'. induction L as [|v p l pss Hv L IHl]; intros ol l' HA HP qs o s HL H; inversion HA; subst; cbn [concat] in *.
  - apply reads_ret; [exact H|constructor].
  - inversion HP; subst. cbn [readSeq]. rewrite <- app_assoc in H.
    eapply reads_bind with (f := readVal env' dflt base f u' o0) (g := fun v s => do (l, s) <- readSeq (readVal env' dflt base f u') ol0 s; Some (v :: l, s)).
    + eapply IH; eauto. intros a x Hx. eapply HL. apply in_or_app. left. eassumption.
    + intros x s1 m1 H1 C. rewrite <- (app_nil_r (concat pss)).
      eapply reads_bind with (f := readSeq (readVal env' dflt base f u') ol0) (g := fun l s => Some (x :: l, s)).
      * eapply IHl; eauto. intros a y Hy. eapply HL. apply in_or_app. right. eassumption.
      * intros y s2 m2 HX C2. apply reads_ret; [exact HX|]. rewrite app_nil_r. constructor.
        -- eapply corr_mono; [|exact C]. apply incl_appl, incl_refl.
        -- eapply Forall2_impl; [|exact C2]. intros. eapply corr_mono; [|eassumption]. apply incl_appr, incl_refl.
Qed.
Lemma times_ok f : reading f -> forall u u' l l' pss, fmtOf env u f -> Forall2 (layout env u) l pss -> adaptsAll env env' dflt target u u' l (map (fun _ => dflt u') l) l' ->
  forall qs o s, (forall a u, In (Pointer a u) (concat pss) -> lk a = true) -> At s o (concat pss ++ qs) ->
  reads (times (length l) (readVal env' dflt base f u' (dflt u'))) s o (concat pss) qs (fun m x => Forall2 (corr m) l' x).
Proof.
  intros IH u u' l l' pss F L. revert l'. induction L as [|v p l pss Hv L IHl]; intros l' HA qs o s HL H; inversion HA; subst; cbn [concat] in *.
  - apply reads_ret; [exact H|constructor].
  - cbn [times List.length]. rewrite <- app_assoc in H.
    eapply reads_bind with (f := readVal env' dflt base f u' (dflt u')) (g := fun v s => do (l, s) <- times (length l) (readVal env' dflt base f u' (dflt u')) s; Some (v :: l, s)).
    + eapply IH; eauto. intros a x Hx. eapply HL. apply in_or_app. left. eassumption.
    + intros x s1 m1 H1 C. rewrite <- (app_nil_r (concat pss)).
      eapply reads_bind with (f := times (length l) (readVal env' dflt base f u' (dflt u'))) (g := fun l s => Some (x :: l, s)).
      * eapply IHl; eauto. intros a y Hy. eapply HL. apply in_or_app. right. eassumption.
      * intros y s2 m2 HX C2. apply reads_ret; [exact HX|]. rewrite app_nil_r. constructor.
        -- eapply corr_mono; [|exact C]. apply incl_appl, incl_refl.
        -- eapply Forall2_impl; [|exact C2]. intros. eapply corr_mono; [|eassumption]. apply incl_appr, incl_refl.
Qed.
Lemma updAt_len {A} (l : list A) i x : length (updAt l i x) = length l.
Proof. revert i. induction l as [|y l IH]; intros [|i]; cbn; auto. Qed.
Lemma updAt_same {A} (l : list A) i x y : nth_error l i = Some y -> nth_error (updAt l i x) i = Some x.
Proof. revert i. induction l as [|z l IH]; intros [|i] H; try discriminate; cbn in *; auto. Qed.
Lemma updAt_other {A} (l : list A) i j x : i <> j -> nth_error (updAt l i x) j = nth_error l j.
Proof. revert i j. induction l as [|z l IH]; intros [|i] [|j] H; cbn in *; auto; try congruence. Qed.
Lemma readMembers_ok ms' l' : NoDup (map fst ms') -> forall ms l pss, members env ms l pss -> forall fms,
  Forall (fun m => reading (snd m)) fms -> Forall2 (fun m m' => fst m' = fst m /\ fmtOf env (snd m) (snd m')) ms fms -> NoDup (map fst ms) ->
  forall cur qs o s,
  (forall j n u' k u v, nth_error ms' j = Some (n, u') -> nth_error ms k = Some (n, u) -> nth_error l k = Some v ->
     exists old w, nth_error cur j = Some old /\ nth_error l' j = Some w /\ plain old /\ adapts env env' dflt target u u' v old w) ->
  (forall k n u v, nth_error ms k = Some (n, u) -> nth_error l k = Some v -> ~ In n (map fst ms') -> droppable env target u v) ->
  (forall a u, In (Pointer a u) (concat pss) -> lk a = true) -> At s o (concat pss ++ qs) ->
  reads (readMembers (readVal env' dflt base) ms' fms cur) s o (concat pss) qs
    (fun m cur' => length cur' = length cur /\ forall j n u', nth_error ms' j = Some (n, u') ->
       (~ In n (map fst ms) -> nth_error cur' j = nth_error cur j) /\
       (In n (map fst ms) -> exists w x, nth_error l' j = Some w /\ nth_error cur' j = Some x /\ corr m w x)).
Proof.
  intros N' ms l pss HM. induction HM as [|n t ms v l p pss Hv HM IHm]; intros fms IH F N cur qs o s HL HD HP HA.
  - inversion F; subst. cbn [readMembers concat]. apply reads_ret; [exact HA|]. split; [reflexivity|]. intros j n u' _. split; [reflexivity|intros []].
  - inversion F as [|? m' ? fms' [E1 E2] F2]; subst. inversion IH as [|? ? IH1 IH2]; subst. cbn [fst snd map] in *. inversion N as [|? ? N1 N2]; subst.
    cbn [concat] in *. rewrite <- app_assoc in HA. destruct m' as [n f]. cbn [fst snd] in *.
    assert (HPp : forall a u, In (Pointer a u) p -> lk a = true) by (intros a u H; eapply HP; apply in_or_app; left; exact H).
    assert (HPs : forall a u, In (Pointer a u) (concat pss) -> lk a = true) by (intros a u H; eapply HP; apply in_or_app; right; exact H).
    destruct (in_dec (list_eq_dec Z.eq_dec) n (map fst ms')) as [I|I].
    + apply in_map_iff in I. destruct I as ([n' u'] & En & I). cbn in En. subst n'. apply In_nth_error in I. destruct I as [j Ej].
      destruct (HL j n u' O t v Ej eq_refl eq_refl) as (old & w & C1 & C2 & C3 & C4).
      eapply reads_eq with (rv' := fun s => do (x, s) <- readVal env' dflt base f u' old s; readMembers (readVal env' dflt base) ms' fms' (updAt cur j x) s).
      { cbn [readMembers fst snd]. rewrite (findName_nth ms' n j u' N' Ej), C1. reflexivity. }
      eapply reads_bind with (g := fun x s => readMembers (readVal env' dflt base) ms' fms' (updAt cur j x) s); [eapply IH1; eauto|].
      intros x s1 m1 H1 CX.
      eapply reads_weak; [|apply (IHm fms' IH2 F2 N2 (updAt cur j x) qs (o + widths p) s1); auto].
      * intros m cur' [LC HC]. rewrite updAt_len in LC. split; [exact LC|]. intros j1 n1 u1 Ej1. destruct (HC j1 n1 u1 Ej1) as [HC1 HC2]. split.
        -- intros NI. rewrite HC1 by (intros Q; apply NI; now right). apply updAt_other. intros <-. apply NI. left. congruence.
        -- intros [<-|I1].
           ++ assert (j1 = j) as ->.
              { pose proof (findName_nth ms' n j u' N' Ej). pose proof (findName_nth ms' n j1 u1 N' Ej1). congruence. }
              exists w, x. split; [exact C2|]. split; [|eapply corr_mono; [|exact CX]; apply incl_appl, incl_refl].
              rewrite HC1 by exact N1. eapply updAt_same; eauto.
           ++ destruct (HC2 I1) as (w1 & x1 & Q1 & Q2 & Q3). exists w1, x1. split; [exact Q1|]. split; [exact Q2|]. eapply corr_mono; [|exact Q3]. apply incl_appr, incl_refl.
      * intros j1 n1 u1 k u2 v2 Ej1 Ek Ev. destruct (HL j1 n1 u1 (S k) u2 v2 Ej1 Ek Ev) as (old1 & w1 & Q1 & Q2 & Q3 & Q4). exists old1, w1. split; [|auto].
        rewrite updAt_other; [exact Q1|]. intros <-. apply N1. rewrite Ej in Ej1. injection Ej1 as <- _. apply nth_error_In in Ek. change n with (fst (n, u2)). now apply in_map.
      * intros k n1 u1 v1 Ek Ev. exact (HD (S k) n1 u1 v1 Ek Ev).
    + assert (U : unused p) by (eapply droppable_unused; [eapply (HD O n t v); [reflexivity|reflexivity|exact I]|exact Hv]).
      assert (SK : moves (skip f) s o p (concat pss ++ qs)) by (eapply skip_ok; eauto).
      eapply reads_eq with (rv' := fun s => do (_, s) <- (do s <- skip f s; Some (tt, s)); readMembers (readVal env' dflt base) ms' fms' cur s).
      { cbn [readMembers fst snd]. rewrite (findName_out ms' n I). now destruct (skip f s). }
      eapply reads_bind with (f := fun s => do s <- skip f s; Some (tt, s)) (g := fun _ s => readMembers (readVal env' dflt base) ms' fms' cur s) (R1 := fun m _ => m = []).
      { apply moves_reads; auto. }
      intros [] s1 m1 H1 ->. cbn [app].
      eapply reads_weak; [|apply (IHm fms' IH2 F2 N2 cur qs (o + widths p) s1); auto].
      * intros m cur' [LC HC]. split; [exact LC|]. intros j1 n1 u1 Ej1. destruct (HC j1 n1 u1 Ej1) as [HC1 HC2]. split.
        -- intros NI. apply HC1. intros Q; apply NI; now right.
        -- intros [<-|I1]; [|auto]. elim I. apply nth_error_In in Ej1. change n with (fst (n, u1)). now apply in_map.
      * intros j1 n1 u1 k u2 v2 Ej1 Ek Ev. exact (HL j1 n1 u1 (S k) u2 v2 Ej1 Ek Ev).
      * intros k n1 u1 v1 Ek Ev. exact (HD (S k) n1 u1 v1 Ek Ev).
Qed.

Lemma readItems_members f t ids names : map snd ids = map Z.of_nat (seq 0 (length ids)) -> forall l s,
  readItems (readVal env' dflt base f t) (skip f) ids names l s =
  readMembers (readVal env' dflt base) (map (fun x => (fst x, t)) ids) (map (fun n => (n, f)) names) l s.
Proof.
  intros Hs. assert (K : forall n, match findName ids n with
    | None => findName (map (fun x => (fst x, t)) ids) n = None
    | Some (j, z) => findName (map (fun x => (fst x, t)) ids) n = Some (j, t) /\ z = Z.of_nat j /\ (j < length ids)%nat end).
  { intros n. replace ids with (skipn 0 ids) at 1 by reflexivity.
    assert (G : forall k ids, map snd ids = map Z.of_nat (seq k (length ids)) -> match findName ids n with
      | None => findName (map (fun x => (fst x, t)) ids) n = None
      | Some (j, z) => findName (map (fun x => (fst x, t)) ids) n = Some (j, t) /\ z = Z.of_nat (k + j) /\ (j < length ids)%nat end).
    { clear. intros k ids. revert k. induction ids as [|[x z] ids IH]; intros k H; [reflexivity|]. cbn [findName map fst snd List.length seq] in *. injection H as -> H.
      destruct (list_eqb n x); [repeat split; try lia|]. specialize (IH (S k) H). destruct (findName ids n) as [[j y]|]; [|now rewrite IH].
      destruct IH as (-> & -> & L). repeat split; lia. }
    apply (G O). exact Hs. }
  induction names as [|n names IH]; intros l s; [reflexivity|]. cbn [readItems readMembers map fst snd]. specialize (K n). destruct (findName ids n) as [[j z]|].
  - destruct K as (-> & -> & L). replace (Z.of_nat j <? zlen ids) with true by (unfold zlen; lia). rewrite Nat2Z.id.
    destruct (nth_error l j) as [o|]; [|reflexivity]. destruct (readVal env' dflt base f t o s) as [[v s1]|]; [|reflexivity]. apply IH.
  - rewrite K. destruct (skip f s); [apply IH|reflexivity].
Qed.
Lemma Forall2_by_nth {A B} (P : A -> B -> Prop) l l' : length l = length l' ->
  (forall j x y, nth_error l j = Some x -> nth_error l' j = Some y -> P x y) -> Forall2 P l l'.
Proof.
  revert l'. induction l as [|x l IH]; intros [|y l'] E H; try discriminate; constructor.
  - exact (H O x y eq_refl eq_refl).
  - apply IH; [now injection E|]. intros j. exact (H (S j)).
Qed.
Lemma nth_some {A} (l : list A) j : (j < length l)%nat -> exists x, nth_error l j = Some x.
Proof. intros H. apply nth_error_Some in H. destruct (nth_error l j) as [x|]; [now exists x|now elim H]. Qed.
(** The members of a struct, or the items of an enum-indexed array. *)
Lemma readMembers_seq ms' ol l' ms l pss fms qs o s : NoDup (map fst ms') -> members env ms l pss ->
  Forall (fun m => reading (snd m)) fms -> Forall2 (fun m m' => fst m' = fst m /\ fmtOf env (snd m) (snd m')) ms fms -> NoDup (map fst ms) ->
  length ol = length ms' -> length l' = length ms' -> Forall plain ol ->
  (forall j n u' o w, nth_error ms' j = Some (n, u') -> nth_error ol j = Some o -> nth_error l' j = Some w ->
     (~ In n (map fst ms) /\ w = o) \/ exists k u v, nth_error ms k = Some (n, u) /\ nth_error l k = Some v /\ adapts env env' dflt target u u' v o w) ->
  (forall k n u v, nth_error ms k = Some (n, u) -> nth_error l k = Some v -> ~ In n (map fst ms') -> droppable env target u v) ->
  (forall a u, In (Pointer a u) (concat pss) -> lk a = true) -> At s o (concat pss ++ qs) ->
  reads (fun s => do (l, s) <- readMembers (readVal env' dflt base) ms' fms ol s; Some (VSeq l, s)) s o (concat pss) qs (fun m x => corr m (VSeq l') x).
Proof.
  intros N' HM IH F Nm L1 L2 HP H1 H2 HL HA. rewrite <- (app_nil_r (concat pss)).
  eapply reads_bind with (f := fun s => readMembers (readVal env' dflt base) ms' fms ol s) (g := fun l s => Some (VSeq l, s)).
  - eapply (readMembers_ok ms' l' N' ms l pss HM fms IH F Nm); eauto.
    intros j n u' k u v Ej Ek Ev. destruct (nth_some ol j) as [o1 Eo]; [rewrite L1; apply nth_error_Some; congruence|].
    destruct (nth_some l' j) as [w1 Ew]; [rewrite L2, <- L1; apply nth_error_Some; congruence|]. exists o1, w1. split; [exact Eo|]. split; [exact Ew|].
    split; [rewrite Forall_forall in HP; apply HP; eapply nth_error_In; eauto|].
    destruct (H1 j n u' o1 w1 Ej Eo Ew) as [[Q _]|(k' & u1 & v1 & Q1 & Q2 & Q3)].
    + elim Q. apply nth_error_In in Ek. change n with (fst (n, u)). now apply in_map.
    + assert (k' = k) as ->.
      { pose proof (findName_nth ms n k u Nm Ek). pose proof (findName_nth ms n k' u1 Nm Q1). congruence. }
      rewrite Ek in Q1. rewrite Ev in Q2. injection Q1 as <-. injection Q2 as <-. exact Q3.
  - intros x s1 m1 HA1 [LX HX]. apply reads_ret; [exact HA1|]. rewrite app_nil_r. apply co_seq.
    apply Forall2_by_nth; [congruence|]. intros j w y Ew Ey.
    destruct (nth_some ms' j) as [[n u'] Ej]; [rewrite <- L2; apply nth_error_Some; congruence|].
    destruct (HX j n u' Ej) as [X1 X2]. destruct (in_dec (list_eq_dec Z.eq_dec) n (map fst ms)) as [I|I].
    + destruct (X2 I) as (w1 & y1 & A & B & C). congruence.
    + specialize (X1 I). rewrite Ey in X1. symmetry in X1. destruct (H1 j n u' y w Ej X1 Ew) as [[_ ->]|(k & u & v & Q1 & _)].
      * apply co_plain. rewrite Forall_forall in HP. apply HP. eapply nth_error_In; eauto.
      * elim I. apply nth_error_In in Q1. change n with (fst (n, u)). now apply in_map.
Qed.
Lemma members_enum (ids : list (list Z * Z)) u l pss : length l = length ids -> Forall2 (layout env u) l pss -> members env (map (fun x => (fst x, u)) ids) l pss.
Proof. intros E H. revert ids E. induction H as [|v p l pss Hv H IH]; intros [|x ids] E; try discriminate; cbn [map]; constructor; auto. Qed.
Lemma map_fst_const {A} (ids : list (list Z * Z)) (u : A) : map fst (map (fun x => (fst x, u)) ids) = map fst ids.
Proof. rewrite map_map. reflexivity. Qed.
Lemma nth_map_const {A} (ids : list (list Z * Z)) (u u0 : A) j n : nth_error (map (fun x => (fst x, u)) ids) j = Some (n, u0) -> u0 = u /\ nth_error (map fst ids) j = Some n.
Proof. revert j. induction ids as [|x ids IH]; intros [|j] H; try discriminate; cbn in *; [injection H as <- <-; auto|auto]. Qed.
Lemma nth_map_const' {A} (ids : list (list Z * Z)) (u : A) j n : nth_error (map fst ids) j = Some n -> nth_error (map (fun x => (fst x, u)) ids) j = Some (n, u).
Proof. revert j. induction ids as [|x ids IH]; intros [|j] H; try discriminate; cbn in *; [injection H as <-; auto|auto]. Qed.

Lemma read_other f t t' v old w ps qs o s : fmtOf env t f -> layout env t v ps -> plain old -> At s o (ps ++ qs) ->
  comparable env env' t t' = false ->
  (forall i, t' = PUser i -> exists d, nth_error env' i = Some d /\ match d with TEnum _ _ _ | TRaw _ => False | _ => True end) ->
  droppable env target t v -> w = old -> reads (readVal env' dflt base f t' old) s o ps qs (fun m x => corr m w x).
Proof.
  intros F L HP HA C1 C2 C3 ->. eapply reads_eq with (rv' := fun s => do s <- skip f s; Some (old, s)); [eapply other_skip; eassumption|].
  apply moves_reads; [eapply droppable_unused; eauto|eapply skip_ok; eauto; eapply droppable_unused; eauto|now apply co_plain].
Qed.
Lemma withState_nth {A} (g : fmt -> option A) j ss m : nth_error ss j = Some m -> withState g j ss = g (snd m).
Proof. revert j. induction ss as [|x ss IH]; intros [|j] M; try discriminate; cbn in M; [injection M as ->; reflexivity|exact (IH j M)]. Qed.
Lemma readItems_seq f u u' (ids ids' : list (list Z * Z)) l ol l' pss qs o s : reading f -> fmtOf env u f -> NoDup (map fst ids) ->
  NoDup (map fst ids') -> map snd ids' = map Z.of_nat (seq 0 (length ids')) -> length ol = length ids' -> length l' = length ids' ->
  (forall j x o w, nth_error (map fst ids') j = Some x -> nth_error ol j = Some o -> nth_error l' j = Some w ->
     (~ In x (map fst ids) /\ w = o) \/ exists k v, nth_error (map fst ids) k = Some x /\ nth_error l k = Some v /\ adapts env env' dflt target u u' v o w) ->
  (forall k x v, nth_error (map fst ids) k = Some x -> nth_error l k = Some v -> ~ In x (map fst ids') -> droppable env target u v) ->
  length l = length ids -> Forall2 (layout env u) l pss -> Forall plain ol ->
  (forall a u, In (Pointer a u) (concat pss) -> lk a = true) -> At s o (concat pss ++ qs) ->
  reads (fun s => do (l, s) <- readItems (readVal env' dflt base f u') (skip f) ids' (map fst ids) ol s; Some (VSeq l, s)) s o (concat pss) qs (fun m x => corr m (VSeq l') x).
Proof.
  intros RF F N N' S' L1 L2 H1 H2 L HL HP HK HA.
  eapply reads_eq with (rv' := fun s => do (l, s) <- readMembers (readVal env' dflt base) (map (fun x => (fst x, u')) ids') (map (fun n => (n, f)) (map fst ids)) ol s; Some (VSeq l, s)).
  { now rewrite readItems_members. }
  eapply (readMembers_seq _ ol l' (map (fun x => (fst x, u)) ids) l pss); try rewrite !map_fst_const; try (rewrite map_length; congruence); try assumption.
  - now apply members_enum.
  - apply Forall_forall. intros m Hm. apply in_map_iff in Hm. destruct Hm as (n & <- & _). exact RF.
  - clear - F. induction ids as [|x ids IH]; cbn [map]; constructor; auto.
  - intros j n u0 o0 w E1 E2 E3. destruct (nth_map_const _ _ _ _ _ E1) as [-> E]. destruct (H1 j n o0 w E E2 E3) as [K|(k & v & K1 & K2 & K3)]; [now left|right].
    exists k, u, v. split; [now apply nth_map_const'|]. auto.
  - intros k n u0 v E1 E2 E3. destruct (nth_map_const _ _ _ _ _ E1) as [-> E]. eauto.
Qed.
Ltac dis := try discriminate; try congruence; try (exfalso; congruence).
Ltac user t' D' := destruct t' as [| |?]; try discriminate D'; cbn [desc] in D'; cbn [readVal]; rewrite D'.
Lemma first_unique {A} (l : list A) i j x : nth_error l i = Some x -> ~ In x (firstn i l) -> nth_error l j = Some x -> ~ In x (firstn j l) -> i = j.
Proof.
  assert (K : forall (l : list A) i j x, nth_error l i = Some x -> (i < j)%nat -> In x (firstn j l)).
  { clear. induction l as [|y l IH]; intros [|i] [|j] x H L; try discriminate; try lia; cbn in *; [left; congruence|right; apply (IH i); [exact H|lia]]. }
  intros H1 N1 H2 N2. destruct (Nat.lt_trichotomy i j) as [L|[L|L]]; [elim N2; eauto|exact L|elim N1; eauto].
Qed.
Lemma read_ok f : reading f.
Proof.
  induction f as [|k| | |n f IH|f IH|f IH|f|name ps0 ms IH|name n ids|f ids IH|name ss IH] using fmt_ind2; intros t t' v old w ps qs o s F L AD HP HL HA;
    match type of F with fmtOf _ _ ?f => pose proof (read_other f t t' v old w ps qs o s F L HP HA) as OTHER end.
  all: inversion F as [k0| |t0 n0 u f0 D F1|t0 u f0 D F1|t0 u f0 D F1|t0 u f0 D|t0 name0 qs0 ms0 qs' ms' D F0 F1|t0 name0 n0 ids0 D F0|t0 u e f0 name0 n0 ids0 D F1 F2 F0|t0 name0 ss0 ss' D F1]; subst.
  - (* number *) inversion AD; subst; dis; [|now apply OTHER]. inversion L; subst; dis. cbn [readVal]. cbn [app] in HA.
    rewrite <- (app_nil_r [Bytes (le (size k) z)]).
    eapply reads_bind with (f := rd (take (size k))) (g := fun x s => do z <- decode k x; do y <- cast k' (toNumeric k z); Some (VNum y, s)).
    + apply (reads_bytes (take (size k)) (le (size k) z) (le (size k) z)); [|exact HA]. intros p r. rewrite (take_app_n (size k)) by apply le_length. now rewrite le_zlen.
    + intros x s1 m1 HA1 [-> ->]. eapply reads_eq with (rv' := fun s => Some (VNum y, s)); [rewrite decode_ok by assumption; match goal with H : cast _ _ = _ |- _ => now rewrite H end|].
      apply reads_ret; [exact HA1|now apply co_plain].
  - (* string *) inversion AD; subst; dis; [|now apply OTHER]. inversion L; subst; dis. cbn [readVal]. cbn [app] in HA. rewrite <- (app_nil_r [Bytes (boxed s0)]).
    eapply reads_bind with (f := rd readBoxed) (g := fun x s => Some (VStr x, s)).
    + apply (reads_bytes readBoxed (boxed s0) s0); [|exact HA]. intros p r. now apply readBoxed_ok.
    + intros x s1 m1 HA1 [-> ->]. apply reads_ret; [exact HA1|now apply co_plain].
  - (* fixed *) inversion AD; subst; dis; [now apply OTHER|]. uni. inversion L; subst; dis. uni.
    match goal with H : desc env' t' = _ |- _ => user t' H end. rewrite Z.eqb_refl.
    rewrite <- (app_nil_r (concat ps0)).
    eapply reads_bind with (f := fun s => readSeq (readVal env' dflt base f u') ol s) (g := fun l s => Some (VSeq l, s)).
    + eapply readSeq_ok; eauto. apply (proj1 (plain_all ol)), HP.
    + intros x s1 m1 HA1 C. apply reads_ret; [exact HA1|]. rewrite app_nil_r. now constructor.
  - (* array *) inversion AD; subst; dis; [now apply OTHER|]. uni. inversion L; subst; dis. uni.
    match goal with H : desc env' t' = _ |- _ => user t' H end. cbn [app] in HA.
    change (Bytes (le 4 (zlen l)) :: concat ps0) with ([Bytes (le 4 (zlen l))] ++ concat ps0).
    eapply reads_bind with (f := rd (readU 4)) (g := fun n s => if n <? 10000000 then do (l, s) <- times (Z.to_nat n) (readVal env' dflt base f u' (dflt u')) s; Some (VArr l, s) else None).
    + apply (reads_bytes (readU 4) (le 4 (zlen l)) (zlen l)); [|exact HA]. apply readU_le'. pose proof (zlen_pos l). change (2 ^ (8 * Z.of_nat 4)) with (2 ^ 32). lia.
    + intros x s1 m1 HA1 [-> ->]. replace (zlen l <? 10000000) with true by (symmetry; now apply Z.ltb_lt). rewrite to_nat_zlen. rewrite <- (app_nil_r (concat ps0)).
      eapply reads_bind with (f := fun s => times (length l) (readVal env' dflt base f u' (dflt u')) s) (g := fun l s => Some (VArr l, s)).
      * eapply times_ok; eauto. intros a x Hx. eapply HL. right. eassumption.
      * intros x s2 m2 HA2 C. apply reads_ret; [exact HA2|]. cbn [app]. rewrite app_nil_r. now constructor.
  - (* owned *) inversion AD; subst; dis; [now apply OTHER|]. uni. inversion L; subst; dis. uni.
    match goal with H : desc env' t' = _ |- _ => user t' H end. cbn [app] in HA.
    match goal with H : creatable env' u' = true |- _ => rewrite H end. cbn [andb].
    match goal with H : forall x, target a = Some x -> _ |- _ => rename H into HT end. match goal with H : layout env _ v0 _ |- _ => rename H into Lv end.
    match goal with H : adapts _ _ _ _ _ _ v0 _ _ |- _ => rename H into Av end.
    match type of HA with At _ _ (Object a ?x :: _) => destruct (link_ok s o a x u' _ HA HT) as (td & d & K1 & K2 & K3) end.
    assert (W : fst (inp s) = base + o) by (rewrite (at_inp _ _ _ HA); reflexivity).
    destruct (IH _ _ _ _ _ _ qs o _ F1 Lv Av (dplain u') (fun a u H => HL a u (or_intror H)) K2) as (x & s2 & m2 & d2 & B1 & B2 & B3 & B4 & B5 & B6 & B7 & B8).
    cbn [done fresh inp] in *. exists (VOwn (fresh s) x), s2, ((a, fresh s) :: m2), (d ++ d2).
    split.
    { rewrite W. replace (base + o <? 2 ^ 32) with true by (symmetry; apply Z.ltb_lt; exact (At_width _ _ _ HA)). replace (base + o - base) with o by lia. rewrite K1, B1. reflexivity. }
    rewrite widths_cons. cbn [width]. split; [exact B2|]. split; [now rewrite B3, app_assoc|]. split.
    { match goal with |- Forall2 _ (Ls (Object a ?x :: ?y)) _ => change (Ls (Object a x :: y)) with (filter lk ([a] ++ objs y)) end. rewrite filter_app. apply Forall2_app; (eapply Forall2_impl; [|eassumption]); intros b e; apply found_mono.
      - intros y [<-|[]]. now left.
      - intros y Hy. now right. }
    split; [rewrite B5, zlen_cons; lia|]. split; [cbn [map snd List.length zseq]; now rewrite B6|]. split; [cbn [map fst objs flat_map app]; now apply sub_keep|].
    apply co_own; [now left|]. eapply corr_mono; [|exact B8]. intros y Hy. now right.
  - (* raw *) inversion AD; subst; dis; [now apply OTHER|]. uni. inversion L; subst; dis. uni.
    match goal with H : desc env' t' = _ |- _ => user t' H end. cbn [app] in HA. match goal with |- reads _ _ _ ?x _ _ => rewrite <- (app_nil_r x) end.
    assert (LA : lk a = true) by (eapply HL; left; reflexivity). unfold lk in LA. destruct (look os a) as [ix|] eqn:EL; [|discriminate].
    eapply reads_bind with (f := rd (readU 4)) (g := fun i s => if i <? zlen (todo s) + zlen (done s) then Some (VLink i u', s) else None).
    + eapply reads_pointer; eauto.
    + intros x s1 m1 HA1 [-> ->]. eapply reads_eq with (rv' := fun s => Some (VLink ix u', s)).
      * rewrite (at_total _ _ _ HA1). specialize (Hlook _ _ EL). now replace (ix <? N) with true by lia.
      * apply reads_ret; [exact HA1|]. now apply co_ptr.
  - (* struct *) inversion AD; subst; dis; [now apply OTHER|]. uni. inversion L; subst; dis. uni.
    match goal with H : desc env' t' = _ |- _ => user t' H end.
    eapply readMembers_seq; eauto. apply (proj1 (plain_all ol)), HP.
  - (* enum *) inversion AD; subst; dis; try (now apply OTHER); uni; inversion L; subst; dis; uni;
      match goal with H : desc env' t' = _ |- _ => user t' H end;
      replace (enumSize n && _) with true by (unfold enumSize; lia);
      match goal with H : nth_error (map snd ids0) ?j0 = _, H' : nth_error ids0 ?j1 = _ |- _ => assert (j0 = j1) as -> by (eapply first_unique; [exact H|eassumption|rewrite (map_nth_error snd _ _ H'); reflexivity|assumption]) end;
      cbn [app] in HA; match goal with |- reads _ _ _ ?x _ _ => rewrite <- (app_nil_r x) end.
    + eapply reads_bind with (f := rd (readU (Z.to_nat n))).
      * apply (reads_bytes (readU (Z.to_nat n)) (le (Z.to_nat n) (Z.of_nat j)) (Z.of_nat j)); [|exact HA]. apply readU_le'. rewrite Z2Nat.id by lia. lia.
      * intros x0 s1 m1 HA1 [-> ->]. eapply reads_eq with (rv' := fun s => Some (VNum y, s)).
        -- rewrite Nat2Z.id. match goal with H : nth_error ids0 j = Some (x, z) |- _ => rewrite (map_nth_error fst _ _ H) end. cbn [fst].
           match goal with H : In (x, y) ids' |- _ => apply In_nth_error in H; destruct H as [jj Ejj]; rewrite (findName_nth ids' x jj y) by assumption end.
           now replace (y <? 2 ^ (8 * n')) with true by lia.
        -- apply reads_ret; [exact HA1|now apply co_plain].
    + eapply reads_bind with (f := rd (readU (Z.to_nat n))).
      * apply (reads_bytes (readU (Z.to_nat n)) (le (Z.to_nat n) (Z.of_nat j)) (Z.of_nat j)); [|exact HA]. apply readU_le'. rewrite Z2Nat.id by lia. lia.
      * intros x0 s1 m1 HA1 [-> ->]. eapply reads_eq with (rv' := fun s => Some (w, s)).
        -- rewrite Nat2Z.id. match goal with H : nth_error ids0 j = Some (x, z) |- _ => rewrite (map_nth_error fst _ _ H) end. cbn [fst].
           now rewrite findName_out.
        -- apply reads_ret; [exact HA1|now apply co_plain].
  - (* enum array *) inversion AD; subst; dis; [now apply OTHER|]. uni. inversion L; subst; dis. uni.
    match goal with H : desc env' t' = _ |- _ => user t' H end.
    repeat match goal with H : nth_error env e = Some (TEnum _ _ ?i) |- _ => lazymatch i with ids0 => fail | _ => rewrite F2 in H; injection H; clear H; intros; subst end end.
    unfold enumIds. match goal with H : nth_error env' e' = _ |- _ => rewrite H end.
    eapply (readItems_seq f u u' _ ids' l); eauto. apply (proj1 (plain_all ol)), HP.
  - (* switch *) inversion AD; subst; dis; [now apply OTHER| |]; uni; inversion L; subst; dis; uni;
    match goal with H : desc env' t' = _ |- _ => user t' H end; cbn [app] in HA.
    +
      match type of HA with At _ _ (Bytes (le 2 (Z.of_nat ?jj)) :: _) => try rename jj into j end.
      match goal with H : nth_error ss0 j = Some (?n0, _), H' : nth_error ss0 j = Some (?n, ?s1) |- _ => rewrite H in H'; injection H'; clear H'; intros; subst end.
      match goal with H : nth_error ss0 j = Some _ |- _ => destruct (Forall2_nth _ _ _ _ _ F1 H) as (m' & M1 & M2 & M3) end. cbn [fst snd] in M2, M3.
      assert (IHm : reading (snd m')) by (rewrite Forall_forall in IH; apply (IH m'); eapply nth_error_In; exact M1).
      match goal with |- reads _ _ _ (?b :: ?p) _ _ => change (b :: p) with ([b] ++ p) end.
      eapply reads_bind with (f := rd (readU 2));
      [apply (reads_bytes (readU 2) (le 2 (Z.of_nat j)) (Z.of_nat j)); [apply readU_le'; change (2 ^ (8 * Z.of_nat 2)) with (2 ^ 16); lia|exact HA]|].
      intros x0 s3 m1 HA1 [-> ->]; rewrite Nat2Z.id, M1, M2.
      match goal with H : nth_error ss' j = Some (?x, ?z) |- _ => rewrite (findName_nth ss' x j z) by assumption end.
      rewrite <- (app_nil_r ps0).
      eapply reads_bind with (f := fun s => withState (fun f => readVal env' dflt base f (PUser s') (if (k =? j)%nat then o0 else dflt (PUser s')) s) j ss) (g := fun v s => Some (VSwitch j v, s)).
      * eapply reads_eq with (rv' := fun s => readVal env' dflt base (snd m') (PUser s') (if (k =? j)%nat then o0 else dflt (PUser s')) s); [now rewrite (withState_nth _ _ _ _ M1)|].
        eapply IHm; eauto; [destruct (k =? j)%nat; [exact HP|apply dplain]|]. intros a y Hy. eapply HL. right. eassumption.
      * intros y s4 m4 HA4 C. apply reads_ret; [exact HA4|]. cbn [app]. rewrite app_nil_r. now apply co_switch.
    +
      match type of HA with At _ _ (Bytes (le 2 (Z.of_nat ?jj)) :: _) => try rename jj into j end.
      match goal with H : nth_error ss0 j = Some (?n0, _), H' : nth_error ss0 j = Some (?n, ?s1) |- _ => rewrite H in H'; injection H'; clear H'; intros; subst end.
      match goal with H : nth_error ss0 j = Some _ |- _ => destruct (Forall2_nth _ _ _ _ _ F1 H) as (m' & M1 & M2 & M3) end. cbn [fst snd] in M2, M3.
      assert (IHm : reading (snd m')) by (rewrite Forall_forall in IH; apply (IH m'); eapply nth_error_In; exact M1).
      match goal with |- reads _ _ _ (?b :: ?p) _ _ => change (b :: p) with ([b] ++ p) end.
      eapply reads_bind with (f := rd (readU 2));
      [apply (reads_bytes (readU 2) (le 2 (Z.of_nat j)) (Z.of_nat j)); [apply readU_le'; change (2 ^ (8 * Z.of_nat 2)) with (2 ^ 16); lia|exact HA]|].
      intros x0 s3 m1 HA1 [-> ->]; rewrite Nat2Z.id, M1, M2.
      rewrite findName_out by assumption.
      eapply reads_eq with (rv' := fun s => do s <- skip (snd m') s; Some (VSwitch k o0, s)); [now rewrite (withState_nth _ _ _ _ M1)|].
      assert (UP : unused ps0) by (eapply droppable_unused; eauto).
      apply moves_reads; [exact UP|eapply skip_ok; eauto|now apply co_plain].
Qed.
End Read.
