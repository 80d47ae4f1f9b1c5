(* Two instances of the hash map model run in step when their items correspond and matching agrees. *)
From Verif Require Import HashMapModel.
From Coq Require Import ZifyBool ZifyNat.

Section Sim.
Context {K1 V1 K2 V2 : Type} (eqb1 : K1 -> K1 -> bool) (hash1 : K1 -> Z) (d1 : V1)
        (eqb2 : K2 -> K2 -> bool) (hash2 : K2 -> Z) (d2 : V2) (R : K1 * V1 -> K2 * V2 -> Prop).

Definition Ro (x : option (K1 * V1)) (y : option (K2 * V2)) : Prop :=
  match x, y with None, None => True | Some x, Some y => R x y | _, _ => False end.
Definition Rc (c : @cell K1 V1) (c' : @cell K2 V2) : Prop :=
  nx c = nx c' /\ fs c = fs c' /\ hs c = hs c' /\ Ro (it c) (it c').
Definition Rt (t : list (@cell K1 V1)) (t' : list (@cell K2 V2)) : Prop := Forall2 Rc t t'.

Lemma Rt_len t t' : Rt t t' -> length t = length t'.
Proof. intros H. induction H; cbn [length]; auto. Qed.
Lemma Rt_mask t t' : Rt t t' -> sizeMask t = sizeMask t'.
Proof. intros H. unfold sizeMask, zlen. rewrite (Rt_len _ _ H). reflexivity. Qed.
Lemma Rt_slot t t' i : Rt t t' -> slot t i = slot t' i.
Proof. intros H. unfold slot. rewrite (Rt_mask _ _ H). reflexivity. Qed.
Lemma Rc_fresh : Rc fresh fresh.
Proof. cbv. auto. Qed.
Lemma Rt_getc t t' i : Rt t t' -> Rc (getc t i) (getc t' i).
Proof.
  intros H. unfold getc. rewrite (Rt_slot _ _ i H). generalize (slot t' i). clear i.
  induction H; intros [|n]; cbn [nth]; auto using Rc_fresh.
Qed.
Lemma Rt_setc t t' i c c' : Rt t t' -> Rc c c' -> Rt (setc t i c) (setc t' i c').
Proof.
  intros H Hc. unfold setc. rewrite (Rt_slot _ _ i H). generalize (slot t' i). clear i.
  induction H as [|x y l l' Hx Hl IH]; intros [|n]; cbn [upd]; try constructor; auto.
  apply IH.
Qed.
Lemma Rt_rd t t' l : Rt t t' -> rd t l = rd t' l.
Proof. intros H. destruct l as [i|i]; cbn [rd]; destruct (Rt_getc _ _ i H) as (A & B & _); assumption. Qed.
Lemma Rt_wr t t' l v : Rt t t' -> Rt (wr t l v) (wr t' l v).
Proof.
  intros H. destruct l as [i|i]; cbn [wr]; destruct (Rt_getc _ _ i H) as (A & B & C & D); apply Rt_setc; auto; repeat split; auto.
Qed.
Lemma Rt_occupy t t' i h x y : Rt t t' -> R x y -> Rt (occupy t i h x) (occupy t' i h y).
Proof.
  intros H Hx. unfold occupy. destruct (Rt_getc _ _ i H) as (A & B & C & D). apply Rt_setc; auto. repeat split; auto.
Qed.

Lemma probe_sim t t' h n : forall i, Rt t t' -> probe n t h i = probe n t' h i.
Proof.
  induction n as [|n IH]; intros i H; cbn [probe]; [reflexivity|]. cbv zeta.
  destruct (Rt_getc _ _ (u32 (i + 1)) H) as (A & B & C & D). rewrite A, C, (IH _ H). reflexivity.
Qed.

Definition Rf (f : @found K1 V1) (f' : @found K2 V2) : Prop :=
  match f, f' with
  | Found i p, Found i' p' => i = i' /\ p = p'
  | Inserted t i, Inserted t' i' => Rt t t' /\ i = i'
  | NotFound, NotFound | Overflow, Overflow | Bad, Bad => True
  | _, _ => False
  end.

Section Agree.
Context (k1 : K1) (k2 : K2) (Hh : hash1 k1 = hash2 k2) (Hr : R (k1, d1) (k2, d2)).

(** Every cell matches the one key exactly when its partner matches the other. *)
Definition agree (t : list (@cell K1 V1)) (t' : list (@cell K2 V2)) : Prop :=
  forall j, matches eqb1 (getc t j) (hash2 k2) k1 = matches eqb2 (getc t' j) (hash2 k2) k2.

Lemma walk_agree t t' n : agree t t' -> forall i prev, Rt t t' -> walk eqb1 n t (hash2 k2) k1 i prev = walk eqb2 n t' (hash2 k2) k2 i prev.
Proof.
  intros Ha. induction n as [|n IH]; intros i prev H; cbn [walk]; rewrite (Rt_rd _ _ prev H); [reflexivity|]. cbv zeta.
  destruct (rd t' prev =? 0); [reflexivity|]. set (j := u32 (i + rd t' prev)).
  pose proof (Rt_getc _ _ j H) as G. rewrite (Ha j). destruct G as (A & _). rewrite A, (IH _ _ H). reflexivity.
Qed.
Lemma iof_agree t t' b : agree t t' -> Rt t t' -> Rf (insertOrFind eqb1 hash1 d1 t k1 b) (insertOrFind eqb2 hash2 d2 t' k2 b).
Proof.
  intros Ha H. unfold insertOrFind. rewrite Hh. cbv zeta. set (h := hash2 k2).
  pose proof (Rt_getc _ _ h H) as G. pose proof (Ha h) as Hah. fold h in Hah. rewrite Hah. clear Hah. destruct G as (A & B & _). rewrite A, B.
  destruct (b && (nx (getc t' h) =? EmptySlot) && (fs (getc t' h) =? 0)).
  { cbn [Rf]. split; [apply Rt_occupy; auto|reflexivity]. }
  destruct (negb (nx (getc t' h) =? EmptySlot) && matches eqb2 (getc t' h) h k2); [cbn [Rf]; auto|].
  rewrite (Rt_len _ _ H). pose proof (walk_agree t t' (length t') Ha h (First h) H) as W. fold h in W. rewrite W. clear W.
  destruct (walk _ _ t' h k2 h (First h)) as [i p|i p|]; cbn [Rf]; auto.
  destruct (negb b); cbn [Rf]; auto. rewrite (Rt_mask _ _ H). destruct (sizeMask t' <? u32 (i - h)); cbn [Rf]; auto.
  rewrite (probe_sim _ _ _ _ _ H). destruct (probe _ t' h i) as [j| |]; cbn [Rf]; auto.
  split; [|reflexivity]. apply Rt_wr. apply Rt_occupy; auto.
Qed.
End Agree.

Section Key.
Context (k1 : K1) (k2 : K2) (Hh : hash1 k1 = hash2 k2)
        (He : forall x y, R x y -> eqb1 (fst x) k1 = eqb2 (fst y) k2) (Hr : R (k1, d1) (k2, d2)).

Lemma matches_sim c c' h : Rc c c' -> matches eqb1 c h k1 = matches eqb2 c' h k2.
Proof.
  intros (A & B & C & D). unfold matches. rewrite C. f_equal.
  destruct (it c) as [x|], (it c') as [y|]; cbn [Ro] in D; try contradiction; [|reflexivity].
  pose proof (He _ _ D) as E. destruct x, y. exact E.
Qed.
Lemma iof_sim t t' b : Rt t t' -> Rf (insertOrFind eqb1 hash1 d1 t k1 b) (insertOrFind eqb2 hash2 d2 t' k2 b).
Proof. intros H. apply (iof_agree k1 k2 Hh Hr); [|exact H]. intros j. apply matches_sim. apply Rt_getc. exact H. Qed.
End Key.

Lemma walk_end_sim t t' n : forall i prev, Rt t t' -> walk_end n t i prev = walk_end n t' i prev.
Proof.
  induction n as [|n IH]; intros i prev H; cbn [walk_end]; rewrite (Rt_rd _ _ prev H); [reflexivity|]. cbv zeta.
  destruct (rd t' prev =? 0); [reflexivity|]. set (j := u32 (i + rd t' prev)).
  destruct (Rt_getc _ _ j H) as (A & _). rewrite A, (IH _ _ H). reflexivity.
Qed.

Definition Rot (x : option (list (@cell K1 V1))) (y : option (list (@cell K2 V2))) : Prop :=
  match x, y with None, None => True | Some x, Some y => Rt x y | _, _ => False end.
Lemma ifm_sim t t' h x y : Rt t t' -> R x y -> Rot (insertForMigration t h x) (insertForMigration t' h y).
Proof.
  intros H Hx. unfold insertForMigration. cbv zeta. destruct (Rt_getc _ _ h H) as (A & B & _). rewrite A, B.
  destruct (nx (getc t' h) =? EmptySlot).
  { destruct (fs (getc t' h) =? 0); cbn [Rot]; auto. apply Rt_occupy; auto. }
  rewrite (Rt_len _ _ H), (walk_end_sim _ _ _ _ _ H). destruct (walk_end _ t' h (First h)) as [[i p]|]; cbn [Rot]; auto.
  rewrite (Rt_mask _ _ H), (probe_sim _ _ _ _ _ H). destruct (probe _ t' h i) as [j| |]; cbn [Rot]; auto.
  apply Rt_wr. apply Rt_occupy; auto.
Qed.
Lemma mcells_sim s s' : Rt s s' -> forall t t', Rt t t' -> Rot (migrate_cells s t) (migrate_cells s' t').
Proof.
  intros Hs. induction Hs as [|c c' s s' Hc Hs IH]; intros t t' H; cbn [migrate_cells]; [exact H|].
  destruct Hc as (A & B & C & D). rewrite A, C. destruct (nx c' =? EmptySlot); [apply IH; exact H|].
  destruct (it c) as [x|], (it c') as [y|]; cbn [Ro] in D; try contradiction; [|exact I].
  pose proof (ifm_sim _ _ (hs c') x y H D) as G.
  destruct (insertForMigration t (hs c') x), (insertForMigration t' (hs c') y); cbn [Rot] in G; try contradiction; [|exact I].
  apply IH. exact G.
Qed.

Definition Rm (m : @hmap K1 V1) (m' : @hmap K2 V2) : Prop := Rt (cells m) (cells m') /\ pop m = pop m' /\ clob m = clob m'.

Lemma table_sim n : Rot (createTable n) (createTable n).
Proof.
  unfold createTable. destruct ((4 <=? n) && isPowerOf2 32 n); [|exact I]. cbn [Rot]. generalize (Z.to_nat n). intros m.
  induction m; cbn [repeat]; constructor; auto using Rc_fresh.
Qed.
Lemma migrate_sim m m' : Rm m m' ->
  match migrate m, migrate m' with None, None => True | Some a, Some b => Rm a b | _, _ => False end.
Proof.
  intros (H & P & C). unfold migrate. rewrite P. set (n := Z.max _ _). pose proof (table_sim n) as T.
  destruct (@createTable K1 V1 n), (@createTable K2 V2 n); cbn [Rot] in T; try contradiction; [|exact I].
  pose proof (mcells_sim _ _ H _ _ T) as G.
  destruct (migrate_cells (cells m) _), (migrate_cells (cells m') _); cbn [Rot] in G; try contradiction; [|exact I].
  split; [exact G|]. split; [reflexivity|exact C].
Qed.

Lemma insert_agree k1 k2 (Hh : hash1 k1 = hash2 k2) (Hr : R (k1, d1) (k2, d2)) (P : @hmap K2 V2 -> Prop)
  (Ha : forall m m', P m' -> Rm m m' -> agree k1 k2 (cells m) (cells m')) (Hp : forall m m1, P m -> migrate m = Some m1 -> P m1) rounds : forall m m', P m' -> Rm m m' ->
  match insert eqb1 hash1 d1 rounds m k1, insert eqb2 hash2 d2 rounds m' k2 with
  | None, None => True
  | Some (a, i, b), Some (a', i', b') => Rm a a' /\ i = i' /\ b = b'
  | _, _ => False
  end.
Proof.
  induction rounds as [|r IH]; intros m m' Q H; cbn [insert]; [exact I|]. pose proof H as (H1 & H2 & H3).
  pose proof (iof_agree k1 k2 Hh Hr _ _ true (Ha _ _ Q H) H1) as G.
  destruct (insertOrFind _ _ _ (cells m) k1 true), (insertOrFind _ _ _ (cells m') k2 true); cbn [Rf] in G; try contradiction; try exact I.
  - destruct G as (-> & _). auto.
  - destruct G as (G & ->). rewrite H2. split; [|auto]. split; [exact G|]. split; [reflexivity|exact H3].
  - pose proof (migrate_sim _ _ H) as M. pose proof (Hp m') as Hm. destruct (migrate m), (migrate m'); try contradiction; [|exact I]. apply IH; auto.
Qed.
Lemma insert_simul k1 k2 (Hh : hash1 k1 = hash2 k2)
  (He : forall x y, R x y -> eqb1 (fst x) k1 = eqb2 (fst y) k2) (Hr : R (k1, d1) (k2, d2)) rounds m m' : Rm m m' ->
  match insert eqb1 hash1 d1 rounds m k1, insert eqb2 hash2 d2 rounds m' k2 with
  | None, None => True
  | Some (a, i, b), Some (a', i', b') => Rm a a' /\ i = i' /\ b = b'
  | _, _ => False
  end.
Proof.
  intros H. apply (insert_agree k1 k2 Hh Hr (fun _ => True)); auto.
  intros x x' _ G j. apply matches_sim; [exact He|]. apply Rt_getc. exact (proj1 G).
Qed.
Lemma create_simul n : match create n, create n with None, None => True | Some a, Some b => Rm a b | _, _ => False end.
Proof.
  unfold create. pose proof (table_sim n) as T.
  destruct (@createTable K1 V1 n), (@createTable K2 V2 n); cbn [Rot option_map] in *; try contradiction; [|exact I]. repeat split. exact T.
Qed.
Lemma assign_simul t t' i x y : Rt t t' -> R x y -> Rt (assign t i x) (assign t' i y).
Proof.
  intros H Hx. unfold assign. cbv zeta. destruct (Rt_getc _ _ i H) as (A & B & C & D). apply Rt_setc; auto. repeat split; auto.
Qed.
Lemma item_simul t t' i : Rt t t' -> Ro (item t i) (item t' i).
Proof. intros H. destruct (Rt_getc _ _ i H) as (A & B & C & D). exact D. Qed.
Lemma Rt_vacate t t' i : Rt t t' -> Rt (vacate t i) (vacate t' i).
Proof. intros H. unfold vacate. destruct (Rt_getc _ _ i H) as (A & B & C & D). apply Rt_setc; auto. rewrite B, C. repeat split. Qed.
Lemma erase_simul t t' i prev : Rt t t' ->
  match erase_cell t i prev, erase_cell t' i prev with
  | None, None => True
  | Some (a, b), Some (a', b') => Rt a a' /\ b = b'
  | _, _ => False
  end.
Proof.
  intros H. unfold erase_cell. cbv zeta. destruct (Rt_getc _ _ i H) as (A & _). rewrite A.
  destruct prev as [p|]; [rewrite (Rt_rd _ _ p H), !(Rt_slot _ _ _ H)|]; cbn [negb].
  - destruct (negb _); [exact I|]. destruct (nx (getc t' i) =? 0).
    + split; [|reflexivity]. apply Rt_wr. apply Rt_vacate. exact H.
    + destruct (_ <? 256); [|exact I]. split; [|reflexivity]. apply Rt_wr. apply Rt_vacate. exact H.
  - destruct (nx (getc t' i) =? 0); [|exact I]. split; [|reflexivity]. apply Rt_vacate. exact H.
Qed.
End Sim.

Lemma Rt_mono {K1 V1 K2 V2} (R R' : K1 * V1 -> K2 * V2 -> Prop) : (forall x y, R x y -> R' x y) -> forall t t', Rt R t t' -> Rt R' t t'.
Proof.
  intros H t t' G. induction G as [|c c' t t' (A & B & C & D) G IH]; constructor; [|exact IH]. repeat split; auto.
  destruct (it c), (it c'); cbn [Ro] in *; auto.
Qed.
