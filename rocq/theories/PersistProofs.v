(* Proofs about whole assets. *)
From Coq Require Import Lia ZifyBool ZifyNat.
From Verif Require Import PersistModel PersistSpec PersistSchema PersistWriteProofs PersistReadProofs.
Local Notation length := List.length.
Local Notation "'do' x <- a ; b" := (match a with Some x => b | None => None end) (at level 200, x pattern, a at level 100, b at level 200).

(* ================ the link table ================ *)
Definition off (e : entry) : Z := snd (fst e).
Lemma ext_fst os os' : ext os os' -> map fst os' = map fst os.
Proof. induction 1 as [|x y os os' [H1 H2] H IH]; [reflexivity|]. cbn [map]. congruence. Qed.
Lemma findOwned_in os e : NoDup (map addr os) -> In e os -> findOwned os (addr e) = Some (snd (fst (fst e)), snd e).
Proof.
  induction os as [|[[[b u] o] x] os IH]; intros N H; [elim H|]. cbn [findOwned map] in *. inversion N as [|? ? N1 N2]; subst. destruct H as [<-|H].
  - cbn [addr fst snd]. now rewrite Z.eqb_refl.
  - destruct (Z.eqb_spec b (addr e)) as [->|Q]; [|now apply IH]. elim N1. change (addr (addr e, u, o, x)) with (addr e). now apply in_map.
Qed.
Lemma findOwned_out os a t x : findOwned os a = Some (t, x) -> exists e, In e os /\ addr e = a /\ snd e = x.
Proof.
  induction os as [|[[[b u] o] y] os IH]; intros H; [discriminate|]. cbn [findOwned] in H. destruct (Z.eqb_spec b a) as [->|Q].
  - eexists. split; [left; reflexivity|]. cbn [addr fst snd]. split; congruence.
  - destruct (IH H) as (e & A & B). exists e. split; [now right|exact B].
Qed.
Lemma linked_lk os e : NoDup (map addr os) -> In e os -> linked e = lk os (addr e).
Proof. intros N H. unfold linked, lk, look. rewrite (findOwned_in _ _ N H). reflexivity. Qed.
Lemma table_off os ps : forall o es, (forall e, In e es -> linked e = lk os (addr e)) -> map fst es = marks o ps ->
  table os o ps = map off (filter linked es) /\ Ls os ps = map addr (filter linked es).
Proof.
  induction ps as [|p ps IH]; intros o es H E; cbn [table marks] in *.
  - destruct es; [split; reflexivity|discriminate].
  - destruct p as [l|a t|a t]; try (cbn [app] in *; unfold Ls; cbn [objs flat_map app]; apply IH; assumption).
    destruct es as [|e es]; [discriminate|]. cbn [map app width] in *. injection E as E1 E2. destruct (IH _ es (fun e He => H e (or_intror He)) E2) as [I1 I2].
    unfold Ls in *. cbn [objs flat_map app filter]. fold (objs ps). specialize (H e (or_introl eq_refl)).
    assert (EA : addr e = a) by (unfold addr; rewrite E1; reflexivity). assert (EO : off e = o) by (unfold off; rewrite E1; reflexivity). rewrite EA in H. rewrite H.
    destruct (lk os a); cbn [app map]; rewrite I1, I2; [now rewrite EO, EA|auto].
Qed.
Lemma marks_range ps : forall o x, In x (marks o ps) -> o <= snd x <= o + widths ps.
Proof.
  induction ps as [|p ps IH]; intros o x H; [elim H|]. cbn [marks] in H. rewrite widths_cons. pose proof (width_pos p). pose proof (widths_pos ps). apply in_app_or in H. destruct H as [H|H].
  - destruct p; try elim H. intros <-. cbn [snd]. lia. intros [].
  - apply IH in H. lia.
Qed.
Lemma table_in os qs : forall o, In o (table os o qs) -> exists l2 b u l3, qs = l2 ++ Object b u :: l3 /\ widths l2 = 0 /\ lk os b = true.
Proof.
  assert (G : forall qs o x, In x (table os o qs) -> exists l2 b u l3, qs = l2 ++ Object b u :: l3 /\ x = o + widths l2 /\ lk os b = true).
  { clear qs. induction qs as [|q qs IH]; intros o x H; [elim H|]. cbn [table] in H. apply in_app_or in H. destruct H as [H|H].
    - destruct q as [l|a t|a t]; try elim H. destruct (lk os a) eqn:E; [|elim H]. destruct H as [<-|[]]. exists [], a, t, qs. cbn [widths fold_right]. repeat split; [lia|exact E].
    - destruct (IH _ _ H) as (l2 & b & u & l3 & -> & E & K). exists (q :: l2), b, u, l3. rewrite widths_cons. repeat split; [lia|exact K]. }
  intros o H. destruct (G qs o o H) as (l2 & b & u & l3 & E1 & E2 & E3). exists l2, b, u, l3. repeat split; auto. lia.
Qed.
Lemma apart_clear os ps : apart ps -> (forall a, lk os a = true -> pointed ps a) -> (forall a u, In (Pointer a u) ps -> lk os a = true) -> forall o, clear os o ps.
Proof.
  intros HA H1 H2. assert (G : forall qs l1 o, ps = l1 ++ qs -> clear os o qs).
  { induction qs as [|q qs IH]; intros l1 o E; [exact I|]. cbn [clear]. split.
    - destruct q as [l|a t|a t]; auto. intros K F. destruct (table_in _ _ _ F) as (l2 & b & u & l3 & -> & W & Kb). destruct (H1 b Kb) as [tb Hb].
      destruct (HA l1 a t l2 b u l3 E W (ex_intro _ tb Hb)) as [ta Ha]. rewrite (H2 _ _ Ha) in K. discriminate.
    - apply (IH (l1 ++ [q])). rewrite <- app_assoc. exact E. }
  intros o. exact (G ps [] o eq_refl).
Qed.

(* ================ pointers ================ *)
Lemma plain_resolve d v : plain v -> resolve d v = Some v /\ forall m, renamed m v v.
Proof.
  induction v as [z|x|l IH|l IH|a v IH| |a|i u|j v IH] using val_ind2; intros H; try (elim H; fail); try (split; [reflexivity|intros; constructor]).
  - apply (proj1 (plain_all l)) in H. assert (K : mapOpt (resolve d) l = Some l /\ forall m, Forall2 (renamed m) l l).
    { induction l as [|v l IHl]; [split; [reflexivity|constructor]|]. inversion H; inversion IH; subst. destruct (IHl ltac:(assumption) ltac:(assumption)) as [A B]. destruct (H6 H2) as [C D].
      split; [cbn [mapOpt]; now rewrite C, A|intros m; constructor; auto]. }
    destruct K as [A B]. split; [cbn [resolve]; now rewrite A|intros m; constructor; auto].
  - apply (proj2 (plain_all l)) in H. assert (K : mapOpt (resolve d) l = Some l /\ forall m, Forall2 (renamed m) l l).
    { induction l as [|v l IHl]; [split; [reflexivity|constructor]|]. inversion H; inversion IH; subst. destruct (IHl ltac:(assumption) ltac:(assumption)) as [A B]. destruct (H6 H2) as [C D].
      split; [cbn [mapOpt]; now rewrite C, A|intros m; constructor; auto]. }
    destruct K as [A B]. split; [cbn [resolve]; now rewrite A|intros m; constructor; auto].
  - destruct (IH H) as [A B]. split; [cbn [resolve]; now rewrite A|intros m; constructor; auto].
Qed.
Lemma resolve_corr target os ps m d w : Forall2 (found target m) (Ls os ps) d ->
  (forall a i, look os a = Some i -> 0 <= i /\ nth_error (Ls os ps) (Z.to_nat i) = Some a) ->
  forall x, corr target os m w x -> exists v, resolve d x = Some v /\ renamed m w v.
Proof.
  intros HF HI. assert (KL : forall l, Forall (fun w => forall x, corr target os m w x -> exists v, resolve d x = Some v /\ renamed m w v) l ->
    forall l', Forall2 (corr target os m) l l' -> exists r, mapOpt (resolve d) l' = Some r /\ Forall2 (renamed m) l r).
  { intros l H l' F. induction F as [|w1 x1 l l' C F IH]; [exists []; split; [reflexivity|constructor]|]. inversion H; subst.
    destruct (H2 _ C) as (v1 & A1 & A2). destruct (IH H3) as (r & B1 & B2). exists (v1 :: r). cbn [mapOpt]. rewrite A1, B1. split; [reflexivity|now constructor]. }
  induction w as [z|y|l IH|l IH|a w IH| |a|i u|j w IH] using val_ind2; intros x C; inversion C; subst;
    try (match goal with H : plain _ |- _ => destruct (plain_resolve d _ H) as [A B]; eexists; split; [exact A|apply B] end).
  - match goal with H : Forall2 (corr _ _ _) _ _ |- _ => destruct (KL _ IH _ H) as (r & A & B) end. exists (VSeq r). cbn [resolve]. rewrite A. split; [reflexivity|now constructor].
  - match goal with H : Forall2 (corr _ _ _) _ _ |- _ => destruct (KL _ IH _ H) as (r & A & B) end. exists (VArr r). cbn [resolve]. rewrite A. split; [reflexivity|now constructor].
  - match goal with H : corr _ _ _ w _ |- _ => destruct (IH _ H) as (r & A & B) end. exists (VOwn n r). cbn [resolve]. rewrite A. split; [reflexivity|now constructor].
  - match goal with H : look os a = Some _ |- _ => destruct (HI _ _ H) as [A B] end. destruct (Forall2_nth _ _ _ _ _ HF B) as (e & E1 & n & u' & E2 & E3 & E4). subst e.
    exists (VPtr n). cbn [resolve]. rewrite E1. replace u' with u by congruence. rewrite tptr_eqb_refl. split; [reflexivity|now constructor].
  - match goal with H : corr _ _ _ w _ |- _ => destruct (IH _ H) as (r & A & B) end. exists (VSwitch j r). cbn [resolve]. rewrite A. split; [reflexivity|now constructor].
Qed.

(* ================ the file ================ *)
Lemma times_offsets l : forall p r, Forall (fun z => 0 <= z < 2 ^ 32) l -> times (length l) (readU 4) (p, flat_map (le 4) l ++ r) = Some (l, (p + 4 * zlen l, r)).
Proof.
  induction l as [|z l IH]; intros p r H; [cbn; now replace (p + 0) with p by lia|]. inversion H; subst. cbn [times List.length flat_map].
  rewrite <- app_assoc, readU_le by (change (2 ^ (8 * Z.of_nat 4)) with (2 ^ 32); assumption). rewrite IH by assumption. rewrite zlen_cons. match goal with |- Some (_, (?a, _)) = Some (_, (?b, _)) => replace a with b by lia end. reflexivity.
Qed.
Lemma zlen_flat_le l : zlen (flat_map (le 4) l) = 4 * zlen l.
Proof. induction l as [|z l IH]; [reflexivity|]. cbn [flat_map]. rewrite zlen_app, IH, le_zlen, zlen_cons. lia. Qed.
Lemma flat_map_map {A B C} (f : A -> B) (g : B -> list C) l : flat_map g (map f l) = flat_map (fun x => g (f x)) l.
Proof. induction l as [|x l IH]; [reflexivity|]. cbn. now rewrite IH. Qed.
Lemma zlen_map {A B} (f : A -> B) l : zlen (map f l) = zlen l.
Proof. unfold zlen. now rewrite map_length. Qed.
Lemma filter_none (l : list (Z * tptr * Z)) : filter linked (map (fun x => (x, None)) l) = [].
Proof. induction l as [|x l IH]; [reflexivity|exact IH]. Qed.

Lemma written env t v ps file : layout env t v ps -> writeAsset env t v = Some file ->
  exists id c os, file = schema c ++ [0] ++ le 4 (zlen (filter linked os)) ++ flat_map (le 4) (map off (filter linked os)) ++ le 4 id ++ render os ps /\
    match t with PNum k => id = key k /\ schema c = [] | PString => id = 13 /\ schema c = [] | PUser i => id = 1000 /\ addFormat (S (length env)) env i (mkf [] []) = Some c end /\
    map fst os = marks 4 ps /\ NoDup (map addr os) /\ NoDup (objs ps) /\
    (forall k e, nth_error (filter linked os) k = Some e -> snd e = Some (Z.of_nat k)) /\
    (forall a t, In (Pointer a t) ps -> exists i, findOwned os a = Some (t, Some i)) /\
    (forall a, look os a <> None -> pointed ps a).
Proof.
  intros L W. unfold writeAsset in W.
  match type of W with (match ?m with Some _ => _ | None => None end) = _ => destruct m as [[id c]|] eqn:EF end; [|discriminate].
  rewrite (write_play _ _ _ _ L) in W. destruct (play ps (mkw (le 4 id) [] [])) as [s|] eqn:EP; [|discriminate].
  destruct (play_ok _ _ _ EP) as (D1 & D2 & D3 & D4). cbn [data weak owned] in *. rewrite le_zlen in D2, D3. cbn [app Z.of_nat Pos.of_succ_nat Pos.succ] in D2, D3.
  rewrite D1, D2, D3 in W.
  match type of W with (match ?m with Some _ => _ | None => None end) = _ => destruct m as [[[os n] l]|] eqn:ER end; [|discriminate].
  destruct (resolve_ok _ _ _ _ _ _ _ _ ER) as (R1 & R2 & R3 & R4 & R5); [apply le_zlen|now rewrite filter_none|].
  destruct (linkTable os 0) as [tb|] eqn:ET; [|discriminate]. destruct (linkTable_ok _ _ _ ET) as [T1 T2].
  assert (EM : map fst os = marks 4 ps).
  { rewrite (ext_fst _ _ R2), map_map. cbn [fst]. apply map_id. }
  assert (NA : NoDup (map addr os)).
  { specialize (D4 (NoDup_nil _)). rewrite D3, <- EM, map_map in D4. exact D4. }
  exists id, c, os. split.
  { assert (Q : file = schema c ++ [0] ++ le 4 n ++ tb ++ l) by congruence. rewrite Q, R1, T1, R3, flat_map_map. unfold off. reflexivity. }
  split.
  { destruct t as [k| |i]; [injection EF as <- <-; auto|injection EF as <- <-; auto|]. destruct (addFormat (S (length env)) env i (mkf [] [])) as [c1|]; [|discriminate]. injection EF as <- <-. auto. }
  split; [exact EM|]. split; [exact NA|]. split; [rewrite <- (marks_objs 4), <- EM, map_map; exact NA|]. split; [intros k e H; rewrite (T2 _ _ H); reflexivity|]. split; [exact R4|].
  intros a H. destruct (R5 a H) as [K|K]; [|exact K]. elim K. unfold look. destruct (findOwned _ a) as [[u x]|] eqn:EO; [|reflexivity].
  destruct (findOwned_out _ _ _ _ EO) as (e & I1 & _ & <-). apply in_map_iff in I1. destruct I1 as (y & <- & _). reflexivity.
Qed.

Lemma nth_filter_in {A} (f : A -> bool) l e : In e l -> f e = true -> exists k, nth_error (filter f l) k = Some e.
Proof. intros H1 H2. apply In_nth_error. now apply filter_In. Qed.
Lemma builtin_key k : getFormat [] (key k) = Some (FNum k).
Proof. destruct k; reflexivity. Qed.

Theorem load_adapts env env' dflt target t t' v ps file w :
  types_ok env t -> layout env t v ps -> writeAsset env t v = Some file -> zlen file < 2 ^ 32 ->
  apart ps -> (forall a u, In (Pointer a u) ps -> target a <> None) ->
  (forall t, plain (dflt t)) -> creatable env' t' = true -> adapts env env' dflt target t t' v (dflt t') w ->
  exists v', readAsset env' dflt t' file = Some v' /\ same w v'.
Proof.
  intros TO L W LEN AP HT DP CR AD. destruct (written _ _ _ _ _ L W) as (id & c & os & EF & EI & EM & NA & NO & IX & PF & PT).
  set (offs := map off (filter linked os)) in *. set (n := zlen (filter linked os)) in *.
  assert (LF : zlen file = zlen (schema c) + 1 + 4 + 4 * n + 4 + widths ps).
  { rewrite EF. rewrite !zlen_app, !le_zlen, zlen_flat_le, render_zlen. unfold offs. rewrite zlen_map. fold n. unfold zlen at 2. cbn [List.length]. lia. }
  pose proof (zlen_pos (schema c)). pose proof (zlen_pos (filter linked os)). fold n in H0. pose proof (widths_pos ps).
  assert (HF : exists table f, readSchema (S (length file)) ([], (0, file)) =
      Some (table, (zlen (schema c) + 1, le 4 n ++ flat_map (le 4) offs ++ le 4 id ++ render os ps)) /\ getFormat table id = Some f /\ fmtOf env t f /\ 0 <= id < 2 ^ 32).
  { assert (LN : length file = S (length (schema c ++ le 4 n ++ flat_map (le 4) offs ++ le 4 id ++ render os ps))).
    { rewrite EF. rewrite !app_length. cbn [List.length]. lia. }
    rewrite LN. destruct t as [k| |i].
    - destruct EI as [-> ES]. rewrite EF, ES. cbn [app]. exists [], (FNum k). split; [reflexivity|]. split; [apply builtin_key|]. split; [constructor|destruct k; cbn; lia].
    - destruct EI as [-> ES]. rewrite EF, ES. cbn [app]. exists [], FString. split; [reflexivity|]. split; [reflexivity|]. split; [constructor|lia].
    - destruct EI as [-> ES]. rewrite EF. match goal with |- context [S (S ?fu)] => destruct (readSchema_ok env i c (le 4 n ++ flat_map (le 4) offs ++ le 4 1000 ++ render os ps) fu TO ES) as (tb & f & A1 & A2 & A3) end.
      exists tb, f. split; [exact A1|]. split; [exact A2|]. split; [exact A3|lia]. }
  destruct HF as (tb & f & RS & GF & FO & IDR).
  assert (OF : Forall (fun z => 0 <= z < 2 ^ 32) offs).
  { apply Forall_forall. intros z Hz. unfold offs in Hz. apply in_map_iff in Hz. destruct Hz as (e & <- & He). apply filter_In in He. destruct He as [He _].
    assert (K : In (fst e) (marks 4 ps)) by (rewrite <- EM; now apply in_map). apply marks_range in K. unfold off. lia. }
  assert (LNO : Z.to_nat n = length offs) by (unfold n, offs; rewrite to_nat_zlen, map_length; reflexivity).
  unfold readAsset. rewrite RS. rewrite readU_le by (change (2 ^ (8 * Z.of_nat 4)) with (2 ^ 32); lia). rewrite LNO, times_offsets by exact OF. cbn [fst].
  assert (ZO : zlen offs = n) by (unfold n, offs; now rewrite zlen_map). rewrite ZO.
  set (base := zlen (schema c) + 1 + Z.of_nat 4 + 4 * n). replace (base <? 2 ^ 32) with true by (unfold base; lia).
  rewrite readU_le by (change (2 ^ (8 * Z.of_nat 4)) with (2 ^ 32); lia). rewrite GF, CR.
  destruct (table_off os ps 4 os (fun e He => linked_lk _ _ NA He) EM) as [TB TL]. fold offs in TB.
  assert (IXL : forall a i, look os a = Some i -> 0 <= i < n /\ nth_error (Ls os ps) (Z.to_nat i) = Some a).
  { intros a i E. unfold look in E. destruct (findOwned os a) as [[u x]|] eqn:EO; [|discriminate]. subst x. destruct (findOwned_out _ _ _ _ EO) as (e & I1 & I2 & I3).
    destruct (nth_filter_in linked os e I1) as [k K]; [unfold linked; now rewrite I3|]. pose proof (IX _ _ K) as IXk. assert (i = Z.of_nat k) as -> by congruence.
    split; [|rewrite TL, Nat2Z.id, (map_nth_error addr _ _ K); congruence].
    assert (k < length (filter linked os))%nat by (apply nth_error_Some; congruence). unfold n, zlen. lia. }
  assert (PL : forall a u, In (Pointer a u) ps -> lk os a = true).
  { intros a u Ha. destruct (PF _ _ Ha) as [i Hi]. unfold lk, look. now rewrite Hi. }
  assert (LP : forall a, lk os a = true -> pointed ps a).
  { intros a Ha. apply PT. unfold lk in Ha. destruct (look os a); congruence. }
  destruct (read_ok env env' dflt target base os DP) with (f := f) (t := t) (t' := t') (v := v) (old := dflt t') (w := w) (ps := ps) (qs := @nil piece) (o := 4)
    (s := mko (base + 4, render os ps) offs [] 1) as (x & s' & m & d & B1 & B2 & B3 & B4 & B5 & B6 & B7 & B8); try assumption.
  - intros a i E. exact (proj1 (IXL a i E)).
  - unfold N. fold n. lia.
  - intros a Ha. destruct (LP a Ha) as [u Hu]. eapply HT; eauto.
  - apply DP.
  - rewrite app_nil_r. constructor; cbn [inp todo done].
    + reflexivity.
    + symmetry. exact TB.
    + now apply apart_clear.
    + unfold base. lia.
    + unfold N. fold n. rewrite ZO. unfold zlen. cbn. lia.
  - change (Z.of_nat 4) with 4. rewrite B1. cbn [done app] in B3. rewrite B3.
    destruct (resolve_corr target os ps m d w B4 (fun a i E => conj (proj1 (proj1 (IXL a i E))) (proj2 (IXL a i E))) x B8) as (v' & R1 & R2).
    exists v'. split; [exact R1|]. exists m. split; [eapply sub_NoDup; eauto|]. split; [rewrite B6; apply zseq_NoDup|exact R2].
Qed.
