(* Proofs about saving and loading: the bytes of integers, and the schema. *)
From Coq Require Import Lia ZifyBool ZifyNat.
From Verif Require Import PersistModel PersistSpec.
Local Notation length := List.length.
Local Notation "'do' x <- a ; b" := (match a with Some x => b | None => None end) (at level 200, x pattern, a at level 100, b at level 200).

(* ================ bytes ================ *)
Lemma zlen_app {A} (a b : list A) : zlen (a ++ b) = zlen a + zlen b.
Proof. unfold zlen. rewrite app_length. lia. Qed.
Lemma zlen_cons {A} (x : A) l : zlen (x :: l) = 1 + zlen l.
Proof. unfold zlen. cbn [List.length]. lia. Qed.
Lemma zlen_nil {A} : zlen (@nil A) = 0.
Proof. reflexivity. Qed.
Lemma zlen_pos {A} (l : list A) : 0 <= zlen l.
Proof. unfold zlen. lia. Qed.
Lemma to_nat_zlen {A} (l : list A) : Z.to_nat (zlen l) = length l.
Proof. unfold zlen. apply Nat2Z.id. Qed.
Lemma le_length n z : length (le n z) = n.
Proof. revert z. induction n as [|n IH]; intros z; cbn; [reflexivity|]. now rewrite IH. Qed.
Lemma le_zlen n z : zlen (le n z) = Z.of_nat n.
Proof. unfold zlen. now rewrite le_length. Qed.
Lemma unle_le n z : unle (le n z) = z mod 2 ^ (8 * Z.of_nat n).
Proof.
  revert z. induction n as [|n IH]; intros z; cbn [le unle].
  - change (8 * Z.of_nat 0) with 0. now rewrite Z.mod_1_r.
  - rewrite IH. replace (8 * Z.of_nat (S n)) with (8 + 8 * Z.of_nat n) by lia.
    rewrite Z.pow_add_r by lia. change (2 ^ 8) with 256.
    assert (0 < 2 ^ (8 * Z.of_nat n)) by (apply Z.pow_pos_nonneg; lia).
    rewrite Z.rem_mul_r by lia. lia.
Qed.
Lemma unle_small n z : 0 <= z < 2 ^ (8 * Z.of_nat n) -> unle (le n z) = z.
Proof. intros H. rewrite unle_le. now apply Z.mod_small. Qed.
Lemma take_app l p r : take (length l) (p, l ++ r) = Some (l, (p + zlen l, r)).
Proof.
  unfold take. cbn [snd fst]. rewrite app_length.
  replace (length l <=? length l + length r)%nat with true by (symmetry; apply Nat.leb_le; lia).
  rewrite firstn_app, firstn_all, Nat.sub_diag, skipn_app, skipn_all, Nat.sub_diag. cbn [firstn skipn app]. now rewrite app_nil_r.
Qed.
Lemma take_app_n n l p r : length l = n -> take n (p, l ++ r) = Some (l, (p + Z.of_nat n, r)).
Proof. intros <-. apply take_app. Qed.
Lemma readU_le n z p r : 0 <= z < 2 ^ (8 * Z.of_nat n) -> readU n (p, le n z ++ r) = Some (z, (p + Z.of_nat n, r)).
Proof. intros H. unfold readU. rewrite (take_app_n n (le n z)) by apply le_length. now rewrite unle_small. Qed.
Lemma readBoxed_ok s p r : zlen s < 2 ^ 32 -> readBoxed (p, boxed s ++ r) = Some (s, (p + zlen (boxed s), r)).
Proof.
  intros H. unfold readBoxed, boxed. rewrite <- app_assoc. rewrite readU_le by (pose proof (zlen_pos s); change (2 ^ (8 * Z.of_nat 4)) with (2 ^ 32); lia).
  rewrite to_nat_zlen, take_app. rewrite zlen_app, le_zlen. do 3 f_equal. lia.
Qed.

(* ================ formats ================ *)
(** The formats that describe a type. What a pointer refers to, and template parameters, do not matter. *)
Inductive fmtOf (env : list tdesc) : tptr -> fmt -> Prop :=
| fo_num k : fmtOf env (PNum k) (FNum k)
| fo_str : fmtOf env PString FString
| fo_fixed t n u f : desc env t = Some (TFixed n u) -> fmtOf env u f -> fmtOf env t (FFixed n f)
| fo_array t u f : desc env t = Some (TArray u) -> fmtOf env u f -> fmtOf env t (FArray f)
| fo_owned t u f : desc env t = Some (TOwned u) -> fmtOf env u f -> fmtOf env t (FOwned f)
| fo_raw t u f : desc env t = Some (TRaw u) -> fmtOf env t (FRaw f)
| fo_struct t name qs ms qs' ms' :
    desc env t = Some (TStruct name qs ms) -> NoDup (map fst ms) -> Forall2 (fun m m' => fst m' = fst m /\ fmtOf env (snd m) (snd m')) ms ms' ->
    fmtOf env t (FStruct name qs' ms')
| fo_enum t name n ids : desc env t = Some (TEnum name n ids) -> NoDup (map fst ids) -> fmtOf env t (FEnum name n (map fst ids))
| fo_enumarray t u e f name n ids :
    desc env t = Some (TEnumArray u e) -> fmtOf env u f -> nth_error env e = Some (TEnum name n ids) -> NoDup (map fst ids) ->
    fmtOf env t (FEnumArray f (map fst ids))
| fo_switch t name ss ss' :
    desc env t = Some (TSwitch name ss) -> Forall2 (fun m m' => fst m' = fst m /\ fmtOf env (PUser (snd m)) (snd m')) ss ss' ->
    fmtOf env t (FSwitch name ss').

Section Schema.
Context (env : list tdesc) (few : Z.of_nat (length env) + 1000 < 2 ^ 32).

Definition good (opened types : list nat) (table : formats) : Prop := Forall2 (fun i f => In i opened \/ fmtOf env (PUser i) f) types table.

Lemma indexOf_in i l : In i l -> exists j, indexOf i l = Some j /\ nth_error l j = Some i.
Proof.
  induction l as [|x l IH]; [intros []|]. intros H. cbn [indexOf]. destruct (Nat.eqb_spec x i) as [->|N].
  - exists O. now split.
  - destruct H as [->|H]; [now elim N|]. destruct (IH H) as (j & E1 & E2). rewrite E1. exists (S j). now split.
Qed.
Lemma indexOf_out i l : ~ In i l -> indexOf i l = None.
Proof.
  induction l as [|x l IH]; intros H; [reflexivity|]. cbn [indexOf]. destruct (Nat.eqb_spec x i) as [->|N]; [elim H; now left|].
  rewrite IH; [reflexivity|]. intros F. apply H. now right.
Qed.
Lemma Forall2_nth {A B} (P : A -> B -> Prop) l l' j x : Forall2 P l l' -> nth_error l j = Some x -> exists y, nth_error l' j = Some y /\ P x y.
Proof.
  intros H. revert j. induction H as [|a b l l' Hab H IH]; intros [|j] E; try discriminate; cbn in *.
  - injection E as <-. now exists b.
  - exact (IH j E).
Qed.
Lemma Forall2_impl {A B} (P Q : A -> B -> Prop) l l' : (forall x y, P x y -> Q x y) -> Forall2 P l l' -> Forall2 Q l l'.
Proof. intros H. induction 1; constructor; auto. Qed.
Lemma Forall2_len {A B} (P : A -> B -> Prop) l l' : Forall2 P l l' -> length l = length l'.
Proof. induction 1; cbn; congruence. Qed.

Lemma NoDup_snoc (l : list nat) x : NoDup l -> ~ In x l -> NoDup (l ++ [x]).
Proof.
  intros N H. apply NoDup_rev in N. rewrite <- (rev_involutive (l ++ [x])). apply NoDup_rev. rewrite rev_app_distr. cbn. constructor; [|exact N].
  now rewrite <- in_rev.
Qed.

Scheme walk_ind2 := Minimality for walk Sort Prop
  with walks_ind2 := Minimality for walks Sort Prop.
Combined Scheme walk_both from walk_ind2, walks_ind2.

Lemma walk_ext :
  (forall opened seen x seen', walk env opened seen x seen' ->
     (exists more, seen' = seen ++ more) /\ (NoDup seen -> NoDup seen') /\ (Forall (fun i => i < length env)%nat seen -> Forall (fun i => i < length env)%nat seen')) /\
  (forall opened seen l seen', walks env opened seen l seen' ->
     (exists more, seen' = seen ++ more) /\ (NoDup seen -> NoDup seen') /\ (Forall (fun i => i < length env)%nat seen -> Forall (fun i => i < length env)%nat seen')).
Proof.
  apply walk_both.
  1,2: intros opened seen b; try intros k; (split; [exists []; now rewrite app_nil_r|split; auto]).
  - intros opened seen b i Hi Hb. split; [exists []; now rewrite app_nil_r|split; auto].
  - intros opened seen b i d seen' Hi Hd Hok Hw [[more ->] [IH1 IH2]]. split; [|split].
    + exists ([i] ++ more). now rewrite app_assoc.
    + intros N. apply IH1. apply NoDup_snoc; assumption.
    + intros N. apply IH2. apply Forall_app. split; [exact N|]. constructor; [|constructor]. apply nth_error_Some. now rewrite Hd.
  - intros opened seen. split; [exists []; now rewrite app_nil_r|split; auto].
  - intros opened seen x l seen1 seen2 H1 [[m1 ->] [A1 A2]] H2 [[m2 ->] [B1 B2]]. split; [|split]; auto.
    exists (m1 ++ m2). now rewrite app_assoc.
Qed.

(** Reading [b] from a table for [seen] gives one for [seen'], and a result with [P]. *)
Definition step {A} (rf : formats * input -> option (A * (formats * input))) (b : list Z) (opened seen seen' : list nat) (P : A -> Prop) : Prop :=
  forall table p rest, good opened seen table ->
  exists f table', rf (table, (p, b ++ rest)) = Some (f, (table', (p + zlen b, rest))) /\ good opened seen' table' /\ P f.
Definition fine (seen : list nat) : Prop := NoDup seen /\ Forall (fun i => i < length env)%nat seen.
Lemma walk_fine opened seen x seen' : walk env opened seen x seen' -> fine seen -> fine seen'.
Proof. intros H [A B]. destruct (proj1 walk_ext _ _ _ _ H) as [_ [C D]]. split; auto. Qed.
Lemma walks_fine opened seen x seen' : walks env opened seen x seen' -> fine seen -> fine seen'.
Proof. intros H [A B]. destruct (proj2 walk_ext _ _ _ _ H) as [_ [C D]]. split; auto. Qed.
Lemma fine_len seen : fine seen -> (length seen <= length env)%nat.
Proof.
  intros [A B]. rewrite <- (seq_length (length env) 0). apply NoDup_incl_length; [exact A|].
  intros i Hi. rewrite Forall_forall in B. apply in_seq. specialize (B i Hi). lia.
Qed.

Definition addOk (fuel : nat) : Prop := forall i c c' opened v seen',
  addFormat fuel env i c = Some c' -> walk env opened (types c) (v, PUser i) seen' -> ~ In i (types c) -> fine (types c) ->
  types c' = seen' /\ exists b, schema c' = schema c ++ b /\ (0 < length b)%nat /\
  forall fuel' top, (length b <= fuel')%nat -> step (readFormat fuel' top) b opened (types c) seen' (fmtOf env (PUser i)).

Lemma indirect_ok id f fuel top table p rest :
  0 <= id < 2 ^ 32 -> getFormat table id = Some f -> (id < 1000 -> nonNull f = true) ->
  readFormat (S fuel) top (table, (p, indirect id ++ rest)) = Some (f, (table, (p + 5, rest))).
Proof.
  intros Hid Hg Hn. unfold indirect. cbn [readFormat]. cbn [app].
  assert (E : readU 1 (p, 1 :: le 4 id ++ rest) = Some (1, (p + 1, le 4 id ++ rest))).
  { change (1 :: le 4 id ++ rest) with (le 1 1 ++ (le 4 id ++ rest)). now rewrite readU_le by (cbn; lia). }
  rewrite E. cbn [Z.eqb Pos.eqb]. rewrite readU_le by (change (2 ^ (8 * Z.of_nat 4)) with (2 ^ 32); lia). rewrite Hg.
  destruct (Z.ltb_spec id 1000) as [L|L]; [rewrite (Hn L)|]; cbn [andb negb]; do 4 f_equal; change (Z.of_nat 4) with 4; lia.
Qed.
Lemma childOk fuel : addOk fuel -> forall t c c' opened v seen',
  childFormat (addFormat fuel env) t c = Some c' -> walk env opened (types c) (v, t) seen' -> fine (types c) ->
  types c' = seen' /\ exists b, schema c' = schema c ++ b /\ (0 < length b)%nat /\
  forall fuel' top, top = false -> (length b <= fuel')%nat ->
  step (readFormat fuel' top) b opened (types c) seen' (fun f => v = true -> fmtOf env t f).
Proof.
  intros IH t c c' opened v seen' E W F. destruct t as [k| |i]; cbn [childFormat] in E.
  - injection E as <-. inversion W; subst. split; [reflexivity|]. exists (indirect (key k)). split; [reflexivity|]. split; [cbn; lia|].
    intros [|fuel'] top -> L; [cbn in L; lia|]. intros table p rest G. exists (FNum k), table. split; [|split; [exact G|constructor]].
    rewrite (indirect_ok (key k) (FNum k)); [unfold indirect; rewrite zlen_cons, le_zlen; reflexivity|destruct k; cbn; lia| |reflexivity].
    destruct k; reflexivity.
  - injection E as <-. inversion W; subst. split; [reflexivity|]. exists (indirect 13). split; [reflexivity|]. split; [cbn; lia|].
    intros [|fuel'] top -> L; [cbn in L; lia|]. intros table p rest G. exists FString, table. split; [|split; [exact G|constructor]].
    rewrite (indirect_ok 13 FString); [unfold indirect; rewrite zlen_cons, le_zlen; reflexivity|lia|reflexivity|reflexivity].
  - assert (X : In i (types c) \/ ~ In i (types c)) by (destruct (in_dec Nat.eq_dec i (types c)); auto). destruct X as [X|X].
    + destruct (indexOf_in i (types c) X) as (j & E1 & E2). rewrite E1 in E.
      assert (J : (j < length env)%nat).
      { pose proof (fine_len _ F). assert (Q : nth_error (types c) j <> None) by congruence. apply nth_error_Some in Q. lia. }
      assert (U : u32 (1000 + Z.of_nat j) = 1000 + Z.of_nat j) by (unfold u32; apply Z.mod_small; lia).
      rewrite U in E. assert (E' : c' = emitS (indirect (1000 + Z.of_nat j)) c) by congruence. subst c'. clear E.
      inversion W as [| |? ? ? ? W1 W2|]; subst; [|contradiction]. split; [reflexivity|].
      exists (indirect (1000 + Z.of_nat j)). split; [reflexivity|]. split; [cbn; lia|].
      intros [|fuel'] top -> L; [cbn in L; lia|]. intros table p rest G.
      destruct (Forall2_nth _ _ _ _ _ G E2) as (f & Ef & Hf). exists f, table. split; [|split; [exact G|]].
      * rewrite (indirect_ok (1000 + Z.of_nat j) f); [unfold indirect; rewrite zlen_cons, le_zlen; reflexivity|lia| |lia].
        unfold getFormat. destruct (Z.ltb_spec (1000 + Z.of_nat j) 1000); [lia|]. replace (Z.to_nat (1000 + Z.of_nat j - 1000)) with j by lia. exact Ef.
      * intros ->. destruct Hf as [Hf|Hf]; [|exact Hf]. elim (W2 eq_refl Hf).
    + rewrite (indexOf_out _ _ X) in E. destruct (IH _ _ _ _ _ _ E W X F) as (T & b & S1 & S2 & S3). split; [exact T|].
      exists b. split; [exact S1|]. split; [exact S2|]. intros fuel' top -> L table p rest G.
      destruct (S3 fuel' false L table p rest G) as (f & t' & R1 & R2 & R3). exists f, t'. auto.
Qed.
(** A list of names and formats. [chk] is a further check, as for the states of a switch. *)
Lemma eachOk fuel : addOk fuel -> forall (chk : fmt -> bool) v ms c c' opened seen',
  each (named (addFormat fuel env)) ms c = Some c' -> walks env opened (types c) (map (fun m => (v, snd m)) ms) seen' -> fine (types c) ->
  Forall (fun x => zlen (fst x) < 2 ^ 32) ms ->
  Forall (fun m => forall f, (v = true -> fmtOf env (snd m) f) -> chk f = true) ms ->
  types c' = seen' /\ exists b, schema c' = schema c ++ b /\
  forall fuel', (length b <= fuel')%nat ->
  step (times (length ms) (nameThen (fun s => do (f, s) <- readFormat fuel' false s; if chk f then Some (f, s) else None))) b opened (types c) seen'
    (fun l => Forall2 (fun m m' => fst m' = fst m /\ (v = true -> fmtOf env (snd m) (snd m'))) ms l).
Proof.
  intros IH chk v ms. induction ms as [|[n t] ms IHms]; intros c c' opened seen' E W F N K; cbn [each map] in *.
  - injection E as <-. inversion W; subst. split; [reflexivity|]. exists []. split; [now rewrite app_nil_r|].
    intros fuel' _ table p rest G. exists [], table. cbn [times List.length app]. rewrite zlen_nil, Z.add_0_r. repeat split; auto.
  - inversion W as [|? ? ? ? seen1 ? W1 W2]; subst. inversion N as [|? ? N1 N2]; subst. inversion K as [|? ? K1 K2]; subst.
    cbn [fst snd] in *. unfold named at 1 in E. cbn [fst snd] in E.
    destruct (childFormat (addFormat fuel env) t (emitS (boxed n) c)) as [c1|] eqn:E1; [|discriminate].
    destruct (childOk fuel IH t _ c1 opened v seen1 E1 W1 F) as (T1 & b1 & S1 & _ & R1). subst seen1.
    destruct (IHms c1 c' opened seen' E W2 (walk_fine _ _ _ _ W1 F) N2 K2) as (T2 & b2 & S2 & R2).
    split; [exact T2|]. exists (boxed n ++ b1 ++ b2). split; [rewrite S2, S1; cbn [emitS schema types]; now rewrite <- !app_assoc|].
    intros fuel' L table p rest G. rewrite !app_length in L. cbn [emitS types] in R1.
    destruct (R1 fuel' false eq_refl ltac:(lia) table (p + zlen (boxed n)) (b2 ++ rest) G) as (f & t1 & Q1 & Q2 & Q3).
    destruct (R2 fuel' ltac:(lia) t1 (p + zlen (boxed n) + zlen b1) rest Q2) as (l & t2 & Q4 & Q5 & Q6).
    exists ((n, f) :: l), t2. split; [|split; [exact Q5|constructor; [split; [reflexivity|exact Q3]|exact Q6]]].
    cbn [times List.length]. unfold nameThen at 1. cbn [fst snd]. rewrite <- !app_assoc. rewrite (readBoxed_ok n _ _ N1). cbv beta iota. cbn [fst snd]. unfold formats, input in *. rewrite Q1. cbv beta iota. rewrite (K1 f Q3). cbv beta iota. rewrite Q4.
    rewrite !zlen_app, !Z.add_assoc. reflexivity.
Qed.

Lemma times_ext {A S} n (f g : S -> option (A * S)) : (forall s, f s = g s) -> forall s, times n f s = times n g s.
Proof. intros H. induction n as [|n IH]; intros s; [reflexivity|]. cbn [times]. rewrite H. destruct (g s) as [[x s1]|]; [|reflexivity]. now rewrite IH. Qed.
Lemma nameThen_ext {A S} (f g : S * input -> option (A * (S * input))) : (forall s, f s = g s) -> forall s, nameThen f s = nameThen g s.
Proof. intros H s. unfold nameThen. destruct (readBoxed (snd s)) as [[n r]|]; [|reflexivity]. now rewrite H. Qed.
Definition isStruct (f : fmt) : bool := match f with FStruct _ _ _ => true | _ => false end.
Lemma namesOk (l : list (list Z * Z)) : Forall (fun x => zlen (fst x) < 2 ^ 32) l -> forall p rest,
  times (length l) readBoxed (p, flat_map (fun x => boxed (fst x)) l ++ rest) = Some (map fst l, (p + zlen (flat_map (fun x => boxed (fst x)) l), rest)).
Proof.
  induction 1 as [|[n x] l H F IH]; intros p rest; cbn [List.length times flat_map map app fst].
  - now rewrite zlen_nil, Z.add_0_r.
  - rewrite <- app_assoc. cbn [fst] in H. rewrite (readBoxed_ok n _ _ H). rewrite IH. now rewrite zlen_app, Z.add_assoc.
Qed.
Lemma good_snoc i opened seen table : good opened seen table -> good (i :: opened) (seen ++ [i]) (table ++ [FNull]).
Proof.
  intros G. apply Forall2_app; [|constructor; [left; now left|constructor]].
  eapply Forall2_impl; [|exact G]. cbn. intros a b [H|H]; auto.
Qed.
Lemma good_set i opened seen seen' more table f :
  seen' = (seen ++ [i]) ++ more -> NoDup seen' -> good (i :: opened) seen' table -> fmtOf env (PUser i) f ->
  good opened seen' (setAt table (length seen) f).
Proof.
  intros E N G Hf. subst seen'. rewrite <- app_assoc in *. cbn [app] in *.
  apply Forall2_app_inv_l in G. destruct G as (t1 & t2 & G1 & G2 & ->). inversion G2 as [|? x ? t3 G3 G4]; subst.
  unfold setAt. rewrite (Forall2_len _ _ _ G1). rewrite firstn_app, firstn_all, Nat.sub_diag, app_nil_r.
  rewrite skipn_app, (skipn_all2 t1) by lia. replace (S (length t1) - length t1)%nat with 1%nat by lia. cbn [skipn app].
  apply NoDup_remove in N. destruct N as [_ N]. unfold good.
  assert (K : forall l l', (forall y, In y l -> y <> i) -> Forall2 (fun i0 f0 => In i0 (i :: opened) \/ fmtOf env (PUser i0) f0) l l' ->
    Forall2 (fun i0 f0 => In i0 opened \/ fmtOf env (PUser i0) f0) l l').
  { intros l l' Hl. induction 1 as [|a b l l' H H2 IH]; constructor.
    - destruct H as [[H|H]|H]; auto. elim (Hl a (or_introl eq_refl)). congruence.
    - apply IH. intros y Hy. apply Hl. now right. }
  apply Forall2_app; [apply K; [|exact G1]|constructor; [now right|apply K; [|exact G4]]].
  - intros y Hy ->. apply N, in_or_app. now left.
  - intros y Hy ->. apply N, in_or_app. now right.
Qed.

(** The format key and the entry in the table. *)
Definition body (fuel : nat) (k : Z) (s : formats * input) : option (fmt * (formats * input)) :=
  let child := readFormat fuel false in
  let r := snd s in
  if k =? 16 then do (n, r) <- readU 4 r; do (f, s) <- child (fst s, r); Some (FFixed n f, s)
  else if k =? 17 then do (f, s) <- child s; Some (FArray f, s)
  else if k =? 18 then do (f, s) <- child s; Some (FOwned f, s)
  else if k =? 19 then do (f, s) <- child s; Some (FRaw f, s)
  else if k =? 20 then
    do (name, r) <- readBoxed r;
    do (np, r) <- readU 2 r;
    do (nm, r) <- readU 2 r;
    do (ps, s) <- times (Z.to_nat np) (nameThen child) (fst s, r);
    do (ms, s) <- times (Z.to_nat nm) (nameThen child) s;
    Some (FStruct name ps ms, s)
  else if k =? 21 then
    do (name, r) <- readBoxed r;
    do (n, r) <- readU 1 r;
    do (m, r) <- readU 4 r;
    do (ids, r) <- times (Z.to_nat m) readBoxed r;
    Some (FEnum name n ids, (fst s, r))
  else if k =? 22 then
    do (f, s) <- child s;
    do (e, s) <- child s;
    match e with FEnum _ _ ids => Some (FEnumArray f ids, s) | _ => None end
  else if k =? 23 then
    do (name, r) <- readBoxed r;
    do (n, r) <- readU 2 r;
    do (ss, s) <- times (Z.to_nat n) (nameThen (fun s => do (f, s) <- child s; match f with FStruct _ _ _ => Some (f, s) | _ => None end)) (fst s, r);
    Some (FSwitch name ss, s)
  else None.
Lemma readFormat_body fuel top table p k b : 16 <= k <= 23 ->
  readFormat (S fuel) top (table, (p, k :: b)) =
  do (f, s) <- body fuel k (table ++ [FNull], (p + 1, b)); Some (f, (setAt (fst s) (length table) f, snd s)).
Proof.
  intros H. assert (E : readU 1 (p, k :: b) = Some (k, (p + 1, b))).
  { change (k :: b) with ([k] ++ b). replace [k] with (le 1 k) by (cbn [le]; rewrite Z.mod_small by lia; reflexivity). rewrite readU_le; [reflexivity|cbn; lia]. }
  cbn [readFormat]. rewrite E. destruct (Z.eqb_spec k 0); [lia|]. destruct (Z.eqb_spec k 1); [lia|]. destruct (Z.ltb_spec k 16); [lia|].
  reflexivity.
Qed.
(** It is enough that the body reads the format. *)
Lemma bodyOk i opened seen seen' d k b : 16 <= k <= 23 -> fine seen -> ~ In i seen ->
  (exists more, seen' = (seen ++ [i]) ++ more) -> fine seen' -> nth_error env i = Some d ->
  (forall fuel, (length b <= fuel)%nat -> step (body fuel k) b (i :: opened) (seen ++ [i]) seen' (fmtOf env (PUser i))) ->
  forall fuel' top, (length (k :: b) <= fuel')%nat -> step (readFormat fuel' top) (k :: b) opened seen seen' (fmtOf env (PUser i)).
Proof.
  intros Hk F Hi [more Hm] F' Hd H [|fuel'] top L table p rest G; cbn [List.length] in L; [lia|].
  rewrite <- app_comm_cons, readFormat_body by exact Hk.
  destruct (H fuel' ltac:(lia) (table ++ [FNull]) (p + 1) rest (good_snoc _ _ _ _ G)) as (f & t' & R1 & R2 & R3).
  exists f, (setAt t' (length table) f). unfold formats, input in *. rewrite R1. cbn [fst snd]. split; [|split; [|exact R3]].
  - rewrite zlen_cons. do 4 f_equal. lia.
  - rewrite <- (Forall2_len _ _ _ G). eapply good_set; eauto. exact (proj1 F').
Qed.

Lemma addOk_all fuel : addOk fuel.
Proof.
  induction fuel as [|fuel IH]; intros i c c' opened v seen' E W X F; [discriminate|].
  cbn [addFormat] in E. inversion W as [| |? ? ? ? W1 W2|? ? ? ? d ? W1 W2 W3 W4]; subst; [contradiction|].
  rewrite W2 in E.
  assert (F1 : fine (types c ++ [i])).
  { destruct F as [A B]. split; [now apply NoDup_snoc|]. apply Forall_app. split; [exact B|]. constructor; [|constructor]. apply nth_error_Some. now rewrite W2. }
  pose proof (walks_fine _ _ _ _ W4 F1) as F'.
  pose proof (proj1 (proj2 walk_ext _ _ _ _ W4)) as M.
  destruct d as [n t|t|t|t|name ps ms|name n ids|t e|name ss]; cbn [refers] in W4.
  - inversion W4 as [|? ? ? ? seen1 ? V1 V2]; subst. inversion V2; subst.
    destruct (childOk fuel IH _ _ _ _ _ _ E V1 F1) as (T & b & S1 & S2 & S3). split; [exact T|].
    exists (16 :: le 4 n ++ b). split; [rewrite S1; cbn [emitS schema]; now rewrite <- app_assoc, app_comm_cons|]. split; [cbn; lia|].
    refine (bodyOk _ _ _ _ _ _ _ _ F X M F' W2 _); [lia|].
    intros fuel' L table p rest G. rewrite app_length in L. cbn in W3.
    destruct (S3 fuel' false eq_refl ltac:(lia) table (p + 4) rest G) as (f & t' & R1 & R2 & R3). exists (FFixed n f), t'.
    split; [|split; [exact R2|apply fo_fixed with t; auto]].
    unfold body. cbn [Z.eqb Pos.eqb snd fst]. rewrite <- app_assoc. rewrite readU_le by (change (2 ^ (8 * Z.of_nat 4)) with (2 ^ 32); lia).
    change (Z.of_nat 4) with 4. unfold formats, input in *. rewrite R1. rewrite zlen_app, le_zlen. do 4 f_equal. lia.
  - inversion W4 as [|? ? ? ? seen1 ? V1 V2]; subst. inversion V2; subst.
    destruct (childOk fuel IH _ _ _ _ _ _ E V1 F1) as (T & b & S1 & S2 & S3). split; [exact T|].
    exists (17 :: b). split; [rewrite S1; cbn [emitS schema]; now rewrite <- app_assoc|]. split; [cbn; lia|].
    refine (bodyOk _ _ _ _ _ _ _ _ F X M F' W2 _); [lia|]. intros fuel' L table p rest G.
    destruct (S3 fuel' false eq_refl ltac:(lia) table p rest G) as (f & t' & R1 & R2 & R3). exists (FArray f), t'.
    split; [|split; [exact R2|apply fo_array with t; auto]].
    unfold body. cbn [Z.eqb Pos.eqb snd fst]. unfold formats, input in *. rewrite R1. reflexivity.
  - inversion W4 as [|? ? ? ? seen1 ? V1 V2]; subst. inversion V2; subst.
    destruct (childOk fuel IH _ _ _ _ _ _ E V1 F1) as (T & b & S1 & S2 & S3). split; [exact T|].
    exists (18 :: b). split; [rewrite S1; cbn [emitS schema]; now rewrite <- app_assoc|]. split; [cbn; lia|].
    refine (bodyOk _ _ _ _ _ _ _ _ F X M F' W2 _); [lia|]. intros fuel' L table p rest G.
    destruct (S3 fuel' false eq_refl ltac:(lia) table p rest G) as (f & t' & R1 & R2 & R3). exists (FOwned f), t'.
    split; [|split; [exact R2|apply fo_owned with t; auto]].
    unfold body. cbn [Z.eqb Pos.eqb snd fst]. unfold formats, input in *. rewrite R1. reflexivity.
  - inversion W4 as [|? ? ? ? seen1 ? V1 V2]; subst. inversion V2; subst.
    destruct (childOk fuel IH _ _ _ _ _ _ E V1 F1) as (T & b & S1 & S2 & S3). split; [exact T|].
    exists (19 :: b). split; [rewrite S1; cbn [emitS schema]; now rewrite <- app_assoc|]. split; [cbn; lia|].
    refine (bodyOk _ _ _ _ _ _ _ _ F X M F' W2 _); [lia|]. intros fuel' L table p rest G.
    destruct (S3 fuel' false eq_refl ltac:(lia) table p rest G) as (f & t' & R1 & R2 & R3). exists (FRaw f), t'.
    split; [|split; [exact R2|apply fo_raw with t; auto]].
    unfold body. cbn [Z.eqb Pos.eqb snd fst]. unfold formats, input in *. rewrite R1. reflexivity.
  - cbn [desc_ok] in W3. destruct W3 as (K1 & K2 & K3 & K4 & K5 & K6).
    destruct ((zlen ps <=? 65535) && (zlen ms <=? 65535)) eqn:EC; [|discriminate].
    destruct (each (named (addFormat fuel env)) ps _) as [c1|] eqn:E1; [|discriminate].
    assert (V : exists seen1, walks env (i :: opened) (types c ++ [i]) (map (fun p => (false, snd p)) ps) seen1 /\ walks env (i :: opened) seen1 (map (fun m => (true, snd m)) ms) seen').
    { clear - W4. set (l := types c ++ [i]) in *. clearbody l. revert l W4. induction ps as [|p ps IH]; intros l W; cbn [map app] in W.
      - exists l. split; [constructor|exact W].
      - inversion W as [|? ? ? ? seen1 ? V1 V2]; subst. destruct (IH _ V2) as (s2 & A & B). exists s2. split; [econstructor; eauto|exact B]. }
    destruct V as (seen1 & V1 & V2).
    destruct (eachOk fuel IH (fun _ => true) false ps _ c1 _ _ E1 V1 F1 K4) as (T1 & b1 & S1 & R1); [apply Forall_forall; reflexivity|]. subst seen1.
    destruct (eachOk fuel IH (fun _ => true) true ms _ c' _ _ E V2 (walks_fine _ _ _ _ V1 F1) K6) as (T2 & b2 & S2 & R2); [apply Forall_forall; reflexivity|].
    split; [exact T2|]. set (h := boxed name ++ le 2 (zlen ps) ++ le 2 (zlen ms)) in *.
    exists (20 :: h ++ b1 ++ b2). split; [rewrite S2, S1; cbn [emitS schema]; now rewrite <- !app_assoc, <- !app_comm_cons|]. split; [cbn; lia|].
    refine (bodyOk _ _ _ _ _ _ _ _ F X M F' W2 _); [lia|]. intros fuel' L table p rest G. rewrite !app_length in L. cbn [emitS types] in R1.
    destruct (R1 fuel' ltac:(lia) table (p + zlen h) (b2 ++ rest) G) as (qs & t1 & Q1 & Q2 & Q3).
    destruct (R2 fuel' ltac:(lia) t1 (p + zlen h + zlen b1) rest Q2) as (l & t2 & Q4 & Q5 & Q6).
    exists (FStruct name qs l), t2. split; [|split; [exact Q5|eapply fo_struct; [exact W2|exact K5|]]].
    + unfold body. cbn [Z.eqb Pos.eqb snd fst]. unfold h at 1. rewrite <- !app_assoc. rewrite (readBoxed_ok name _ _ K1).
      rewrite !readU_le by (change (2 ^ (8 * Z.of_nat 2)) with 65536; pose proof (zlen_pos ps); pose proof (zlen_pos ms); lia).
      rewrite !to_nat_zlen. replace (p + zlen (boxed name) + Z.of_nat 2 + Z.of_nat 2) with (p + zlen h) by (unfold h; rewrite !zlen_app, !le_zlen; lia).
      assert (EX : forall n s, times n (nameThen (readFormat fuel' false)) s =
        times n (nameThen (fun s0 => do (f, s1) <- readFormat fuel' false s0; (if true then Some (f, s1) else None))) s).
      { intros n s. apply times_ext. apply nameThen_ext. intros s0. now destruct (readFormat fuel' false s0) as [[f s1]|]. }
      unfold formats, input in *. rewrite EX, Q1. cbv beta iota. rewrite EX, Q4. rewrite !zlen_app, !Z.add_assoc. reflexivity.
    + eapply Forall2_impl; [|exact Q6]. cbn. intros a b [A B]. auto.
  - cbn [desc_ok] in W3. destruct W3 as (K1 & K2 & K3 & [K0 K4] & K5).
    inversion W4; subst. assert (E' : c' = emitS (21 :: boxed name ++ le 1 n ++ le 4 (zlen ids) ++ flat_map (fun x => boxed (fst x)) ids) (mkf (types c ++ [i]) (schema c))) by congruence.
    subst c'. split; [reflexivity|]. eexists (21 :: (boxed name ++ le 1 n ++ le 4 (zlen ids) ++ flat_map (fun x => boxed (fst x)) ids)). split; [reflexivity|]. split; [cbn; lia|].
    refine (bodyOk _ _ _ _ _ _ _ _ F X M F' W2 _); [lia|]. intros fuel' L table p rest G.
    exists (FEnum name n (map fst ids)), table. split; [|split; [exact G|now apply fo_enum]].
    unfold body. cbn [Z.eqb Pos.eqb snd fst]. rewrite <- !app_assoc. rewrite (readBoxed_ok name _ _ K1).
    rewrite readU_le by (cbn; lia). rewrite readU_le by (change (2 ^ (8 * Z.of_nat 4)) with (2 ^ 32); pose proof (zlen_pos ids); lia).
    rewrite !to_nat_zlen. rewrite (namesOk ids K4). rewrite !zlen_app, !le_zlen, !Z.add_assoc. reflexivity.
  - inversion W4 as [|? ? ? ? seen1 ? V1 V2]; subst. inversion V2 as [|? ? ? ? seen2 ? V3 V4]; subst. inversion V4; subst.
    destruct (childFormat (addFormat fuel env) t _) as [c1|] eqn:E1; [|discriminate].
    destruct (childOk fuel IH _ _ _ _ _ _ E1 V1 F1) as (T1 & b1 & S1 & S2 & S3). subst seen1.
    destruct (childOk fuel IH _ _ _ _ _ _ E V3 (walk_fine _ _ _ _ V1 F1)) as (T2 & b2 & S4 & S5 & S6).
    split; [exact T2|].
    exists (22 :: b1 ++ b2). split; [rewrite S4, S1; cbn [emitS schema]; now rewrite <- !app_assoc|]. split; [cbn; lia|].
    refine (bodyOk _ _ _ _ _ _ _ _ F X M F' W2 _); [lia|]. intros fuel' L table p rest G. rewrite app_length in L.
    destruct (S3 fuel' false eq_refl ltac:(lia) table p (b2 ++ rest) G) as (f & t' & R1 & R2 & R3).
    destruct (S6 fuel' false eq_refl ltac:(lia) t' (p + zlen b1) rest R2) as (g & t'' & R4 & R5 & R6).
    destruct W3 as (name & n & ids & K1 & K2).
    assert (Eg : g = FEnum name n (map fst ids) /\ NoDup (map fst ids)).
    { pose proof (R6 eq_refl) as O. inversion O; cbn [desc] in *; try congruence. split; [congruence|].
      match goal with H : nth_error env e = Some (TEnum _ _ ?x) |- NoDup (map fst ?y) => assert (x = y) by congruence; now subst x end. }
    destruct Eg as [Eg Nd].
    exists (FEnumArray f (map fst ids)), t''. split; [|split; [exact R5|eapply fo_enumarray; eauto]].
    unfold body. cbn [Z.eqb Pos.eqb snd fst]. rewrite <- app_assoc. unfold formats, input in *. rewrite R1. cbv beta iota. rewrite R4. subst g. rewrite zlen_app, Z.add_assoc. reflexivity.
  - cbn [desc_ok] in W3. destruct W3 as (K1 & K2 & [_ K3] & K4).
    destruct (zlen ss <=? 65535) eqn:EC; [|discriminate].
    set (ms := map (fun s => (fst s, PUser (snd s))) ss).
    assert (EE : forall c0, each (fun s => named (addFormat fuel env) (fst s, PUser (snd s))) ss c0 = each (named (addFormat fuel env)) ms c0).
    { unfold ms. clear. induction ss as [|s ss IH]; intros c0; [reflexivity|]. cbn [each map]. destruct (named _ _ c0); [apply IH|reflexivity]. }
    rewrite EE in E.
    destruct (eachOk fuel IH isStruct true ms _ c' (i :: opened) seen' E) as (T1 & b1 & S1 & R1); [| | | |].
    + unfold ms. rewrite map_map. exact W4.
    + exact F1.
    + unfold ms. rewrite Forall_map. exact K3.
    + unfold ms. rewrite Forall_map. eapply Forall_impl; [|exact K4]. cbn. intros s (n & qs & ms0 & Q) f Hf. specialize (Hf eq_refl).
      inversion Hf; cbn [desc] in *; try congruence. reflexivity.
    + split; [exact T1|]. set (h := boxed name ++ le 2 (zlen ss)) in *.
      exists (23 :: h ++ b1). split; [rewrite S1; cbn [emitS schema]; now rewrite <- !app_assoc, <- !app_comm_cons|]. split; [cbn; lia|].
      refine (bodyOk _ _ _ _ _ _ _ _ F X M F' W2 _); [lia|]. intros fuel' L table p rest G. rewrite !app_length in L. cbn [emitS types] in R1.
      destruct (R1 fuel' ltac:(lia) table (p + zlen h) rest G) as (l & t2 & Q4 & Q5 & Q6).
      exists (FSwitch name l), t2. split; [|split; [exact Q5|eapply fo_switch; [exact W2|]]].
      * unfold body. cbn [Z.eqb Pos.eqb snd fst]. unfold h at 1. rewrite <- !app_assoc. rewrite (readBoxed_ok name _ _ K1).
        rewrite !readU_le by (change (2 ^ (8 * Z.of_nat 2)) with 65536; pose proof (zlen_pos ss); lia).
        rewrite !to_nat_zlen. replace (p + zlen (boxed name) + Z.of_nat 2) with (p + zlen h) by (unfold h; rewrite !zlen_app, !le_zlen; lia).
        replace (length ss) with (length ms) by (unfold ms; apply map_length).
        assert (EX : forall n s, times n (nameThen (fun s => do (f, s) <- readFormat fuel' false s; match f with FStruct _ _ _ => Some (f, s) | _ => None end)) s =
          times n (nameThen (fun s0 => do (f, s1) <- readFormat fuel' false s0; (if isStruct f then Some (f, s1) else None))) s).
        { intros n s. apply times_ext. apply nameThen_ext. intros s0. destruct (readFormat fuel' false s0) as [[f s1]|]; [|reflexivity]. now destruct f. }
        rewrite !EX. unfold formats, input in *. rewrite Q4. rewrite !zlen_app, !Z.add_assoc. reflexivity.
      * unfold ms in Q6. clear - Q6. remember (map (fun s => (fst s, PUser (snd s))) ss) as ms eqn:Em. revert ss Em.
        induction Q6 as [|m m' ms l [A B] Q IH]; intros [|s ss] Em; try discriminate; constructor; injection Em as -> Em; cbn in *; auto.
Qed.
End Schema.

Lemma fmtOf_nonNull env t f : fmtOf env t f -> f <> FNull.
Proof. intros H. inversion H; discriminate. Qed.
(** The schema of a file. *)
Lemma readSchema_ok env i c rest fuel : types_ok env (PUser i) -> addFormat (S (length env)) env i (mkf [] []) = Some c ->
  exists table f, readSchema (S (S fuel)) ([], (0, schema c ++ [0] ++ rest)) = Some (table, (zlen (schema c) + 1, rest)) /\
    nth_error table 0 = Some f /\ fmtOf env (PUser i) f.
Proof.
  intros [few [seen W]] E.
  assert (F : fine env (types (mkf [] []))) by (split; constructor).
  destruct (addOk_all env few _ i (mkf [] []) c [] true seen E W (fun H => H) F) as (T & b & S1 & S2 & S3). cbn [schema app] in S1.
  destruct (S3 (S (length (schema c ++ [0] ++ rest))) true ltac:(rewrite S1, !app_length; lia) [] 0 ([0] ++ rest) ltac:(constructor)) as (f & table & R1 & R2 & R3).
  exists table, f. rewrite <- S1 in R1. split; [|split; [|exact R3]].
  - set (fu := S fuel). cbn [readSchema]. cbn [fst snd]. unfold formats, input in *. rewrite R1. cbv beta iota.
    assert (Q : readSchema fu (table, (0 + zlen (schema c), [0] ++ rest)) = Some (table, (zlen (schema c) + 1, rest))).
    { unfold fu. cbn [readSchema]. cbn [fst snd app List.length]. cbn [readFormat].
      change (0 :: rest) with (le 1 0 ++ rest). rewrite readU_le by (cbn; lia). cbn [Z.eqb]. repeat f_equal; lia. }
    pose proof (fmtOf_nonNull _ _ _ R3). unfold formats, input in *. destruct f; try contradiction; exact Q.
  - assert (X : nth_error seen 0 = Some i).
    { inversion W as [| |? ? ? ? W1 W2|? ? ? ? d ? W1 W2 W3 W4]; subst; [elim W1|].
      destruct (proj1 (proj2 (walk_ext env) _ _ _ _ W4)) as [more ->]. reflexivity. }
    destruct (Forall2_nth _ _ _ _ _ R2 X) as (g & G1 & [[]|G2]).
    (* the entry is the format itself *)
    rewrite G1. f_equal. clear - R1 G1 R3. cbn [readFormat] in R1.
    destruct (readU 1 (0, schema c ++ [0] ++ rest)) as [[k r]|]; [|discriminate]. cbv beta iota in R1.
    destruct (k =? 0); [assert (Q : f = FNull) by congruence; elim (fmtOf_nonNull _ _ _ R3 Q)|].
    destruct (k =? 1).
    { destruct (readU 4 r) as [[id r1]|]; [|discriminate]. destruct (getFormat [] id) as [f0|]; [|discriminate].
      destruct ((id <? 1000) && negb (nonNull f0)); [discriminate|]. assert (Q : table = []) by congruence. subst table. discriminate. }
    destruct (k <? 16); [discriminate|].
    match type of R1 with match ?X with Some _ => _ | None => _ end = _ => destruct X as [[f0 s0]|] end; [|discriminate].
    cbv beta iota in R1. assert (Q1 : f0 = f) by congruence. assert (Q2 : table = setAt (fst s0) 0 f0) by (cbn [List.length] in R1; congruence). rewrite Q2 in G1. unfold setAt in G1. cbn [List.length firstn app nth_error] in G1. congruence.
Qed.
