(* Proofs about text files: the streams. *)
From Coq Require Import Lia ZifyBool ZifyNat.
From Verif Require Import NewLineProofs TextConvProofs TextFormatSpec InStreamSpec InStreamProofs.

(* ---- detection, as a function of the file ---- *)
Fixpoint scanL (fuel : nat) (e : encoding) (l : list Z) (t : stats) (prev : bool) (n max : Z) : stats * Z :=
  if n <? max then
    match fuel with
    | O => (finish t, n)
    | S fuel =>
      let d := decode e l in
      match stat d with
      | Truncated => (finish t, n)
      | _ => scanL fuel e (skipn (nbytes d) l) (count t d prev) (point d =? 13) (n + Z.of_nat (nbytes d)) max
      end
    end
  else (finish t, n).
Definition scanned (e : encoding) (l : list Z) : stats * Z := scanL (S (Z.to_nat NumBytesForAutodetect)) e l noStats false 0 NumBytesForAutodetect.
Definition guessL (l : list Z) : option format :=
  let (t8, n) := scanned Enc_UTF8 l in
  if n =? 0 then Some (mkf EUTF8 false false) else
  if (numInvalid t8 =? 0) && (numControl t8 =? 0) then do nl <- getNewLineType t8; Some (mkf EUTF8 nl false)
  else
    let (t8, e8) := choose8 t8 n in
    let (t, e) := choose t8 e8 (fst (scanned (Enc_UTF16 false) l)) (fst (scanned (Enc_UTF16 true) l)) in
    do nl <- getNewLineType t; Some (mkf e nl false).
Definition markL (l : list Z) : option enc :=
  let h k := nth k l 0 in
  if (h 0%nat =? 0xef) && (h 1%nat =? 0xbb) then if h 2%nat =? 0xbf then Some EUTF8 else None
  else if (h 0%nat =? 0xfe) && (h 1%nat =? 0xff) then Some EUTF16be
  else if (h 0%nat =? 0xff) && (h 1%nat =? 0xfe) then Some EUTF16le
  else None.
Definition detectL (l : list Z) : option format :=
  match markL l with
  | None => guessL l
  | Some e => do nl <- getNewLineType (fst (scanned (encodingFromEnum e) l)); Some (mkf e nl true)
  end.

Lemma known_enum e : known (encodingFromEnum e).
Proof. destruct e; [left|right; left|right; right; exists true|right; right; exists false]; reflexivity. Qed.
Lemma enum_code e : encodingFromEnum e = codeOf e.
Proof. destruct e; reflexivity. Qed.
Lemma known_8 : known Enc_UTF8.
Proof. right. left. reflexivity. Qed.
Lemma known_16 be : known (Enc_UTF16 be).
Proof. right. right. exists be. reflexivity. Qed.
Lemma all_length {A B} (R : A -> B -> Prop) l m : Forall2 R l m -> length l = length m.
Proof. induction 1; cbn; congruence. Qed.
Lemma bytes_prefix v l : prefix v l -> bytes_ok l -> bytes_ok v.
Proof. intros (c & ->) H. apply Forall_app in H. apply H. Qed.
Lemma bytes_rest l p : bytes_ok l -> bytes_ok (rest l p).
Proof. intros H. apply ok_skipn, H. Qed.

Section Streams.
Context (cut : nat -> nat) (blk : Z) (file : list Z).
Hypothesis (Hblk : 100 < blk < 2 ^ 32) (Hsrc : zlen file < 2 ^ 63) (Hfile : bytes_ok file).
Notation Inv := (Inv blk file).

Lemma save_ok s u : Inv s u -> closed u = false -> exists s', save s = Some (s', length (saved u)) /\ Inv s' (mku (at_ u) (ended u) (saved u ++ [Some (at_ u)]) false).
Proof.
  intros I Hc. destruct (step_ok cut blk file Hblk Hsrc s u Save I Hc) as (s' & y & u' & E & A & I'). cbn [step answers] in E, A. destruct A as (-> & ->). rewrite Hc in I'. unfold save.
  destruct (getBlockRef s) as [r|]; [|discriminate]. injection E as <-. rewrite (all_length _ _ _ (b_marks _ _ _ _ (proj1 I))). eexists. split; [reflexivity|exact I'].
Qed.
Lemma back_ok s u k p : Inv s u -> nth_error (saved u) k = Some (Some p) -> exists s', back s k = Some s' /\ Inv s' (mku p false (saved u) false).
Proof.
  intros I Hk. destruct (step_ok cut blk file Hblk Hsrc s u (Rewind k) I (ex_intro _ p Hk)) as (s' & y & u' & E & A & I'). cbn [step answers] in E, A. destruct A as (q & Hq & -> & ->).
  assert (q = p) as -> by congruence. unfold back. destruct (nth_error (marks s) k) as [[r|]|]; try discriminate. destruct (rewind s r) as [s1|]; [|discriminate]. injection E as <-. exists s1. split; [reflexivity|exact I'].
Qed.
Lemma release_ok s u k : Inv s u -> Inv (release s k) (mku (at_ u) (ended u) (upd (saved u) k None) (closed u)).
Proof.
  intros I. destruct (step_ok cut blk file Hblk Hsrc s u (Drop k) I Logic.I) as (s' & y & u' & E & A & I'). cbn [step answers] in E, A. destruct A as (-> & ->). injection E as <-. exact I'.
Qed.
Lemma byte_ok s u : Inv s u -> closed u = false -> 0 <= at_ u -> exists s' u', readByte cut blk s = Some (s', nth (Z.to_nat (at_ u)) file 0) /\ Inv s' u' /\ saved u' = saved u /\ closed u' = false /\
  (at_ u' = at_ u + 1 \/ zlen file <= at_ u /\ at_ u' = at_ u).
Proof.
  intros I Hc Hp. pose proof (Inv_left cut blk file Hblk _ _ I) as Hl. destruct (step_ok cut blk file Hblk Hsrc s u Byte I Logic.I) as (s' & y & u' & E & A & I'). cbn [step answers] in E, A. destruct (readByte cut blk s) as [(s1, b)|]; [|discriminate]. injection E as <- E.
  assert (N : nth (Z.to_nat (at_ u)) file 0 = hd 0 (rest file (at_ u))) by (unfold rest; generalize (Z.to_nat (at_ u)) as n; intros n; clear; revert n; induction file as [|x l IH]; intros [|n]; try reflexivity; apply IH).
  rewrite N. destruct (rest file (at_ u)) as [|c l] eqn:R; destruct A as (A & ->); rewrite A in E; injection E as ->; exists s1; eexists; (split; [reflexivity|]); (split; [exact I'|]); cbn [saved closed at_]; (split; [reflexivity|]); (split; [exact Hc|]).
  - right. pose proof (rest_nil file _ Hl R). lia.
  - left. reflexivity.
Qed.

Lemma decode_view e s u c n : known e -> Inv s u -> (n <= c <= zlen (view s) \/ view s = rest file (at_ u)) -> 4 <= n -> decode e (view s) = decode e (rest file (at_ u)).
Proof.
  intros K I D Hn. destruct D as [D| ->]; [|reflexivity]. destruct (Inv_view cut blk file Hblk s u I) as (V & _). rewrite <- (known_P5 e K (view s)), <- (known_P5 e K (rest file (at_ u))).
  f_equal. symmetry. apply (prefix_firstn cut); [exact V|]. unfold zlen in *. lia.
Qed.

Lemma scan_ok e max : known e -> max + 3 <= blk -> forall fuel s u t prev, Inv s u -> closed u = false -> (Z.to_nat (max - at_ u) < fuel)%nat ->
  (ended u = true -> zlen (rest file (at_ u)) < 4) ->
  exists s' e', scanLoop cut blk fuel e s t prev (at_ u) max = Some (s', fst (scanL fuel e (rest file (at_ u)) t prev (at_ u) max), snd (scanL fuel e (rest file (at_ u)) t prev (at_ u) max)) /\
    Inv s' (mku (snd (scanL fuel e (rest file (at_ u)) t prev (at_ u) max)) e' (saved u) false) /\
    (e' = true -> zlen (rest file (snd (scanL fuel e (rest file (at_ u)) t prev (at_ u) max))) < 4).
Proof.
  intros K Hm. induction fuel as [|fuel IH]; intros s u t prev I Hc Hf He; [lia|]. cbn [scanLoop scanL]. pose proof (Inv_left cut blk file Hblk _ _ I) as Hl.
  destruct (Z.ltb_spec (at_ u) max) as [H|H].
  - destruct (tryMake_ok cut blk file Hblk Hsrc s u 4 I) as (s1 & c & e1 & E & I1 & D). { split; [lia|]. rewrite Z.mod_small by lia. lia. }
    rewrite E. assert (Dv : decode e (view s1) = decode e (rest file (at_ u))). { apply (decode_view e s1 (withEnd u e1) c 4); [exact K|exact I1| |lia]. cbn [withEnd at_]. tauto. }
    assert (He1 : e1 = true -> zlen (rest file (at_ u)) < 4). { destruct D as [(_ & ->)|(_ & D & <- & _)]; [exact He|intros _; exact D]. }
    rewrite Dv. assert (V : bytes_ok (view s1)). { destruct (Inv_view cut blk file Hblk _ _ I1) as (V & _). exact (bytes_prefix _ _ V (bytes_rest _ _ Hfile)). }
    assert (R : bytes_ok (rest file (at_ u))) by exact (bytes_rest _ _ Hfile).
    pose proof (known_P1 e K _ R) as Q1. pose proof (known_P3 e K _ R) as Q3. pose proof (known_P2 e K _ V) as Q2. rewrite Dv in Q2.
    assert (G : stat (decode e (rest file (at_ u))) <> Truncated ->
      let d := decode e (rest file (at_ u)) in
      let r := scanL fuel e (skipn (nbytes d) (rest file (at_ u))) (count t d prev) (point d =? 13) (at_ u + Z.of_nat (nbytes d)) max in
      exists s' e', (if (0 <=? point d) && (0 <? nbytes d)%nat then scanLoop cut blk fuel e (advance s1 (Z.of_nat (nbytes d))) (count t d prev) (point d =? 13) (at_ u + Z.of_nat (nbytes d)) max else None) = Some (s', fst r, snd r) /\
        Inv s' (mku (snd r) e' (saved u) false) /\ (e' = true -> zlen (rest file (snd r)) < 4)).
    { intros S. specialize (Q3 S). cbv zeta. set (d := decode e (rest file (at_ u))) in *. clearbody d. assert (0 < nbytes d)%nat by tauto. replace (0 <=? point d) with true by lia. replace (0 <? nbytes d)%nat with true by lia. cbn [andb].
      destruct (IH (advance s1 (Z.of_nat (nbytes d))) (moved (withEnd u e1) (Z.of_nat (nbytes d))) (count t d prev) (point d =? 13)) as (s2 & e2 & A1 & A2 & A3).
      - apply (Inv_advance cut); [exact Hblk|exact I1|unfold zlen; lia].
      - exact Hc.
      - cbn [moved withEnd at_]. lia.
      - cbn [moved withEnd at_ ended]. intros X. specialize (He1 X). rewrite rest_moved by lia. unfold zlen in *. rewrite skipn_length. lia.
      - cbn [moved withEnd at_ saved] in A1, A2, A3. rewrite rest_moved, Nat2Z.id in A1, A2, A3 by lia. exists s2, e2. split; [exact A1|]. split; [exact A2|exact A3]. }
    destruct (stat (decode e (rest file (at_ u)))) eqn:S; [|apply G; discriminate|apply G; discriminate].
    exists s1, e1. cbn [fst snd]. split; [reflexivity|]. split; [|exact He1]. unfold withEnd in I1. rewrite Hc in I1. exact I1.
  - exists s, (ended u). cbn [fst snd]. split; [reflexivity|]. split; [|exact He]. destruct u as [a b c d]. cbn [at_ ended saved closed] in *. subst d. exact I.
Qed.
Hypothesis Hbig : NumBytesForAutodetect + 3 <= blk.
Lemma scan_file e s u : known e -> Inv s u -> closed u = false -> at_ u = 0 -> ended u = false ->
  exists s' e', scanTextFile cut blk s e NumBytesForAutodetect = Some (s', fst (scanned e file), snd (scanned e file)) /\ Inv s' (mku (snd (scanned e file)) e' (saved u) false) /\
    (e' = true -> zlen (rest file (snd (scanned e file))) < 4).
Proof.
  intros K I Hc Ha He. destruct (scan_ok e NumBytesForAutodetect K Hbig (S (Z.to_nat NumBytesForAutodetect)) s u noStats false I Hc) as (s' & e' & A); [lia|congruence|]. rewrite Ha in A. exists s', e'. exact A.
Qed.
Lemma nth_last {A} (l : list A) x : nth_error (l ++ [x]) (length l) = Some x.
Proof. rewrite nth_error_app2 by lia. rewrite Nat.sub_diag. reflexivity. Qed.

Definition atStart (s : stream) (u : user) : Prop := Inv s u /\ closed u = false /\ at_ u = 0 /\ (ended u = true -> zlen file < 4).
Lemma release_start s u k : atStart s u -> exists u', atStart (release s k) u'.
Proof. intros (I & H). eexists. split; [apply release_ok; exact I|exact H]. Qed.

Lemma guess_ok s u f : atStart s u -> ended u = false -> guessL file = Some f -> exists s' u', guessFileEncoding cut blk s = Some (s', f) /\ atStart s' u' /\ saved u' = upd (saved u ++ [Some 0]) (length (saved u)) None.
Proof.
  intros (I & Hc & Ha & _) He G. unfold guessFileEncoding. destruct (save_ok s u I Hc) as (s1 & -> & I1). rewrite Ha, He in I1.
  destruct (scan_file Enc_UTF8 s1 _ known_8 I1 eq_refl eq_refl eq_refl) as (s2 & e2 & -> & I2 & F2). unfold guessL in G. destruct (scanned Enc_UTF8 file) as [t8 n]. cbn [fst snd] in *. cbn [saved] in I2.
  assert (Rel : forall s', Inv s' (mku 0 false (saved u ++ [Some 0]) false) -> exists u', atStart (release s' (length (saved u))) u' /\ saved u' = upd (saved u ++ [Some 0]) (length (saved u)) None).
  { intros s' I'. pose proof (release_ok s' _ (length (saved u)) I') as R. eexists. split; [split; [exact R|cbn; split; [reflexivity|split; [reflexivity|discriminate]]]|reflexivity]. }
  destruct (Z.eqb_spec n 0) as [E0|Hn].
  - rewrite E0 in *. injection G as <-. pose proof (release_ok s2 _ (length (saved u)) I2) as R. exists (release s2 (length (saved u))). eexists. split; [reflexivity|]. split; [split; [exact R|cbn [closed at_ ended]; split; [reflexivity|split; [reflexivity|]]; exact F2]|reflexivity].
  - assert (Bk : forall s' u', Inv s' u' -> saved u' = saved u ++ [Some 0] -> exists s'', back s' (length (saved u)) = Some s'' /\ Inv s'' (mku 0 false (saved u ++ [Some 0]) false)).
    { intros s' u' I' Hu. rewrite <- Hu. apply (back_ok s' u'); [exact I'|]. rewrite Hu. apply nth_last. }
    destruct (Bk s2 _ I2 eq_refl) as (s3 & -> & I3). destruct ((numInvalid t8 =? 0) && (numControl t8 =? 0)).
    + destruct (getNewLineType t8) as [nl|]; [|discriminate]. injection G as <-. destruct (Rel s3 I3) as (u' & R). exists (release s3 (length (saved u))), u'. split; [reflexivity|exact R].
    + destruct (choose8 t8 n) as [t8' e8]. destruct (scan_file (Enc_UTF16 false) s3 _ (known_16 _) I3 eq_refl eq_refl eq_refl) as (s4 & e4 & -> & I4 & _). destruct (Bk s4 _ I4 eq_refl) as (s5 & -> & I5).
      destruct (scan_file (Enc_UTF16 true) s5 _ (known_16 _) I5 eq_refl eq_refl eq_refl) as (s6 & e6 & -> & I6 & _). destruct (Bk s6 _ I6 eq_refl) as (s7 & -> & I7).
      destruct (choose t8' e8 _ _) as [t e]. destruct (getNewLineType t) as [nl|]; [|discriminate]. injection G as <-. destruct (Rel s7 I7) as (u' & R). exists (release s7 (length (saved u))), u'. split; [reflexivity|exact R].
Qed.

Lemma guess_bom f : guessL file = Some f -> bom f = false.
Proof.
  unfold guessL. destruct (scanned Enc_UTF8 file) as [t8 n]. destruct (n =? 0); [intros [= <-]; reflexivity|]. destruct ((numInvalid t8 =? 0) && (numControl t8 =? 0)); [destruct (getNewLineType t8); [intros [= <-]; reflexivity|discriminate]|].
  destruct (choose8 t8 n) as [t8' e8]. destruct (choose t8' e8 _ _) as [t e]. destruct (getNewLineType t); [intros [= <-]; reflexivity|discriminate].
Qed.
Lemma autodetect_ok s u f : atStart s u -> ended u = false -> detectL file = Some f -> exists s' u', autodetect cut blk s = Some (s', f) /\ atStart s' u' /\ (bom f = true -> ended u' = false).
Proof.
  intros (I & Hc & Ha & _) He G. unfold autodetect. destruct (save_ok s u I Hc) as (s1 & -> & I1). rewrite Ha, He in I1. set (k := length (saved u)). set (sv := saved u ++ [Some 0]) in *.
  destruct (byte_ok s1 _ I1 eq_refl ltac:(cbn; lia)) as (s2 & u2 & -> & I2 & S2 & C2 & D2). cbn [at_ saved] in D2, S2. change (Z.to_nat (at_ (mku 0 false sv false))) with 0%nat.
  destruct (byte_ok s2 u2 I2 C2 ltac:(lia)) as (s3 & u3 & -> & I3 & S3 & C3 & D3).
  assert (N1 : nth (Z.to_nat (at_ u2)) file 0 = nth 1 file 0). { destruct D2 as [-> |(D2 & ->)]; [reflexivity|]. unfold zlen in D2. rewrite !nth_overflow by lia. reflexivity. }
  rewrite N1. rewrite S2 in S3.
  assert (Bk : forall s' u', Inv s' u' -> saved u' = sv -> exists s'', back s' k = Some s'' /\ Inv s'' (mku 0 false sv false)).
  { intros s' u' I' Hu. rewrite <- Hu. apply (back_ok s' u'); [exact I'|]. rewrite Hu. apply nth_last. }
  assert (M : exists s4 u4, (if (nth 0 file 0 =? 0xef) && (nth 1 file 0 =? 0xbb) then do (s, h2) <- readByte cut blk s3; Some (s, if h2 =? 0xbf then Some EUTF8 else None)
     else if (nth 0 file 0 =? 0xfe) && (nth 1 file 0 =? 0xff) then Some (s3, Some EUTF16be)
     else if (nth 0 file 0 =? 0xff) && (nth 1 file 0 =? 0xfe) then Some (s3, Some EUTF16le)
     else Some (s3, None)) = Some (s4, markL file) /\ Inv s4 u4 /\ saved u4 = sv).
  { unfold markL. destruct ((nth 0 file 0 =? 0xef) && (nth 1 file 0 =? 0xbb)) eqn:B.
    - destruct (byte_ok s3 u3 I3 C3 ltac:(lia)) as (s4 & u4 & -> & I4 & S4 & C4 & D4).
      assert (L : (2 <= length file)%nat). { destruct (Nat.lt_ge_cases 1 (length file)); [lia|]. rewrite (nth_overflow file 0 (n := 1)) in B by lia. rewrite andb_false_r in B. discriminate. }
      unfold zlen in *. assert (at_ u3 = 2) by lia. rewrite H. exists s4, u4. split; [reflexivity|]. split; [exact I4|congruence].
    - destruct ((nth 0 file 0 =? 0xfe) && (nth 1 file 0 =? 0xff)); [|destruct ((nth 0 file 0 =? 0xff) && (nth 1 file 0 =? 0xfe))]; exists s3, u3; (split; [reflexivity|]); (split; [exact I3|exact S3]). }
  destruct M as (s4 & u4 & -> & I4 & S4). destruct (Bk s4 u4 I4 S4) as (s5 & -> & I5). unfold detectL in G. destruct (markL file) as [e|].
  - destruct (save_ok s5 _ I5 eq_refl) as (s6 & -> & I6). cbn [at_ ended saved] in I6. destruct (scan_file (encodingFromEnum e) s6 _ (known_enum e) I6 eq_refl eq_refl eq_refl) as (s7 & e7 & -> & I7 & _). cbn [saved] in *.
    destruct (back_ok s7 _ (length sv) 0 I7) as (s8 & -> & I8); [apply nth_last|]. destruct (getNewLineType _) as [nl|]; [|discriminate]. injection G as <-.
    pose proof (release_ok _ _ k (release_ok _ _ (length sv) I8)) as R. eexists. eexists. split; [reflexivity|]. split; [split; [exact R|]; cbn; split; [reflexivity|split; [reflexivity|discriminate]]|reflexivity].
  - destruct (guess_ok s5 (mku 0 false sv false) f) as (s6 & u6 & E6 & A6 & _); [split; [exact I5|cbn; split; [reflexivity|split; [reflexivity|discriminate]]]|reflexivity|exact G|].
    rewrite E6. destruct (release_start _ _ k A6) as (u7 & A7). exists (release s6 k), u7. split; [reflexivity|]. split; [exact A7|]. rewrite (guess_bom f G). discriminate.
Qed.
End Streams.
