(* Proofs about text files: what is detected. *)
From Coq Require Import Lia ZifyBool ZifyNat.
From Verif Require Import TextEncodingProofs NewLineProofs TextConvProofs TextFormatSpec InStreamProofs TextFormatProofs TextFormatLoad TextFormatFiles.

(* ---- detection always succeeds ---- *)
Definition nlOk (t : stats) : Prop := 0 <= numCRLF t <= numLines t.
Lemma count_nl t d prev : nlOk t -> nlOk (count t d prev).
Proof.
  unfold nlOk, count, plus. intros H. destruct (stat d); cbn [numCRLF numLines]; [lia|lia|].
  destruct (point d <? 32); [destruct (point d =? 10); [destruct prev; cbn; lia|]; destruct (point d =? 9); [cbn; lia|]; destruct (point d =? 13); cbn; lia|].
  destruct (point d <? 127); [cbn; lia|]. destruct (65536 <=? point d); cbn; lia.
Qed.
Lemma scanL_nl e max : forall fuel l t prev n, nlOk t -> nlOk (fst (scanL fuel e l t prev n max)).
Proof.
  induction fuel as [|fuel IH]; intros l t prev n H; cbn [scanL]; destruct (n <? max); try exact H. destruct (stat (decode e l)); [exact H|apply IH, count_nl, H|apply IH, count_nl, H].
Qed.
Lemma scanned_nl e l : nlOk (fst (scanned e l)).
Proof. apply scanL_nl. unfold nlOk. cbn. lia. Qed.
Lemma newLine_total t : nlOk t -> exists b, getNewLineType t = Some b.
Proof. intros H. unfold getNewLineType. replace (numCRLF t <=? numLines t) with true by (unfold nlOk in H; lia). eexists. reflexivity. Qed.
Lemma choose8_nl t n : nlOk t -> nlOk (fst (choose8 t n)).
Proof. intros H. unfold choose8. destruct (fle _ _); exact H. Qed.
Lemma choose_nl a e b c : nlOk a -> nlOk b -> nlOk c -> nlOk (fst (choose a e b c)).
Proof. intros. unfold choose. destruct (fle (getScore c) (getScore b)); destruct (fle _ _); assumption. Qed.
Lemma guess_total l : exists f, guessL l = Some f.
Proof.
  unfold guessL. pose proof (scanned_nl Enc_UTF8 l) as N8. destruct (scanned Enc_UTF8 l) as [t8 n]. cbn [fst] in N8. destruct (n =? 0); [eexists; reflexivity|].
  destruct ((numInvalid t8 =? 0) && (numControl t8 =? 0)); [destruct (newLine_total _ N8) as (b & ->); eexists; reflexivity|].
  pose proof (choose8_nl t8 n N8) as N8'. destruct (choose8 t8 n) as [t8' e8]. pose proof (choose_nl t8' e8 _ _ N8' (scanned_nl (Enc_UTF16 false) l) (scanned_nl (Enc_UTF16 true) l)) as Nc. destruct (choose t8' e8 _ _) as [t e]. cbn [fst] in Nc.
  destruct (newLine_total _ Nc) as (b & ->). eexists. reflexivity.
Qed.
Lemma detect_total l : exists f, detectL l = Some f.
Proof. unfold detectL. destruct (markL l) as [e|]; [|apply guess_total]. destruct (newLine_total _ (scanned_nl (encodingFromEnum e) l)) as (b & ->). eexists. reflexivity. Qed.

(* ---- the mark ---- *)
Lemma markL_iff e l : markL l = Some e <-> marked e l.
Proof.
  unfold markL, marked. split.
  - destruct ((nth 0 l 0 =? 0xef) && (nth 1 l 0 =? 0xbb)) eqn:B1.
    + destruct (nth 2 l 0 =? 0xbf) eqn:B2; [|discriminate]. intros [= <-]. split; [discriminate|]. destruct l as [|a [|b [|c l]]]; cbn [nth] in *; try (rewrite ?andb_false_r in B1; discriminate); try discriminate. exists l.
      apply andb_true_iff in B1. change (encode (codeOf EUTF8) 0xFEFF) with [0xef; 0xbb; 0xbf]. cbn [app]. repeat f_equal; lia.
    + destruct ((nth 0 l 0 =? 0xfe) && (nth 1 l 0 =? 0xff)) eqn:B2; [|destruct ((nth 0 l 0 =? 0xff) && (nth 1 l 0 =? 0xfe)) eqn:B3; [|discriminate]].
      * intros [= <-]. split; [discriminate|]. destruct l as [|a [|b l]]; cbn [nth] in *; try (rewrite ?andb_false_r in B2; discriminate). exists l. apply andb_true_iff in B2. change (encode (codeOf EUTF16be) 0xFEFF) with [0xfe; 0xff]. cbn [app]. repeat f_equal; lia.
      * intros [= <-]. split; [discriminate|]. destruct l as [|a [|b l]]; cbn [nth] in *; try (rewrite ?andb_false_r in B3; discriminate). exists l. apply andb_true_iff in B3. change (encode (codeOf EUTF16le) 0xFEFF) with [0xff; 0xfe]. cbn [app]. repeat f_equal; lia.
  - intros (N & r & ->). destruct e; [contradiction N; reflexivity| | |]; reflexivity.
Qed.
Lemma detect_mark l f : detectL l = Some f -> bom f = true <-> exists e, marked e l.
Proof.
  unfold detectL. destruct (markL l) as [e|] eqn:M.
  - destruct (getNewLineType _); [|discriminate]. intros [= <-]. split; [|reflexivity]. intros _. exists e. apply markL_iff, M.
  - intros G. rewrite (guess_bom _ _ G). split; [discriminate|]. intros (e & H). apply markL_iff in H. congruence.
Qed.
Lemma detect_mark_enc l f e : detectL l = Some f -> marked e l -> encOf f = e.
Proof. intros D H. apply markL_iff in H. unfold detectL in D. rewrite H in D. destruct (getNewLineType _); [|discriminate]. injection D as <-. reflexivity. Qed.

(* ---- the statistics of a text ---- *)
Definition vchar (p : Z) : dres := {| point := p; stat := Valid; nbytes := 1 |}.
Fixpoint tally (t : stats) (prev : bool) (ps : list Z) : stats :=
  match ps with [] => t | p :: ps => tally (count t (vchar p) prev) (p =? 13) ps end.
Lemma decode_nil e : known e -> stat (decode e []) = Truncated.
Proof. intros [-> |[-> |(be & ->)]]; reflexivity. Qed.
Lemma scanL_text e max : known e -> forall ps, Forall (fits e) ps -> forall fuel t prev n, (Z.to_nat (max - n) < fuel)%nat -> 
  scanL fuel e (encoded e ps) t prev n max = (finish (tally t prev (early e (max - n) ps)), n + zlen (encoded e (early e (max - n) ps))).
Proof.
  intros K ps. induction 1 as [|p ps Hp _ IH]; intros fuel t prev n Hf; (destruct fuel as [|fuel]; [lia|]); cbn [scanL early].
  - cbn [encoded flat_map]. rewrite (decode_nil e K). destruct (n <? max); cbn [tally]; unfold zlen; cbn [length]; f_equal; lia.
  - change (encoded e (p :: ps)) with (encode e p ++ encoded e ps). rewrite (known_roundtrip e p _ K Hp). cbn [stat nbytes point]. pose proof (known_Pd e K p) as Lp. destruct (Z.ltb_spec n max) as [L|L].
    + replace (max - n <=? 0) with false by lia. rewrite skipn_app, skipn_all, Nat.sub_diag. cbn [skipn app]. rewrite IH by lia. replace (max - (n + Z.of_nat (length (encode e p)))) with (max - n - zlen (encode e p)) by (unfold zlen; lia). cbn [tally]. f_equal.
      change (encoded e (p :: ?l)) with (encode e p ++ encoded e l). unfold encoded at 2. cbn [flat_map]. fold (encoded e (early e (max - n - zlen (encode e p)) ps)). rewrite zlen_app. unfold zlen. lia.
    + replace (max - n <=? 0) with true by lia. cbn [tally]. unfold zlen. cbn [encoded flat_map length]. f_equal. lia.
Qed.
Lemma scanned_text e ps : known e -> Forall (fits e) ps ->
  scanned e (encoded e ps) = (finish (tally noStats false (early e NumBytesForAutodetect ps)), zlen (encoded e (early e NumBytesForAutodetect ps))).
Proof. intros K H. unfold scanned. rewrite (scanL_text e _ K ps H) by lia. rewrite Z.sub_0_r, Z.add_0_l. reflexivity. Qed.
Lemma early_prefix e : forall ps n, exists r, ps = early e n ps ++ r.
Proof. induction ps as [|p ps IH]; intros n; [exists []; reflexivity|]. cbn [early]. destruct (n <=? 0); [exists (p :: ps); reflexivity|]. destruct (IH (n - zlen (encode e p))) as (r & E). exists r. cbn [app]. rewrite <- E. reflexivity. Qed.
Lemma early_all (P : Z -> Prop) e n ps : Forall P ps -> Forall P (early e n ps).
Proof. intros H. destruct (early_prefix e ps n) as (r & E). rewrite E in H. apply Forall_app in H. apply H. Qed.
Lemma early_length e : known e -> forall ps n, 0 <= n -> zlen (early e n ps) <= n.
Proof.
  intros K. induction ps as [|p ps IH]; intros n Hn; [unfold zlen; cbn; lia|]. cbn [early]. destruct (Z.leb_spec n 0) as [L|L]; [unfold zlen; cbn; lia|]. pose proof (known_Pd e K p). destruct (Z.leb_spec n (zlen (encode e p))) as [M|M].
  - assert (E : early e (n - zlen (encode e p)) ps = []) by (destruct ps as [|q ps]; [reflexivity|]; cbn [early]; replace (n - zlen (encode e p) <=? 0) with true by lia; reflexivity). rewrite E. unfold zlen. cbn. lia.
  - specialize (IH (n - zlen (encode e p)) ltac:(lia)). unfold zlen in *. cbn [length]. lia.
Qed.
Lemma early_nil e n ps : 0 < n -> early e n ps = [] -> ps = [].
Proof. intros Hn. destruct ps as [|p ps]; [reflexivity|]. cbn [early]. replace (n <=? 0) with false by lia. discriminate. Qed.

(* the numbers *)
Definition num (P : Z -> bool) (ps : list Z) : Z := zlen (filter P ps).
Definition ctl (p : Z) : bool := (p <? 32) && negb (p =? 10) && negb (p =? 9) && negb (p =? 13).
Definition pln (p : Z) : bool := (p <? 127) && negb (ctl p).
Definition wht (p : Z) : bool := (p =? 10) || (p =? 9) || (p =? 32).
Definition ext (p : Z) : bool := 65536 <=? p.
Lemma num_cons P p ps : num P (p :: ps) = (if P p then 1 else 0) + num P ps.
Proof. unfold num, zlen. cbn [filter]. destruct (P p); cbn [length]; lia. Qed.
Lemma num_range P ps : 0 <= num P ps <= zlen ps.
Proof. induction ps as [|p ps IH]; [unfold num, zlen; cbn; lia|]. rewrite num_cons. unfold zlen in *. cbn [length]. destruct (P p); lia. Qed.
Lemma tally_nums ps : forall t prev, let r := tally t prev ps in
  numPoints r = numPoints t + zlen ps /\ numValid r = numValid t + zlen ps /\ numLines r = numLines t + num (Z.eqb 10) ps /\ numControl r = numControl t + num ctl ps /\
  numPlain r = numPlain t + num pln ps /\ numWhite r = numWhite t + num wht ps /\ numExt r = numExt t + num ext ps /\ ooNum r = ooNum t.
Proof.
  induction ps as [|p ps IH]; intros t prev; cbn [tally]; cbv zeta.
  - unfold num, zlen. cbn. rewrite !Z.add_0_r. repeat split.
  - specialize (IH (count t (vchar p) prev) (p =? 13)). cbv zeta in IH. set (r := tally _ _ _) in *. clearbody r. rewrite !num_cons. unfold zlen in *. cbn [length]. destruct IH as (H1 & H2 & H3 & H4 & H5 & H6 & H7 & H8). rewrite H1, H2, H3, H4, H5, H6, H7, H8. clear.
    unfold count, vchar, pln, ctl, wht, ext. cbn [stat point]. rewrite (Z.eqb_sym 10 p). unfold plus.
    destruct (p =? 10) eqn:E10; [assert (p = 10) as -> by lia; cbn -[Z.of_nat Z.add num]; destruct prev; cbn -[Z.of_nat Z.add num]; repeat split; lia|]. destruct (p =? 9) eqn:E9; [assert (p = 9) as -> by lia; cbn -[Z.of_nat Z.add num]; repeat split; lia|]. destruct (p =? 13) eqn:E13; [assert (p = 13) as -> by lia; cbn -[Z.of_nat Z.add num]; repeat split; lia|].
    destruct (p <? 32) eqn:L32; [replace (p <? 127) with true by lia; replace (65536 <=? p) with false by lia; replace (p =? 32) with false by lia; cbn -[Z.of_nat Z.add num]; repeat split; lia|].
    destruct (p <? 127) eqn:L127; [replace (65536 <=? p) with false by lia; destruct (p =? 32); cbn -[Z.of_nat Z.add num]; repeat split; lia|]. replace (p =? 32) with false by lia. destruct (65536 <=? p); cbn -[Z.of_nat Z.add num]; repeat split; lia.
Qed.
(* line endings *)
Lemma tally_crlf_app ps : forall t prev, numCRLF (tally t prev ps) = numCRLF t + numCRLF (tally noStats prev ps).
Proof.
  assert (C : forall t d prev, numCRLF (count t d prev) = numCRLF t + numCRLF (count noStats d prev)).
  { intros t d prev. unfold count. destruct (stat d); [cbn; lia|cbn; lia|]. destruct (point d <? 32); [destruct (point d =? 10); [cbn; lia|]; destruct (point d =? 9); [cbn; lia|]; destruct (point d =? 13); cbn; lia|]. destruct (point d <? 127); [cbn; lia|]. destruct (65536 <=? point d); cbn; lia. }
  induction ps as [|p ps IH]; intros t prev; cbn [tally]; [cbn; lia|]. rewrite IH, C, (IH (count noStats _ _)). lia.
Qed.
Lemma crlf_cons prev p ps : numCRLF (tally noStats prev (p :: ps)) = (if (p =? 10) && prev then 1 else 0) + numCRLF (tally noStats (p =? 13) ps).
Proof.
  cbn [tally]. rewrite tally_crlf_app. f_equal. unfold count, vchar. cbn [stat point]. destruct (Z.eqb_spec p 10) as [->|]; [destruct prev; reflexivity|]. cbn [andb].
  destruct (p <? 32); [destruct (p =? 9); [reflexivity|]; destruct (p =? 13); reflexivity|]. destruct (p <? 127); [reflexivity|]. destruct (65536 <=? p); reflexivity.
Qed.
Fixpoint pairs (prev : bool) (ps : list Z) : Prop :=
  match ps with [] => True | p :: ps => (p = 10 -> prev = true) /\ pairs (p =? 13) ps end.
Lemma pairs_crlf ps : forall prev, pairs prev ps -> numCRLF (tally noStats prev ps) = num (Z.eqb 10) ps.
Proof.
  induction ps as [|p ps IH]; intros prev H; [reflexivity|]. destruct H as (H1 & H2). rewrite crlf_cons, num_cons, (IH _ H2). rewrite (Z.eqb_sym 10 p). destruct (Z.eqb_spec p 10) as [E|E]; [rewrite (H1 E); reflexivity|]. reflexivity.
Qed.
Lemma none_crlf ps : Forall (fun p => p <> 13) ps -> numCRLF (tally noStats false ps) = 0.
Proof. induction 1 as [|p ps H _ IH]; [reflexivity|]. rewrite crlf_cons, andb_false_r. replace (p =? 13) with false by lia. rewrite IH. reflexivity. Qed.
Lemma pairs_prefix a b : forall prev, pairs prev (a ++ b) -> pairs prev a.
Proof. induction a as [|p a IH]; intros prev H; [exact I|]. destruct H as (H1 & H2). split; [exact H1|apply IH, H2]. Qed.
Lemma newlines_pairs ps : forall prev, pairs prev (newlines true ps).
Proof.
  induction ps as [|p ps IH]; intros prev; [exact I|]. change (newlines true (p :: ps)) with ((if p =? 13 then [] else if p =? 10 then [13; 10] else [p]) ++ newlines true ps).
  destruct (p =? 13) eqn:E; [apply IH|]. destruct (Z.eqb_spec p 10) as [F|F]; cbn [app pairs]; [split; [lia|]; split; [reflexivity|]; apply IH|]. split; [contradiction|apply IH].
Qed.
Lemma newlines_none ps : Forall (fun p => p <> 13) (newlines false ps).
Proof.
  induction ps as [|p ps IH]; [constructor|]. change (newlines false (p :: ps)) with ((if p =? 13 then [] else if p =? 10 then [10] else [p]) ++ newlines false ps). apply Forall_app. split; [|exact IH].
  destruct (Z.eqb_spec p 13); [constructor|]. destruct (Z.eqb_spec p 10); repeat constructor; lia.
Qed.
Lemma num_lf ps : num (Z.eqb 10) ps = 0 <-> hasLF ps = false.
Proof. induction ps as [|p ps IH]; [split; reflexivity|]. rewrite num_cons. cbn [hasLF existsb]. fold (hasLF ps). pose proof (num_range (Z.eqb 10) ps). destruct (10 =? p); cbn [orb]; [split; [lia|discriminate]|]. rewrite <- IH. lia. Qed.
Lemma newLine_text e m cr ps : known e ->
  getNewLineType (finish (tally noStats false (early e NumBytesForAutodetect (withMark m (newlines cr ps))))) = Some (cr && hasLF (early e NumBytesForAutodetect (withMark m (newlines cr ps)))).
Proof.
  intros K. set (w := withMark m (newlines cr ps)). pose proof (early_length e K w NumBytesForAutodetect ltac:(unfold NumBytesForAutodetect; lia)) as L. destruct (early_prefix e w NumBytesForAutodetect) as (r & E). set (q := early e NumBytesForAutodetect w) in *.
  pose proof (tally_nums q noStats false) as T. cbv zeta in T. destruct T as (_ & _ & T & _). unfold getNewLineType, finish. cbn [numCRLF numLines]. rewrite T. cbn [noStats numLines]. rewrite Z.add_0_l. pose proof (num_range (Z.eqb 10) q) as R. unfold NumBytesForAutodetect in L. destruct cr; cbn [andb].
  - assert (P : pairs false q). { apply (pairs_prefix q r). rewrite <- E. unfold w, withMark. destruct m; [split; [discriminate|]|]; apply newlines_pairs. }
    rewrite (pairs_crlf q false P). replace (num (Z.eqb 10) q <=? num (Z.eqb 10) q) with true by lia. replace (u32 (num (Z.eqb 10) q * 2) <? num (Z.eqb 10) q) with false by (unfold u32; rewrite Z.mod_small by lia; lia). rewrite orb_false_r. f_equal.
    pose proof (num_lf q) as N. destruct (hasLF q); [assert (num (Z.eqb 10) q <> 0) by (intros X; apply N in X; discriminate); replace (num (Z.eqb 10) q =? 0) with false by lia; reflexivity|]. rewrite (proj2 N eq_refl). reflexivity.
  - assert (P : Forall (fun p => p <> 13) q). { assert (W : Forall (fun p => p <> 13) w) by (unfold w, withMark; apply Forall_app; split; [destruct m; repeat constructor; discriminate|apply newlines_none]). rewrite E in W. apply Forall_app in W. apply W. }
    rewrite (none_crlf q P). replace (0 <=? num (Z.eqb 10) q) with true by lia. reflexivity.
Qed.
Lemma file_points f ps : theFile f ps = encoded (codeOf (encOf f)) (withMark (bom f) (newlines (crlf f) ps)).
Proof. reflexivity. Qed.
Lemma fits_mark f ps : (bom f = true -> encOf f <> EBytes) -> Forall (fits (codeOf (encOf f))) ps -> Forall (fits (codeOf (encOf f))) (withMark (bom f) (newlines (crlf f) ps)).
Proof.
  intros Hb Hp. apply Forall_app. split; [|apply fits_newlines, Hp]. destruct (bom f); [|constructor]. constructor; [|constructor]. split; [unfold scalar; lia|]. intros X. apply code_bytes in X. contradiction (Hb eq_refl X).
Qed.
Lemma file_scanned f ps : (bom f = true -> encOf f <> EBytes) -> Forall (fits (codeOf (encOf f))) ps -> getNewLineType (fst (scanned (encodingFromEnum (encOf f)) (theFile f ps))) = Some (crlf (found f ps)).
Proof. intros Hb Hp. rewrite enum_code, file_points, (scanned_text _ _ (known_code _) (fits_mark f ps Hb Hp)). cbn [fst]. apply (newLine_text _ _ _ _ (known_code _)). Qed.

(* with a mark *)
Theorem detect_marked f ps : bom f = true -> encOf f <> EBytes -> Forall scalar ps -> detectL (theFile f ps) = Some (found f ps).
Proof.
  intros B N Hp. assert (F : Forall (fits (codeOf (encOf f))) ps) by (revert Hp; apply Forall_impl; intros p H; split; [exact H|]; intros X; apply code_bytes in X; contradiction).
  assert (M : markL (theFile f ps) = Some (encOf f)). { apply markL_iff. split; [exact N|]. rewrite file_points, B. exists (encoded (codeOf (encOf f)) (newlines (crlf f) ps)). reflexivity. }
  unfold detectL. rewrite M, (file_scanned f ps (fun _ => N) F). unfold found. rewrite B. reflexivity.
Qed.

(* UTF-8 without a mark *)
Lemma utf8_marked ps e : Forall scalar ps -> markL (encoded Enc_UTF8 ps) = Some e -> startsWithMark ps.
Proof.
  intros Hp M. apply markL_iff in M. destruct M as (N & r & E). destruct ps as [|p ps]; [destruct e; discriminate|]. inversion Hp; subst.
  assert (K : utf8_decode (encoded Enc_UTF8 (p :: ps)) = {| point := p; stat := Valid; nbytes := length (utf8_encode p) |}) by (apply (known_roundtrip Enc_UTF8 p); [apply known_8|split; [assumption|intros X; discriminate (code_bytes EUTF8 X)]]).
  rewrite E in K. exists ps. destruct e; [contradiction N; reflexivity| | |].
  - apply (f_equal point) in K. vm_compute in K. rewrite <- K. reflexivity.
  - apply (f_equal stat) in K. vm_compute in K. discriminate.
  - apply (f_equal stat) in K. vm_compute in K. discriminate.
Qed.
Theorem detect_utf8 cr ps : let f := mkf EUTF8 cr false in Forall scalar ps -> ~ startsWithMark (newlines cr ps) -> Forall (fun p => ~ isControl p) (early Enc_UTF8 NumBytesForAutodetect (newlines cr ps)) ->
  detectL (theFile f ps) = Some (found f ps).
Proof.
  intros f Hp Hm Hc. assert (F : Forall (fits Enc_UTF8) ps) by (revert Hp; apply Forall_impl; intros p H; split; [exact H|]; intros X; discriminate (code_bytes EUTF8 X)).
  pose proof (fits_newlines EUTF8 cr ps F) as Fn. assert (Sn : Forall scalar (newlines cr ps)) by exact (fits_scalar _ _ Fn).
  unfold detectL. destruct (markL (theFile f ps)) as [e|] eqn:M; [contradiction Hm; apply (utf8_marked _ e Sn); exact M|].
  unfold guessL. pose proof (file_scanned f ps ltac:(discriminate) F) as Nl. cbn [f encOf encodingFromEnum] in Nl. change (theFile f ps) with (encoded Enc_UTF8 (newlines cr ps)) in *. rewrite (scanned_text _ _ known_8 Fn) in *. cbn [fst] in Nl. set (q := early Enc_UTF8 NumBytesForAutodetect (newlines cr ps)) in *.
  destruct (Z.eqb_spec (zlen (encoded Enc_UTF8 q)) 0) as [E0|E0].
  - assert (q = []) as Eq. { destruct q as [|p q0]; [reflexivity|]. pose proof (known_Pd _ known_8 p). unfold encoded, zlen in E0. cbn [flat_map] in E0. rewrite app_length in E0. lia. }
    unfold found, f. cbn [encOf crlf bom codeOf withMark app]. fold q. unfold withMark. cbn [app]. fold q. rewrite Eq. rewrite andb_false_r. reflexivity.
  - pose proof (tally_nums q noStats false) as T. cbv zeta in T. destruct T as (T1 & T2 & _ & T4 & _). unfold finish at 1 2. unfold numInvalid. cbn [numPoints numValid numControl]. rewrite T1, T2, T4. cbn [noStats numPoints numValid numControl].
    assert (C : num ctl q = 0). { clear - Hc Sn. assert (Sq : Forall scalar q) by apply early_all, Sn. clearbody q. induction Hc as [|p q H _ IH]; [reflexivity|]. inversion Sq; subst. rewrite num_cons, (IH H3). destruct (ctl p) eqn:E; [|reflexivity]. exfalso. apply H. unfold ctl in E. unfold isControl, scalar in *. lia. }
    rewrite C, Z.sub_diag. change (u32 0) with 0. cbn [Z.eqb andb Z.add]. rewrite Nl. reflexivity.
Qed.

(* ---- scores ---- *)
Lemma rdiv_pos a b : 0 < b <= a -> 1 <= rdiv a b.
Proof. intros H. unfold rdiv. assert (1 <= a / b) by (apply Z.div_le_lower_bound; lia). destruct (_ || _); lia. Qed.
Lemma rnd_sgn m e : Z.sgn (fst (rnd (m, e))) = Z.sgn m.
Proof.
  unfold rnd. cbn [fst]. rewrite Z.sgn_mul, Z.sgn_sgn. destruct (Z.eq_dec m 0) as [->|H]; [reflexivity|]. set (k := Z.max 0 (Z.log2 (Z.abs m) - 23)).
  assert (P : 1 <= rdiv (Z.abs m) (2 ^ k)). { apply rdiv_pos. split; [apply Z.pow_pos_nonneg; lia|]. pose proof (Z.log2_spec (Z.abs m) ltac:(lia)) as L. pose proof (Z.log2_nonneg (Z.abs m)). destruct (Z.le_gt_cases (Z.log2 (Z.abs m)) 23); [replace k with 0 by lia; cbn; lia|]. apply Z.le_trans with (2 ^ Z.log2 (Z.abs m)); [apply Z.pow_le_mono_r; lia|lia]. }
  replace (Z.sgn (rdiv (Z.abs m) (2 ^ k))) with 1 by (symmetry; apply Z.sgn_pos; lia). lia.
Qed.
Lemma recip_pos n : 0 < n -> 0 < fst (recip n).
Proof. intros H. unfold recip. cbn [fst]. apply Z.lt_le_trans with 1; [lia|]. apply rdiv_pos. split; [exact H|]. pose proof (Z.log2_spec n H). apply Z.le_trans with (2 ^ Z.succ (Z.log2 n)); [lia|]. apply Z.pow_le_mono_r; [lia|]. pose proof (Z.log2_nonneg n). lia. Qed.
Lemma score_sgn t : 0 < fst (ooNum t) -> Z.sgn (fst (getScore t)) = Z.sgn (5 * numWhite t + 2 * numPlain t - 200 * numInvalid t - 100 * numControl t + 10 * numExt t).
Proof. intros H. unfold getScore, fmul. cbn [fst snd]. rewrite rnd_sgn, Z.sgn_mul. replace (Z.sgn (fst (ooNum t))) with 1 by (symmetry; apply Z.sgn_pos, H). lia. Qed.
Lemma fle_true x y : Z.sgn (fst x) <= 0 -> 0 <= Z.sgn (fst y) -> fle x y = true.
Proof.
  intros H1 H2. unfold fle. apply Z.leb_le. assert (0 < 2 ^ (snd x - Z.min (snd x) (snd y))) by (apply Z.pow_pos_nonneg; lia). assert (0 < 2 ^ (snd y - Z.min (snd x) (snd y))) by (apply Z.pow_pos_nonneg; lia). assert (fst x <= 0) by lia. assert (0 <= fst y) by lia.
  apply Z.le_trans with 0; [apply Z.mul_nonpos_nonneg; lia|apply Z.mul_nonneg_nonneg; lia].
Qed.
Lemma fle_false x y : 0 < Z.sgn (fst x) -> Z.sgn (fst y) <= 0 -> fle x y = false.
Proof.
  intros H1 H2. unfold fle. apply Z.leb_gt. assert (0 < 2 ^ (snd x - Z.min (snd x) (snd y))) by (apply Z.pow_pos_nonneg; lia). assert (0 < 2 ^ (snd y - Z.min (snd x) (snd y))) by (apply Z.pow_pos_nonneg; lia). assert (0 < fst x) by lia. assert (fst y <= 0) by lia.
  apply Z.le_lt_trans with 0; [apply Z.mul_nonpos_nonneg; lia|apply Z.mul_pos_pos; lia].
Qed.

(* UTF-16 without a mark *)
Lemma plain_nums q : Forall isPlain q -> num ctl q = 0 /\ num pln q = zlen q /\ num ext q = 0.
Proof.
  induction 1 as [|p q H _ (I1 & I2 & I3)]; [repeat split|]. rewrite !num_cons, I1, I2, I3. unfold isPlain in H. unfold zlen. cbn [length]. unfold pln, ctl, ext.
  assert (X : (p <? 32) && negb (p =? 10) && negb (p =? 9) && negb (p =? 13) = false) by lia. rewrite X. replace (p <? 127) with true by lia. replace (65536 <=? p) with false by lia. cbn [andb negb]. repeat split; lia.
Qed.
Lemma swap_nums q : Forall isPlain q -> let w := map (fun p => p * 256) q in num ctl w = 0 /\ num pln w = 0 /\ num ext w = 0 /\ num wht w = 0.
Proof.
  induction 1 as [|p q H _ (I1 & I2 & I3 & I4)]; cbn [map]; cbv zeta; [repeat split|]. rewrite !num_cons. cbv zeta in *. rewrite I1, I2, I3, I4. unfold isPlain in H. unfold pln, ctl, ext, wht. 
  replace (p * 256 <? 32) with false by lia. replace (p * 256 <? 127) with false by lia. replace (65536 <=? p * 256) with false by lia. replace (p * 256 =? 10) with false by lia. replace (p * 256 =? 9) with false by lia. replace (p * 256 =? 32) with false by lia. repeat split.
Qed.
Definition unit16 (be : bool) (p : Z) : list Z := if be then [0; p] else [p; 0].
Lemma encode16 be p : 0 <= p < 256 -> utf16_encode be p = unit16 be p.
Proof. intros H. rewrite utf16_encode_layout by lia. unfold utf16_layout. replace (p <? 0x10000) with true by lia. unfold unit_bytes, unit16. rewrite Z.div_small, Z.mod_small by lia. reflexivity. Qed.
Lemma encode16_swap be p : 0 <= p < 256 -> utf16_encode (negb be) (p * 256) = unit16 be p.
Proof. intros H. rewrite utf16_encode_layout by lia. unfold utf16_layout. replace (p * 256 <? 0x10000) with true by lia. unfold unit_bytes, unit16. rewrite Z.div_mul, Z.mod_mul by lia. destruct be; reflexivity. Qed.
Lemma text16 be ps : Forall isPlain ps -> encoded (Enc_UTF16 be) ps = flat_map (unit16 be) ps /\ encoded (Enc_UTF16 (negb be)) (map (fun p => p * 256) ps) = flat_map (unit16 be) ps /\ encoded Enc_UTF8 (flat_map (unit16 be) ps) = flat_map (unit16 be) ps.
Proof.
  induction 1 as [|p ps H _ (I1 & I2 & I3)]; [repeat split|]. assert (R : 0 <= p < 128) by (unfold isPlain in H; lia). cbn [map encoded flat_map]. unfold encoded in *. rewrite I1, I2, flat_map_app, I3. cbn [encode Enc_UTF16]. rewrite encode16, encode16_swap by lia. split; [reflexivity|]. split; [reflexivity|]. f_equal.
  unfold unit16. destruct be; cbn [flat_map encode Enc_UTF8]; rewrite !utf8_encode_arith by lia; replace (p <? 0x80) with true by lia; reflexivity.
Qed.
(* as bytes: half of the early part are zeros *)
Lemma zeros be : forall ps n, Forall isPlain ps -> Z.even n = true ->
  let q := early Enc_UTF8 n (flat_map (unit16 be) ps) in
  zlen (encoded Enc_UTF8 q) = zlen q /\ num ctl q = num pln q /\ num pln q + num ctl q = zlen q /\ num wht q <= num pln q /\ num ext q = 0.
Proof.
  induction ps as [|p ps IH]; intros n H Ev; [unfold num, zlen; cbn; lia|]. inversion H as [|x y Hp Hr]; subst. assert (R : 0 <= p < 128) by (unfold isPlain in Hp; lia). cbv zeta.
  assert (E1 : forall x, 0 <= x < 128 -> encode Enc_UTF8 x = [x]) by (intros x Hx; cbn [encode Enc_UTF8]; rewrite utf8_encode_arith by lia; replace (x <? 0x80) with true by lia; reflexivity).
  destruct (Z.leb_spec n 0) as [L|L].
  - assert (E : early Enc_UTF8 n (flat_map (unit16 be) (p :: ps)) = []) by (cbn [flat_map]; unfold unit16; destruct be; cbn [app early]; replace (n <=? 0) with true by lia; reflexivity). rewrite E. unfold num, zlen. cbn. lia.
  - assert (n <> 1) by (intros ->; discriminate). specialize (IH (n - 2) Hr ltac:(rewrite Z.even_sub, Ev; reflexivity)). cbv zeta in IH. set (q := early Enc_UTF8 (n - 2) (flat_map (unit16 be) ps)) in *.
    assert (E : early Enc_UTF8 n (flat_map (unit16 be) (p :: ps)) = unit16 be p ++ q).
    { cbn [flat_map]. unfold unit16 at 1 3. destruct be; cbn [app early]; replace (n <=? 0) with false by lia; rewrite !E1 by lia; change (zlen [0]) with 1; change (zlen [p]) with 1; replace (n - 1 <=? 0) with false by lia; replace (n - 1 - 1) with (n - 2) by lia; reflexivity. }
    rewrite E. assert (C0 : ctl 0 = true /\ pln 0 = false /\ wht 0 = false /\ ext 0 = false) by (repeat split). destruct C0 as (C1 & C2 & C3 & C4).
    assert (Cp : ctl p = false /\ pln p = true /\ ext p = false). { unfold pln, ctl, ext. unfold isPlain in Hp. assert (X : (p <? 32) && negb (p =? 10) && negb (p =? 9) && negb (p =? 13) = false) by lia. rewrite X. replace (p <? 127) with true by lia. replace (65536 <=? p) with false by lia. repeat split. }
    destruct Cp as (D1 & D2 & D3). destruct IH as (I1 & I2 & I3 & I4 & I5).
    assert (Le : zlen (encoded Enc_UTF8 (unit16 be p ++ q)) = 2 + zlen (encoded Enc_UTF8 q)). { unfold encoded. rewrite flat_map_app. fold (encoded Enc_UTF8 q). rewrite zlen_app. f_equal. unfold unit16. destruct be; cbn [flat_map]; rewrite !E1 by lia; reflexivity. }
    rewrite Le, I1. unfold unit16. destruct be; cbn [app]; rewrite !num_cons, ?C1, ?C2, ?C3, ?C4, ?D1, ?D2, ?D3; unfold zlen in *; cbn [length]; destruct (wht p); repeat split; lia.
Qed.
Lemma plain_newlines cr ps : Forall isPlain ps -> Forall isPlain (newlines cr ps).
Proof. apply newlines_all; unfold isPlain; lia. Qed.
Lemma points_finish t : numPoints (finish t) = numPoints t /\ numValid (finish t) = numValid t /\ numLines (finish t) = numLines t /\ numControl (finish t) = numControl t /\ numPlain (finish t) = numPlain t /\ numWhite (finish t) = numWhite t /\ numExt (finish t) = numExt t.
Proof. repeat split. Qed.
Theorem detect_utf16 be cr ps : let f := mkf (wide be) cr false in Forall isPlain ps -> newlines cr ps <> [] -> detectL (theFile f ps) = Some (found f ps).
Proof.
  intros f Hp Hn. pose proof (plain_newlines cr ps Hp) as Hq. set (w := newlines cr ps) in *. destruct (text16 be w Hq) as (X1 & X2 & X3). set (b := flat_map (unit16 be) w) in *.
  assert (Ef : theFile f ps = b). { rewrite <- X1. unfold theFile, f, wide. destruct be; reflexivity. }
  assert (Fp : Forall (fits (codeOf (encOf f))) ps). { revert Hp. apply Forall_impl. intros p H. split; [unfold isPlain in H; unfold scalar; lia|]. intros X. apply code_bytes in X. unfold f, wide in X. destruct be; discriminate. }
  pose proof (file_scanned f ps ltac:(discriminate) Fp) as Nl.
  assert (K8 : Forall (fits Enc_UTF8) b). { unfold b. clear - Hq. induction Hq as [|p w H _ IH]; [constructor|]. cbn [flat_map]. apply Forall_app. split; [|exact IH]. unfold isPlain in H. unfold unit16. assert (A : forall x, 0 <= x < 128 -> fits Enc_UTF8 x) by (intros x Hx; split; [unfold scalar; lia|intros X; discriminate (code_bytes EUTF8 X)]). destruct be; (apply Forall_cons; [apply A; lia|apply Forall_cons; [apply A; lia|apply Forall_nil]]). }
  assert (Kr : forall c, Forall (fits (Enc_UTF16 c)) w). { intros c. revert Hq. apply Forall_impl. intros p H. split; [unfold isPlain in H; unfold scalar; lia|]. intros X. destruct c; [discriminate (code_bytes EUTF16be X)|discriminate (code_bytes EUTF16le X)]. }
  assert (Kw : forall c, Forall (fits (Enc_UTF16 c)) (map (fun p => p * 256) w)). { intros c. clear - Hq. induction Hq as [|p w H _ IH]; [constructor|]. cbn [map]. constructor; [|exact IH]. split; [unfold isPlain in H; unfold scalar; lia|]. intros X. destruct c; [discriminate (code_bytes EUTF16be X)|discriminate (code_bytes EUTF16le X)]. }
  assert (Lo : exists p w', w = p :: w' /\ isPlain p). { destruct w as [|p w']; [contradiction Hn; reflexivity|]. inversion Hq; subst. exists p, w'. split; [reflexivity|assumption]. }
  assert (M : markL b = None). { destruct Lo as (p & w' & E & Pp). unfold b. rewrite E. cbn [flat_map]. unfold isPlain in Pp. unfold unit16 at 1, markL. destruct be; cbn [app nth]; [reflexivity|]. replace (p =? 0xef) with false by lia. replace (p =? 0xfe) with false by lia. replace (p =? 0xff) with false by lia. reflexivity. }
  rewrite Ef in *. unfold detectL. rewrite M. unfold guessL. rewrite <- X3 at 1. rewrite (scanned_text _ _ known_8 K8).
  destruct (zeros be w NumBytesForAutodetect Hq eq_refl) as (Z1 & Z2 & Z3 & Z4 & Z5). fold b in Z1, Z2, Z3, Z4, Z5. set (q8 := early Enc_UTF8 NumBytesForAutodetect b) in *.
  pose proof (early_length _ known_8 b NumBytesForAutodetect ltac:(unfold NumBytesForAutodetect; lia)) as L8. fold q8 in L8. unfold NumBytesForAutodetect in L8.
  assert (P8 : 0 < zlen q8). { assert (b <> []) by (destruct Lo as (p & w' & E & _); unfold b; rewrite E; unfold unit16; destruct be; discriminate). assert (q8 <> []) by (intros E; apply early_nil in E; [contradiction|unfold NumBytesForAutodetect; lia]). destruct q8; [contradiction|]. unfold zlen. cbn [length]. lia. }
  replace (zlen (encoded Enc_UTF8 q8) =? 0) with false by lia.
  pose proof (tally_nums q8 noStats false) as T. cbv zeta in T. set (t8 := tally noStats false q8) in *. destruct T as (T1 & T2 & T3 & T4 & T5 & T6 & T7 & T8). cbn [noStats numPoints numValid numLines numControl numPlain numWhite numExt ooNum] in *. rewrite Z.add_0_l in *.
  replace (numControl (finish t8) =? 0) with false by (cbn [finish numControl]; lia). rewrite andb_false_r.
  assert (I8 : numInvalid (finish t8) = 0). { unfold numInvalid. cbn [finish numPoints numValid]. rewrite T1, T2, Z.sub_diag. reflexivity. }
  assert (C8 : exists t8' e8, choose8 (finish t8) (zlen (encoded Enc_UTF8 q8)) = (t8', e8) /\ Z.sgn (fst (getScore t8')) < 0).
  { unfold choose8. replace (zlen (encoded Enc_UTF8 q8) - numPlain (finish t8) - numControl (finish t8)) with 0 by (cbn [finish numPlain numControl]; lia). change (u32 0) with 0. rewrite I8. change (fmul (0, 0) f02) with (0, -26). change (fle (0, -26) (0, 0)) with true. eexists. eexists. split; [reflexivity|].
    rewrite score_sgn; cbn [ooNum numWhite numPlain numControl numExt numInvalid numPoints numValid finish].
    - unfold numInvalid. cbn [numPoints numValid]. rewrite Z.sub_diag. change (u32 0) with 0. rewrite T4, T5, T6, T7, Z5. apply Z.sgn_neg_iff || idtac. assert (5 * num wht q8 + 2 * num pln q8 - 200 * 0 - 100 * num ctl q8 + 10 * 0 < 0) by lia. lia.
    - replace (0 <? numPoints t8) with true by lia. apply recip_pos. lia. }
  destruct C8 as (t8' & e8 & -> & S8).
  assert (R : forall c, c = be -> let t := fst (scanned (Enc_UTF16 c) b) in 0 < Z.sgn (fst (getScore t))).
  { intros c -> t. unfold t. rewrite <- X1, (scanned_text _ _ (known_16 be) (Kr be)). cbn [fst]. set (q := early (Enc_UTF16 be) NumBytesForAutodetect w). assert (Pq : Forall isPlain q) by apply early_all, Hq. destruct (plain_nums q Pq) as (N1 & N2 & N3).
    pose proof (tally_nums q noStats false) as T. cbv zeta in T. destruct T as (U1 & U2 & U3 & U4 & U5 & U6 & U7 & U8). cbn [noStats numPoints numValid numLines numControl numPlain numWhite numExt ooNum] in *. rewrite Z.add_0_l in *.
    assert (0 < zlen q). { assert (q <> []) by (intros E; apply early_nil in E; [contradiction|unfold NumBytesForAutodetect; lia]). destruct q; [contradiction|]. unfold zlen. cbn [length]. lia. }
    pose proof (num_range wht q). rewrite score_sgn; cbn [ooNum numWhite numPlain numControl numExt numPoints numValid finish].
    - unfold numInvalid. cbn [numPoints numValid finish]. rewrite U1, U2, Z.sub_diag. change (u32 0) with 0. rewrite U4, U5, U6, U7, N1, N2, N3. lia.
    - replace (0 <? numPoints (tally noStats false q)) with true by lia. apply recip_pos. lia. }
  assert (W : forall c, c = negb be -> let t := fst (scanned (Enc_UTF16 c) b) in Z.sgn (fst (getScore t)) = 0).
  { intros c -> t. unfold t. rewrite <- X2, (scanned_text _ _ (known_16 (negb be)) (Kw (negb be))). cbn [fst]. set (q := early (Enc_UTF16 (negb be)) NumBytesForAutodetect (map (fun p => p * 256) w)).
    assert (Pq : exists q0, q = map (fun p => p * 256) q0 /\ Forall isPlain q0). { destruct (early_prefix (Enc_UTF16 (negb be)) (map (fun p => p * 256) w) NumBytesForAutodetect) as (r & E). fold q in E. exists (firstn (length q) w). split; [rewrite <- firstn_map, E, firstn_app, firstn_all, Nat.sub_diag; cbn [firstn]; rewrite app_nil_r; reflexivity|]. rewrite <- (firstn_skipn (length q) w) in Hq. apply Forall_app in Hq. apply Hq. }
    destruct Pq as (q0 & Eq & Pq). pose proof (swap_nums q0 Pq) as Sw. cbv zeta in Sw. rewrite <- Eq in Sw. destruct Sw as (N1 & N2 & N3 & N4).
    pose proof (tally_nums q noStats false) as T. cbv zeta in T. destruct T as (U1 & U2 & U3 & U4 & U5 & U6 & U7 & U8). cbn [noStats numPoints numValid numLines numControl numPlain numWhite numExt ooNum] in *. rewrite Z.add_0_l in *.
    assert (0 < zlen q). { assert (q <> []). { intros E. apply early_nil in E; [|unfold NumBytesForAutodetect; lia]. destruct w; [contradiction Hn; reflexivity|discriminate]. } destruct q; [contradiction|]. unfold zlen. cbn [length]. lia. }
    rewrite score_sgn; cbn [ooNum numWhite numPlain numControl numExt numPoints numValid finish].
    - unfold numInvalid. cbn [numPoints numValid finish]. rewrite U1, U2, Z.sub_diag. change (u32 0) with 0. rewrite U4, U5, U6, U7, N1, N2, N3, N4. reflexivity.
    - replace (0 <? numPoints (tally noStats false q)) with true by lia. apply recip_pos. lia. }
  cbv zeta in R, W. unfold choose. unfold found. cbn [f encOf crlf bom] in *. destruct be; cbn [wide encodingFromEnum] in *.
  - rewrite (fle_false (getScore (fst (scanned (Enc_UTF16 true) b))) (getScore (fst (scanned (Enc_UTF16 false) b)))); [|apply R; reflexivity|rewrite (W false eq_refl); lia].
    rewrite (fle_false _ (getScore t8')); [|apply R; reflexivity|lia]. rewrite Nl. reflexivity.
  - rewrite (fle_true (getScore (fst (scanned (Enc_UTF16 true) b))) (getScore (fst (scanned (Enc_UTF16 false) b)))); [|rewrite (W true eq_refl); lia|pose proof (R false eq_refl); lia].
    rewrite (fle_false _ (getScore t8')); [|apply R; reflexivity|lia]. rewrite Nl. reflexivity.
Qed.
(* a stray byte *)
Lemma scanL_stop fuel e l t prev n max : stat (decode e l) = Truncated -> scanL (S fuel) e l t prev n max = (finish t, n).
Proof. intros H. cbn [scanL]. rewrite H. destruct (n <? max); reflexivity. Qed.
Lemma detect_stray b l : bytes_ok (b :: l) -> announced b = None -> b < 0xfe -> detectL (b :: l) = Some (mkf EUTF8 false false).
Proof.
  intros H A L. assert (M : markL (b :: l) = None). { unfold markL. cbn [nth]. replace (b =? 0xfe) with false by lia. replace (b =? 0xff) with false by lia. cbn [andb]. destruct (Z.eqb_spec b 0xef) as [->|]; [discriminate A|reflexivity]. }
  unfold detectL. rewrite M. unfold guessL, scanned. rewrite scanL_stop; [reflexivity|]. cbn [decode Enc_UTF8]. rewrite (utf8_stray_truncated b l H A). reflexivity.
Qed.

(* ---- loading what is detected ---- *)
Section Auto.
Context (cut1 cut2 : nat -> nat) (rooms1 rooms2 : nat -> nat) (blk : Z) (Hblk : 100 < blk < 2 ^ 32) (Hr1 : forall k, (0 < rooms1 k)%nat) (Hr2 : forall k, (0 < rooms2 k)%nat).

Theorem load_file f ps : (bom f = true -> encOf f <> EBytes) -> Forall (fits (codeOf (encOf f))) ps -> zlen (theFile f ps) < 2 ^ 63 ->
  (encOf f = EUTF8 \/ zlen (theFile f ps) + 4 <= blk) -> loadText cut1 cut2 rooms1 rooms2 blk f (theFile f ps) = Some (inMemory ps).
Proof.
  intros Hb Hp Hz Hs. destruct (file_text f ps Hb Hp) as (l & U & Wh & E). rewrite <- E. apply load_right; try assumption; [apply file_bytes; assumption|]. intros N. split; [destruct Hs; [contradiction|assumption]|exact Wh].
Qed.
Theorem auto_file f ps : (bom f = true -> encOf f <> EBytes) -> Forall (fits (codeOf (encOf f))) ps -> zlen (theFile f ps) < 2 ^ 63 -> NumBytesForAutodetect + 3 <= blk ->
  (encOf f = EUTF8 \/ zlen (theFile f ps) + 4 <= blk) -> detectL (theFile f ps) = Some (found f ps) ->
  loadTextAutodetect cut1 cut2 rooms1 rooms2 blk (theFile f ps) = Some (inMemory ps, found f ps).
Proof.
  intros Hb Hp Hz Hbig Hs D. destruct (file_text f ps Hb Hp) as (l & U & Wh & E). rewrite <- E. change (plainText f l) with (plainText (found f ps) l). apply autoload_right; try assumption; [apply file_bytes; assumption|]. intros N. split; [destruct Hs; [contradiction|assumption]|exact Wh].
Qed.
Lemma scalar_fits f ps : encOf f <> EBytes -> Forall scalar ps -> Forall (fits (codeOf (encOf f))) ps.
Proof. intros N. apply Forall_impl. intros p H. split; [exact H|]. intros X. apply code_bytes in X. contradiction. Qed.
Theorem auto_marked f ps : bom f = true -> encOf f <> EBytes -> Forall scalar ps -> zlen (theFile f ps) < 2 ^ 63 -> NumBytesForAutodetect + 3 <= blk -> (encOf f = EUTF8 \/ zlen (theFile f ps) + 4 <= blk) ->
  loadTextAutodetect cut1 cut2 rooms1 rooms2 blk (theFile f ps) = Some (inMemory ps, found f ps).
Proof. intros B N Hp Hz Hbig Hs. apply auto_file; try assumption; [intros _; exact N|apply scalar_fits; assumption|apply detect_marked; assumption]. Qed.
Theorem auto_utf8 cr ps : let f := mkf EUTF8 cr false in Forall scalar ps -> ~ startsWithMark (newlines cr ps) -> Forall (fun p => ~ isControl p) (early Enc_UTF8 NumBytesForAutodetect (newlines cr ps)) ->
  zlen (theFile f ps) < 2 ^ 63 -> NumBytesForAutodetect + 3 <= blk -> loadTextAutodetect cut1 cut2 rooms1 rooms2 blk (theFile f ps) = Some (inMemory ps, found f ps).
Proof. intros f Hp Hm Hc Hz Hbig. apply auto_file; try assumption; [discriminate|apply (scalar_fits f); [discriminate|assumption]|left; reflexivity|apply detect_utf8; assumption]. Qed.
Lemma plain_scalar ps : Forall isPlain ps -> Forall scalar ps.
Proof. apply Forall_impl. intros p H. unfold isPlain in H. apply scalar_small. lia. Qed.
Theorem auto_utf16 be cr ps : let f := mkf (wide be) cr false in Forall isPlain ps -> newlines cr ps <> [] -> zlen (theFile f ps) + 4 <= blk -> NumBytesForAutodetect + 3 <= blk ->
  loadTextAutodetect cut1 cut2 rooms1 rooms2 blk (theFile f ps) = Some (inMemory ps, found f ps).
Proof. intros f Hp Hn Hs Hbig. apply auto_file; try assumption; [discriminate|apply (scalar_fits f); [unfold f, wide; destruct be; discriminate|apply plain_scalar, Hp]|lia|right; exact Hs|apply detect_utf16; assumption]. Qed.
Theorem load_utf8 f file l : encOf f = EUTF8 -> bytes_ok file -> zlen file < 2 ^ 63 -> unmarked f file l -> loadText cut1 cut2 rooms1 rooms2 blk f file = Some (newlines false l).
Proof. intros E Hf Hz U. rewrite (load_right cut1 cut2 rooms1 rooms2 blk file Hblk Hz Hf Hr1 Hr2 f l); [unfold plainText; rewrite E; reflexivity|intros _; congruence|exact U|congruence]. Qed.
Theorem detect_any file : bytes_ok file -> zlen file < 2 ^ 63 -> NumBytesForAutodetect + 3 <= blk ->
  exists f, detected cut1 blk file = Some f /\ (bom f = true <-> exists e, marked e file) /\ (forall e, marked e file -> encOf f = e).
Proof. intros Hf Hz Hbig. destruct (detect_total file) as (f & D). exists f. split; [apply detected_right; assumption|]. split; [apply detect_mark, D|]. intros e M. apply (detect_mark_enc _ _ _ D M). Qed.
Theorem detect_as file f : bytes_ok file -> zlen file < 2 ^ 63 -> NumBytesForAutodetect + 3 <= blk -> detectL file = Some f -> detected cut1 blk file = Some f.
Proof. intros. apply detected_right; assumption. Qed.
Theorem feff_lost cr ps : Forall scalar ps -> let f := mkf EUTF8 cr false in zlen (theFile f (0xFEFF :: ps)) < 2 ^ 63 -> NumBytesForAutodetect + 3 <= blk ->
  loadTextAutodetect cut1 cut2 rooms1 rooms2 blk (theFile f (0xFEFF :: ps)) = Some (inMemory ps, found (mkf EUTF8 cr true) ps).
Proof. intros Hp f Hz Hbig. change (theFile f (0xFEFF :: ps)) with (theFile (mkf EUTF8 cr true) ps) in *. apply auto_marked; try assumption; try reflexivity; [discriminate|left; reflexivity]. Qed.
Lemma encoded_bytes l : bytes_ok l -> encoded Enc_Bytes l = l.
Proof. induction 1 as [|b l H _ IH]; [reflexivity|]. change (encoded Enc_Bytes (b :: l)) with (encode Enc_Bytes b ++ encoded Enc_Bytes l). rewrite IH. unfold is_byte in H. cbn [encode Enc_Bytes]. unfold bytes_encode, u8. replace (b <? 256) with true by lia. rewrite Z.mod_small by lia. reflexivity. Qed.
Theorem bytes_twice fresh first sizes space cr b ps pieces : (forall k, (2 <= fresh k)%nat) -> Forall scalar ps -> concat pieces = encoded Enc_UTF8 ps -> let f := mkf EBytes cr b in let file := theFile (mkf EUTF8 cr false) ps in
  exportAll fresh first sizes space f pieces = Some file /\ (b = false -> zlen file + 4 <= blk -> loadText cut1 cut2 rooms1 rooms2 blk f file = Some (inMemory (inMemory ps))).
Proof.
  intros Hf Hp Ep f file. split.
  - change (exportAll fresh first sizes space f pieces) with (exportAll fresh first [] (fun _ => 1%nat) (mkf EUTF8 cr false) pieces). apply save_right; try assumption; [constructor|intros; lia|discriminate].
  - intros Eb Hs. subst b. assert (F : Forall (fits (codeOf EUTF8)) ps) by (apply (scalar_fits (mkf EUTF8 cr false)); [discriminate|exact Hp]). assert (Bf : bytes_ok file) by (apply file_bytes; [discriminate|exact F]).
    assert (Fb : Forall (fits Enc_Bytes) file) by (revert Bf; apply Forall_impl; intros c H; unfold is_byte in H; split; [apply scalar_small; lia|lia]).
    destruct (text_points _ _ (known_code EBytes) Fb) as (T1 & T2 & _). cbn [codeOf] in T1, T2. rewrite (encoded_bytes _ Bf) in T1, T2.
    rewrite (load_right cut1 cut2 rooms1 rooms2 blk file Hblk ltac:(lia) Bf Hr1 Hr2 f file); [|discriminate|right; split; [intros (X & _); discriminate|reflexivity]|intros _; split; [exact Hs|exact T2]].
    unfold plainText. cbn [f encOf encodingFromEnum]. cbn [codeOf]. rewrite T1. rewrite newlines_utf8 by exact (fits_scalar _ _ Fb). unfold inMemory. f_equal. f_equal. unfold file, theFile. cbn [encOf bom crlf codeOf app].
    pose proof (newlines_all scalar false ps (scalar_small 10 ltac:(lia)) (scalar_small 13 ltac:(lia)) Hp). pose proof (newlines_all scalar cr ps (scalar_small 10 ltac:(lia)) (scalar_small 13 ltac:(lia)) Hp). rewrite !newlines_utf8, !newlines_twice by assumption. reflexivity.
Qed.
Theorem stray_lost b l : bytes_ok (b :: l) -> zlen (b :: l) < 2 ^ 63 -> NumBytesForAutodetect + 3 <= blk -> announced b = None -> b < 0xfe ->
  loadTextAutodetect cut1 cut2 rooms1 rooms2 blk (b :: l) = Some (newlines false (b :: l), mkf EUTF8 false false).
Proof. intros Hf Hz Hbig A L. apply (autoload_right cut1 cut2 rooms1 rooms2 blk (b :: l) Hblk Hz Hf Hr1 Hr2 (mkf EUTF8 false false) (b :: l) Hbig); [apply detect_stray; assumption|right; split; [intros (X & _); discriminate|reflexivity]|intros X; contradiction X; reflexivity]. Qed.
End Auto.
Theorem bytes_mark_fails cut1 cut2 rooms1 rooms2 blk cr file : loadText cut1 cut2 rooms1 rooms2 blk (mkf EBytes cr true) file = None.
Proof. unfold loadText. destruct (open blk file) as [s|]; [|reflexivity]. unfold importAll, skipBom. cbn [bom encOf]. destruct (save s) as [[s' k]|]; reflexivity. Qed.
