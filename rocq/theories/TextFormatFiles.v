(* Proofs about text files: saving and loading. *)
From Coq Require Import Lia ZifyBool ZifyNat.
From Verif Require Import TextEncodingProofs NewLineProofs TextConvProofs TextFormatSpec InStreamSpec InStreamProofs TextFormatProofs TextFormatLoad.

Lemma same_iff a : forall b, same a b = true <-> a = b.
Proof.
  induction a as [|x a IH]; intros [|y b]; cbn [same]; try (split; [discriminate|discriminate]); [split; reflexivity|]. rewrite andb_true_iff, IH, Z.eqb_eq. split; [intros (-> & ->); reflexivity|intros [= -> ->]; split; reflexivity].
Qed.
Lemma mark_code e : e <> EBytes -> markBytes e = encode (codeOf e) 0xFEFF.
Proof. destruct e; intros H; try reflexivity. contradiction H. reflexivity. Qed.
Lemma unmarked_false f file l : bom f = false -> unmarked f file l -> l = file.
Proof. intros B [(H & _)|(_ & H)]; [congruence|exact H]. Qed.

(* ---- the mark ---- *)
Section Mark.
Context (cut : nat -> nat) (blk : Z) (file : list Z).
Hypothesis (Hblk : 100 < blk < 2 ^ 32) (Hsrc : zlen file < 2 ^ 63).

Lemma skipBom_ok f s u l : atStart blk file s u -> (bom f = true -> ended u = false /\ encOf f <> EBytes) -> unmarked f file l ->
  exists s' u', skipBom cut blk f s = Some s' /\ Inv blk file s' u' /\ closed u' = false /\ rest file (at_ u') = l /\ (ended u' = true -> zlen l < 4).
Proof.
  intros (I & Hc & Ha & He) Hb U. unfold skipBom. destruct (bom f) eqn:B.
  - destruct (Hb eq_refl) as (Hu & Hn). destruct (save_ok cut blk file Hblk Hsrc s u I Hc) as (s1 & -> & I1). rewrite Ha, Hu in I1. set (m := markBytes (encOf f)).
    assert (Em : m = encode (codeOf (encOf f)) 0xFEFF) by apply (mark_code _ Hn).
    destruct (step_ok cut blk file Hblk Hsrc s1 _ (Read (repeat 0 (length m))) I1 Logic.I) as (s2 & y & u2 & E & A & I2). cbn [step answers at_ ended] in E, A.
    destruct (read cut blk s1 (repeat 0 (length m))) as [[[s2' h] ok]|] eqn:Er; [|discriminate]. injection E as -> <-. change (rest file 0) with file in A.
    assert (G : exists s' u', (do s3 <- (if ok && same h m then Some s2 else back s2 (length (saved u))); Some (release s3 (length (saved u)))) = Some s' /\ Inv blk file s' u' /\ closed u' = false /\ rest file (at_ u') = l /\ (ended u' = true -> zlen l < 4)).
    { assert (Bk : unmarked f file file -> exists s' u', (do s3 <- back s2 (length (saved u)); Some (release s3 (length (saved u)))) = Some s' /\ Inv blk file s' u' /\ closed u' = false /\ rest file (at_ u') = l /\ (ended u' = true -> zlen l < 4)).
      { intros [(_ & X)|(X & _)]. { exfalso. apply (f_equal (@length Z)) in X. rewrite app_length in X. rewrite <- Em in X. unfold m in X. destruct (encOf f); cbn [markBytes length] in X; try lia. contradiction Hn. reflexivity. }
        destruct U as [(_ & U)|(_ & ->)]; [exfalso; apply X; split; [exact B|]; split; [exact Hn|exists l; exact U]|].
        assert (Sv : nth_error (saved u2) (length (saved u)) = Some (Some 0)). { replace (saved u2) with (saved u ++ [Some 0]); [apply nth_last|]. destruct (zlen (repeat 0 (length m)) <=? zlen file); destruct A as (_ & ->); reflexivity. }
        destruct (back_ok cut blk file Hblk Hsrc s2 u2 _ 0 I2 Sv) as (s3 & -> & I3). pose proof (release_ok cut blk file Hblk Hsrc s3 _ (length (saved u)) I3) as R. eexists. eexists. split; [reflexivity|]. split; [exact R|]. cbn [closed at_ ended]. split; [reflexivity|]. split; [reflexivity|discriminate]. }
      destruct (Z.leb_spec (zlen (repeat 0 (length m))) (zlen file)) as [Hlen|Hlen].
      - destruct A as (A & Au). injection A as -> ->. rewrite repeat_length in *. unfold zlen in Hlen. rewrite repeat_length in Hlen. cbn [negb andb]. destruct (same (firstn (length m) file) m) eqn:Sm.
        + apply same_iff in Sm. assert (X : file = m ++ skipn (length m) file) by (rewrite <- Sm at 1; symmetry; apply firstn_skipn).
          assert (l = skipn (length m) file) as ->.
          { destruct U as [(_ & U)|(U & _)]; [|exfalso; apply U; split; [exact B|]; split; [exact Hn|]; exists (skipn (length m) file); rewrite <- Em; exact X]. rewrite <- Em in U. rewrite U at 1. rewrite skipn_app, skipn_all, Nat.sub_diag. reflexivity. }
          pose proof (release_ok cut blk file Hblk Hsrc s2 _ (length (saved u)) I2) as R. eexists. eexists. split; [reflexivity|]. split; [exact R|]. rewrite Au. cbn [closed at_ ended]. split; [reflexivity|]. split; [unfold rest; f_equal; unfold zlen; rewrite repeat_length; lia|discriminate].
        + apply Bk. right. split; [|reflexivity]. intros (_ & (_ & l' & X)). rewrite <- Em in X. rewrite X in Sm. rewrite firstn_app, firstn_all, Nat.sub_diag in Sm. cbn [firstn] in Sm. rewrite app_nil_r in Sm. rewrite (proj2 (same_iff m m) eq_refl) in Sm. discriminate.
      - destruct A as (A & Au). injection A as -> ->. cbn [andb]. apply Bk. right. split; [|reflexivity]. intros (_ & (_ & l' & X)). rewrite <- Em in X. apply (f_equal zlen) in X. rewrite zlen_app in X. unfold zlen in *. rewrite repeat_length in Hlen. lia. }
    destruct (encOf f); [contradiction Hn; reflexivity| | |]; fold m; rewrite Er; exact G.
  - rewrite (unmarked_false _ _ _ B U). exists s, u. split; [reflexivity|]. split; [exact I|]. split; [exact Hc|]. split; [rewrite Ha; reflexivity|exact He].
Qed.
End Mark.

(* ---- loading ---- *)
Section Load.
Context (cut1 cut2 rooms1 rooms2 : nat -> nat) (blk : Z) (file : list Z).
Hypothesis (Hblk : 100 < blk < 2 ^ 32) (Hsrc : zlen file < 2 ^ 63) (Hfile : bytes_ok file).
Hypothesis (Hr1 : forall k, (0 < rooms1 k)%nat) (Hr2 : forall k, (0 < rooms2 k)%nat).

Definition plainText (f : format) (l : list Z) : list Z :=
  match encOf f with EUTF8 => l | e => encoded Enc_UTF8 (points (codeOf e) l) end.
Lemma import_ok f s u l : atStart blk file s u -> (bom f = true -> ended u = false /\ encOf f <> EBytes) -> unmarked f file l ->
  (encOf f <> EUTF8 -> zlen file + 4 <= blk /\ whole (codeOf (encOf f)) l) ->
  importAll cut1 cut2 rooms1 rooms2 blk f s (length file) = Some (newlines false (plainText f l)).
Proof.
  intros A Hb U Hc. unfold importAll. destruct (skipBom_ok cut1 blk file Hblk Hsrc f s u l A Hb U) as (s1 & u1 & -> & I1 & C1 & L1 & E1).
  assert (Ll : (length l <= length file)%nat) by (rewrite <- L1; unfold rest; rewrite skipn_length; lia). assert (Hl : bytes_ok l) by (rewrite <- L1; apply bytes_rest, Hfile).
  assert (G : encOf f <> EUTF8 ->
    (do text <- convAll cut1 blk (S (S (length file))) (S (S (4 * length file))) (encodingFromEnum (encOf f)) (mkc [] []) s1 rooms1 0;
     do s <- open blk text; filterAll cut2 blk (S (S (length text))) (S (S (length text))) false s rooms2 0) = Some (newlines false (encoded Enc_UTF8 (points (codeOf (encOf f)) l)))).
  { intros Hn. destruct (Hc Hn) as (Hz & Hw). set (e := encodingFromEnum (encOf f)). assert (K : known e) by apply known_enum. rewrite <- enum_code in *. fold e in Hw |- *.
    assert (Ne : e <> Enc_UTF8). { unfold e. destruct (encOf f); try (contradiction Hn; reflexivity); intros X; apply (f_equal (fun g => encode g 937)) in X; vm_compute in X; discriminate. }
    assert (St1 : St e true l = (points e l, [])). { unfold points. rewrite (points_St e K) by exact Hl. unfold whole in Hw. rewrite (points_St e K) in Hw by exact Hl. destruct (St e true l) as [a b]. cbn [fst snd] in *. congruence. }
    assert (CI : CInv blk file e (mkc [] []) s1 u1).
    { constructor; cbn [sb length app]; rewrite ?L1; try assumption; [lia|constructor|rewrite St1; reflexivity|]. intros _. rewrite <- (pending_St e K) by exact Hl. apply utf16_pending; assumption. }
    assert (Ow : owed file e (mkc [] []) u1 = encoded Enc_UTF8 (points e l)) by (unfold owed; cbn [sb db app]; rewrite L1, St1; reflexivity).
    assert (Lt : (length (encoded Enc_UTF8 (points e l)) <= 4 * length file)%nat).
    { pose proof (enc_length Enc_UTF8 e (known_P1 _ K) (known_P2 _ K) (known_P3 _ K) (known_P4 _ K) (known_P5 _ K) (known_P7 _ K) (known_Pd _ known_8) (points e l)) as X. unfold TextConvProofs.enc in X. pose proof (St_count e e (known_P1 _ K) (known_P2 _ K) (known_P3 _ K) (known_P4 _ K) (known_P5 _ K) (known_P7 _ K) (known_Pd _ K) true l Hl) as Y. rewrite St1 in Y. cbn [fst snd length] in Y. lia. }
    rewrite (convAll_ok cut1 blk file Hblk Hsrc e K Hfile Hz rooms1 (S (S (length file))) Hr1 ltac:(lia) _ _ s1 u1 0 CI) by (rewrite Ow; lia). rewrite Ow. set (text := encoded Enc_UTF8 (points e l)) in *.
    assert (Ht : zlen text < 2 ^ 63) by (clear - Hz Lt Hblk; unfold zlen in *; lia). destruct (Inv_open cut2 blk text Hblk) as (s2 & -> & I2).
    rewrite (filterAll_ok cut2 blk text Hblk Ht rooms2 (S (S (length text))) Hr2 ltac:(lia) _ s2 start 0 I2 eq_refl); [reflexivity|]. change (rest text (at_ start)) with text. pose proof (newlines_length text). lia. }
  unfold plainText. destruct (encOf f) eqn:Ef; try (apply G; discriminate).
  rewrite (filterAll_ok cut1 blk file Hblk Hsrc rooms2 (S (S (length file))) Hr2 ltac:(lia) _ s1 u1 0 I1 C1); rewrite L1; [reflexivity|]. pose proof (newlines_length l). lia.
Qed.
Lemma start_at s : Inv blk file s start -> atStart blk file s start.
Proof. intros I. split; [exact I|]. cbn. split; [reflexivity|]. split; [reflexivity|discriminate]. Qed.
Theorem load_right f l : (bom f = true -> encOf f <> EBytes) -> unmarked f file l -> (encOf f <> EUTF8 -> zlen file + 4 <= blk /\ whole (codeOf (encOf f)) l) ->
  loadText cut1 cut2 rooms1 rooms2 blk f file = Some (newlines false (plainText f l)).
Proof.
  intros Hb U Hc. unfold loadText. destruct (Inv_open cut1 blk file Hblk) as (s & -> & I). apply (import_ok f s start l (start_at s I)); try assumption. intros B. split; [reflexivity|apply Hb, B].
Qed.
Lemma markL_bytes e : markL file = Some e -> e <> EBytes.
Proof. unfold markL. repeat (destruct (_ && _)); try destruct (_ =? 0xbf); intros [= <-]; discriminate. Qed.
Lemma detect_bytes f : detectL file = Some f -> bom f = true -> encOf f <> EBytes.
Proof.
  unfold detectL. destruct (markL file) as [e|] eqn:M; [|intros G B; rewrite (guess_bom _ _ G) in B; discriminate]. destruct (getNewLineType _); [|discriminate]. intros [= <-] _. exact (markL_bytes e M).
Qed.
Theorem autoload_right f l : NumBytesForAutodetect + 3 <= blk -> detectL file = Some f -> unmarked f file l -> (encOf f <> EUTF8 -> zlen file + 4 <= blk /\ whole (codeOf (encOf f)) l) ->
  loadTextAutodetect cut1 cut2 rooms1 rooms2 blk file = Some (newlines false (plainText f l), f).
Proof.
  intros Hbig D U Hc. unfold loadTextAutodetect. destruct (Inv_open cut1 blk file Hblk) as (s & -> & I). destruct (autodetect_ok cut1 blk file Hblk Hsrc Hfile Hbig s start f (start_at s I) eq_refl D) as (s1 & u1 & -> & A1 & B1).
  rewrite (import_ok f s1 u1 l A1); [reflexivity| |exact U|exact Hc]. intros B. split; [apply B1, B|apply (detect_bytes f D B)].
Qed.
Theorem detected_right f : NumBytesForAutodetect + 3 <= blk -> detectL file = Some f -> detected cut1 blk file = Some f.
Proof.
  intros Hbig D. unfold detected. destruct (Inv_open cut1 blk file Hblk) as (s & -> & I). destruct (autodetect_ok cut1 blk file Hblk Hsrc Hfile Hbig s start f (start_at s I) eq_refl D) as (s1 & u1 & -> & A1 & B1). reflexivity.
Qed.
End Load.

(* ---- the text ---- *)
Lemma high_bytes p : 128 <= p < 0x110000 -> Forall (fun b => 128 <= b) (utf8_encode p).
Proof.
  intros H. rewrite utf8_encode_arith by lia. replace (p <? 0x80) with false by lia. repeat (destruct (_ <? _)); repeat constructor; lia.
Qed.
Lemma newlines_high b l : Forall (fun c => 128 <= c) l -> newlines b l = l.
Proof. induction 1 as [|c l H _ IH]; [reflexivity|]. cbn [newlines flat_map]. fold (newlines b l). rewrite IH. replace (c =? 13) with false by lia. replace (c =? 10) with false by lia. reflexivity. Qed.
Lemma newlines_utf8 b ps : Forall scalar ps -> newlines b (encoded Enc_UTF8 ps) = encoded Enc_UTF8 (newlines b ps).
Proof.
  induction 1 as [|p ps H _ IH]; [reflexivity|]. change (encoded Enc_UTF8 (p :: ps)) with (encode Enc_UTF8 p ++ encoded Enc_UTF8 ps). rewrite newlines_app, IH.
  change (newlines b (p :: ps)) with ((if p =? 13 then [] else if p =? 10 then if b then [13; 10] else [10] else [p]) ++ newlines b ps). unfold encoded. rewrite flat_map_app. f_equal. unfold scalar in H.
  destruct (Z.ltb_spec p 128) as [L|L].
  - cbn [encode Enc_UTF8]. rewrite utf8_encode_arith by lia. replace (p <? 0x80) with true by lia. cbn [newlines flat_map]. rewrite app_nil_r. destruct (Z.eqb_spec p 13); [reflexivity|]. destruct (Z.eqb_spec p 10); [destruct b; reflexivity|].
    cbn [flat_map encode]. rewrite utf8_encode_arith by lia. replace (p <? 0x80) with true by lia. reflexivity.
  - cbn [encode Enc_UTF8]. rewrite newlines_high by (apply high_bytes; lia). replace (p =? 13) with false by lia. replace (p =? 10) with false by lia. cbn [flat_map encode]. rewrite app_nil_r. reflexivity.
Qed.
Lemma newlines_twice b ps : newlines false (newlines b ps) = newlines false ps.
Proof. induction ps as [|p ps IH]; [reflexivity|].
  change (newlines b (p :: ps)) with ((if p =? 13 then [] else if p =? 10 then if b then [13; 10] else [10] else [p]) ++ newlines b ps). change (newlines false (p :: ps)) with ((if p =? 13 then [] else if p =? 10 then [10] else [p]) ++ newlines false ps). rewrite newlines_app, IH. f_equal. destruct (p =? 13) eqn:E; [reflexivity|]. destruct (p =? 10) eqn:F; [destruct b; reflexivity|]. cbn. rewrite E, F. reflexivity. Qed.
Lemma newlines_all (P : Z -> Prop) b ps : P 10 -> P 13 -> Forall P ps -> Forall P (newlines b ps).
Proof. intros H1 H2. induction 1 as [|p ps H _ IH]; [constructor|]. cbn [newlines flat_map]. apply Forall_app. split; [|exact IH]. destruct (p =? 13); [constructor|]. destruct (p =? 10); [destruct b; repeat constructor; assumption|repeat constructor; assumption]. Qed.
Lemma scalar_small p : 0 <= p < 0xd800 -> scalar p.
Proof. unfold scalar. lia. Qed.
Lemma code_bytes e : codeOf e = Enc_Bytes -> e = EBytes.
Proof. destruct e; intros X; try reflexivity; apply (f_equal (fun g => encode g 937)) in X; vm_compute in X; discriminate. Qed.
Lemma fits_newlines e b ps : Forall (fits (codeOf e)) ps -> Forall (fits (codeOf e)) (newlines b ps).
Proof. apply newlines_all; (split; [apply scalar_small; lia|lia]). Qed.
Lemma known_code e : known (codeOf e).
Proof. rewrite <- enum_code. apply known_enum. Qed.
Lemma fits_scalar e ps : Forall (fits e) ps -> Forall scalar ps.
Proof. apply Forall_impl. intros p H. apply H. Qed.

Lemma file_bytes f ps : (bom f = true -> encOf f <> EBytes) -> Forall (fits (codeOf (encOf f))) ps -> bytes_ok (theFile f ps).
Proof.
  intros Hb Hp. apply text_bytes; [apply known_code|]. apply Forall_app. split; [|apply fits_newlines, Hp]. destruct (bom f); [|constructor]. constructor; [|constructor]. split; [unfold scalar; lia|]. intros X. apply code_bytes in X. contradiction (Hb eq_refl X).
Qed.
Lemma file_text f ps : (bom f = true -> encOf f <> EBytes) -> Forall (fits (codeOf (encOf f))) ps -> 
  exists l, unmarked f (theFile f ps) l /\ whole (codeOf (encOf f)) l /\ newlines false (plainText f l) = inMemory ps.
Proof.
  intros Hb Hp. pose proof (fits_newlines _ (crlf f) _ Hp) as Hn. exists (encoded (codeOf (encOf f)) (newlines (crlf f) ps)). destruct (text_points _ _ (known_code (encOf f)) Hn) as (T1 & T2 & _).
  split; [|split; [exact T2|]].
  - unfold unmarked, theFile. destruct (bom f) eqn:B; [left; split; [reflexivity|]|right; split; [intros (X & _); discriminate|reflexivity]]. unfold encoded. rewrite flat_map_app. cbn [flat_map]. rewrite app_nil_r. reflexivity.
  - unfold plainText, inMemory. assert (X : newlines false (encoded Enc_UTF8 (newlines (crlf f) ps)) = encoded Enc_UTF8 (newlines false ps)) by (rewrite newlines_utf8 by exact (fits_scalar _ _ Hn); rewrite newlines_twice; reflexivity).
    destruct (encOf f); cbn [codeOf] in *; rewrite ?T1; exact X.
Qed.

(* ---- saving ---- *)
Lemma cutUp_ok sizes : Forall (fun n => (3 <= n)%nat) sizes -> forall l, exists pieces q, cutUp sizes l = pieces ++ [q] /\ concat (pieces ++ [q]) = l /\ Forall (fun p => (3 <= length p)%nat) pieces.
Proof.
  induction 1 as [|n sizes Hn _ IH]; intros l; cbn [cutUp]; [exists [], l; cbn; rewrite app_nil_r; repeat split; constructor|]. destruct (Nat.leb_spec (length l) n) as [L|L]; [exists [], l; cbn; rewrite app_nil_r; repeat split; constructor|].
  destruct (IH (skipn n l)) as (pieces & q & -> & E & F). exists (firstn n l :: pieces), q. split; [reflexivity|]. split; [cbn [app concat]; rewrite E; apply firstn_skipn|]. constructor; [rewrite firstn_length; lia|exact F].
Qed.
Theorem save_right fresh first sizes space f ps pieces : (forall k, (2 <= fresh k)%nat) -> Forall (fun n => (3 <= n)%nat) sizes -> (forall k, (0 < space k)%nat) ->
  Forall scalar ps -> (encOf f = EBytes -> bom f = false /\ Forall (fun p => p < 128) ps) -> concat pieces = encoded Enc_UTF8 ps ->
  exportAll fresh first sizes space f pieces = Some (theFile f ps).
Proof.
  intros Hf Hs Hsp Hp Hb Ep. unfold exportAll. rewrite filtered_right by exact Hf. rewrite map_map. cbn [fst]. change (fun x => newlines (crlf f) x) with (newlines (crlf f)).
  assert (Eb : concat (map (newlines (crlf f)) pieces) = encoded Enc_UTF8 (newlines (crlf f) ps)). { rewrite <- newlines_utf8 by exact Hp. rewrite <- Ep. clear. induction pieces as [|p r IH]; [reflexivity|]. cbn [map concat]. rewrite IH. fold (newlines (crlf f) (p ++ concat r)) (newlines (crlf f) p) (newlines (crlf f) (concat r)). symmetry. apply newlines_app. }
  rewrite Eb. pose proof (newlines_all scalar (crlf f) ps (scalar_small 10 ltac:(lia)) (scalar_small 13 ltac:(lia)) Hp) as Hn. set (qs := newlines (crlf f) ps) in *.
  assert (G : encOf f <> EBytes -> encOf f <> EUTF8 -> (do b <- piped (encodingFromEnum (encOf f)) Enc_UTF8 space (map Write (cutUp sizes (encoded Enc_UTF8 qs)) ++ [Flush; Flush]); Some ((if bom f then markBytes (encOf f) else []) ++ b)) = Some (theFile f ps)).
  { intros N1 N2. destruct (cutUp_ok sizes Hs (encoded Enc_UTF8 qs)) as (ws & q & -> & Ec & F3).
    assert (Fq : Forall (fits Enc_UTF8) qs) by (revert Hn; apply Forall_impl; intros p H; split; [exact H|intros X; discriminate (code_bytes EUTF8 X)]).
    destruct (text_points Enc_UTF8 qs known_8 Fq) as (T1 & T2 & T3). pose proof (text_bytes Enc_UTF8 qs known_8 Fq) as Tb.
    change (map Write (ws ++ [q]) ++ [Flush; Flush]) with (map Write (ws ++ [q]) ++ [Flush] ++ [Flush]). rewrite app_assoc. change ((map Write (ws ++ [q]) ++ [Flush]) ++ [Flush]) with (session (ws ++ [q]) ++ session []).
    replace (session (ws ++ [q]) ++ session []) with (flat_map session [ws ++ [q]; []]) by (cbn [flat_map]; rewrite app_nil_r; reflexivity).
    rewrite (pieces_right _ Enc_UTF8 space _ (known_enum (encOf f)) known_8 Hsp).
    - cbn [flat_map]. rewrite Ec, T1, enum_code. unfold theFile. fold qs. change (points Enc_UTF8 (concat [])) with (@nil Z). unfold encoded. rewrite flat_map_app. cbn [flat_map]. rewrite !app_nil_r. destruct (bom f); [|reflexivity]. cbn [flat_map]. rewrite app_nil_r, (mark_code _ N1). reflexivity.
    - constructor; [|constructor; [|constructor]].
      + rewrite Ec, T3. split; [exact Tb|]. split; [cbn; lia|]. split; [exact T2|]. apply cuts_three; rewrite ?Ec, ?T3; try assumption; try apply known_8; cbn; lia.
      + cbn [concat]. split; [constructor|]. split; [cbn; lia|]. split; [reflexivity|]. intros a p b E. destruct a; discriminate. }
  destruct (encOf f) eqn:Ef; try (apply G; discriminate).
  - destruct (Hb eq_refl) as (B & Lo). unfold theFile. rewrite B, Ef. cbn [app codeOf]. fold qs. f_equal.
    assert (Lq : Forall (fun p => 0 <= p < 128) qs). { apply newlines_all; [lia|lia|]. rewrite Forall_forall in *. intros p Hi. specialize (Hp p Hi). specialize (Lo p Hi). unfold scalar in Hp. cbv beta in Lo. lia. }
    clear - Lq. induction Lq as [|p qs H _ IH]; [reflexivity|]. cbn [encoded flat_map]. unfold encoded in IH. rewrite IH. f_equal. cbn [encode Enc_UTF8 Enc_Bytes]. unfold utf8_encode, bytes_encode. replace (p <? 0x80) with true by lia. replace (p <? 256) with true by lia. reflexivity.
  - unfold theFile. rewrite Ef. cbn [codeOf]. fold qs. destruct (bom f); reflexivity.
Qed.
