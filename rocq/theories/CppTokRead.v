(* The tokenizer: written tokens are read back. *)
From Coq Require Import Lia ZifyBool ZifyNat.
From Coq Require Import String.
From Verif Require Import Txt CppTokModel CppTokSpec CppTokProofs ScanProofs.
Local Open Scope string_scope.
Local Open Scope list_scope.
Local Open Scope Z_scope.
Local Notation length := List.length.

Lemma mask_ident c : mask_match c identMask = true <-> identByte c.
Proof.
  destruct (Z_lt_le_dec c 0) as [N|N]; [|destruct (Z_lt_le_dec c 256) as [B|B]].
  - split; [|unfold identByte, identStart, digit; lia]. unfold mask_match.
    assert (Z.shiftr c 5 < 0) by (apply Z.shiftr_neg; lia).
    replace (Z.to_nat (Z.shiftr c 5)) with O by lia. cbn [nth identMask id_mask]. now rewrite Z.bits_0.
  - change identMask with (id_mask (Z.lor (word1 true false) 0x3ff0000)).
    rewrite id_mask_cont by (unfold is_byte; lia). unfold id_contb, id_startb, identByte, identStart, digit. lia.
  - split; [|unfold identByte, identStart, digit; lia]. unfold mask_match.
    rewrite nth_overflow; [now rewrite Z.bits_0|]. rewrite Z.shiftr_div_pow2 by lia. change (2 ^ 5) with 32.
    assert (8 <= c / 32) by (apply Z.div_le_lower_bound; lia). change (length identMask) with 8%nat. lia.
Qed.
Lemma mask_ident_false c : ~ identByte c -> mask_match c identMask = false.
Proof. rewrite <- mask_ident. now destruct (mask_match c identMask). Qed.

Definition stops (P : Z -> Prop) (next : list Z) : Prop := forall c, hd_error next = Some c -> ~ P c.
Lemma stops_cons (P : Z -> Prop) c r : ~ P c -> stops P (c :: r).
Proof. intros H d X. injection X as <-. exact H. Qed.

Lemma identLoop_run first u : Forall identByte u -> forall f n errs rest, (length u + length rest < f)%nat ->
  exists f', (length rest < f')%nat /\ identLoop f first n errs (u ++ rest) = identLoop f' first (n + length u) errs rest.
Proof.
  intros F. induction F as [|c u Hc F IH]; intros f n errs rest Hf; cbn [length app] in *.
  - exists f. split; [lia|]. now rewrite Nat.add_0_r.
  - destruct f as [|f]; [lia|]. cbn [identLoop]. rewrite (proj2 (mask_ident c) Hc).
    destruct (IH f (S n) errs rest ltac:(lia)) as (f' & Hf' & ->). exists f'. split; [exact Hf'|]. f_equal. lia.
Qed.
Lemma identLoop_stop f first n errs rest : (length rest < f)%nat -> (0 < n)%nat ->
  (forall c, hd_error rest = Some c -> ~ identByte c /\ c <> 34) ->
  identLoop f first n errs rest = Tok Identifier rest false errs.
Proof.
  intros Hf Hn Hr. destruct f as [|f]; [lia|]. destruct rest as [|c r]; cbn [identLoop]; [destruct n; [lia|reflexivity]|].
  destruct (Hr c eq_refl) as [H1 H2]. rewrite (mask_ident_false c H1). replace (c =? 34) with false by lia.
  destruct n; [lia|reflexivity].
Qed.
Lemma readString_quoted q s : q <> 92 -> quoted q s -> forall next, readString q (s ++ q :: next) = Some next.
Proof.
  intros Nq H next. induction H as [|c s H1 H2 H IH|c s H IH]; cbn [app readString].
  - replace (q =? 92) with false by lia. now rewrite Z.eqb_refl.
  - replace (c =? 92) with false by lia. replace (c =? q) with false by lia. exact IH.
  - exact IH.
Qed.

(** Raw strings. *)
Lemma rawDelimiter_run d rest : rawDelim d -> rawDelimiter (d ++ 40 :: rest) = RawOk (40 :: rest).
Proof.
  intros H. induction H as [|c d (W & H1 & H2 & H3 & _) H IH]; cbn [app rawDelimiter]; [reflexivity|].
  replace (c =? 40) with false by lia. replace (isWhite c) with false by (rewrite <- white_iff in W; destruct (isWhite c); [congruence|reflexivity]).
  replace (c =? 41) with false by lia. replace (c =? 92) with false by lia. exact IH.
Qed.
Lemma s8_small c : 0 <= c < 128 -> s8 c = c.
Proof. intros H. unfold s8, to_signed. rewrite Z.mod_small by (change (2 ^ 8) with 256; lia). change (2 ^ (8 - 1)) with 128. now replace (c <? 128) with true by lia. Qed.
Lemma rawContents_close d0 d next w : forall d1, d0 = d1 ++ d -> rawDelim d0 ->
  rawContents (d0 ++ w) (length d0) (Some (length d1)) (d ++ 34 :: next) = RawOk next.
Proof.
  induction d as [|c d IH]; intros d1 E H; cbn [app rawContents].
  - rewrite app_nil_r in E. subst d1. now rewrite Nat.eqb_refl.
  - replace (length d1 =? length d0)%nat with false by (rewrite E, app_length; cbn; lia). cbn [andb].
    assert (Hc : 0 <= c < 128).
    { unfold rawDelim in H. rewrite E in H. apply Forall_app in H as [_ H]. inversion H; tauto. }
    assert (N : nth (length d1) (d0 ++ w) (-1) = c).
    { rewrite E, <- app_assoc, app_nth2, Nat.sub_diag by lia. reflexivity. }
    rewrite N, s8_small, Z.eqb_refl by exact Hc.
    replace (S (length d1)) with (length (d1 ++ [c])) by (rewrite app_length; cbn; lia).
    apply IH; [|exact H]. rewrite <- app_assoc. exact E.
Qed.
Lemma rawContents_run d s rest next : rawDelim d -> rawText d s ->
  rawContents (d ++ 40 :: rest) (length d) None (s ++ 41 :: d ++ 34 :: next) = RawOk next.
Proof.
  intros HD H. induction H as [|c s H1 H IH|c s H1 H2 H IH]; cbn [app].
  - change (rawContents (d ++ 40 :: rest) (length d) None (41 :: d ++ 34 :: next)) with
      (rawContents (d ++ 40 :: rest) (length d) (Some (length (@nil Z))) (d ++ 34 :: next)).
    now apply rawContents_close.
  - cbn [rawContents]. replace (c =? 41) with false by lia. exact IH.
  - cbn [rawContents]. change (41 =? 41) with true. cbn [rawContents].
    assert (N : s8 (nth 0 (d ++ 40 :: rest) (-1)) = hd 40 d).
    { destruct d as [|x d]; [reflexivity|]. cbn. apply s8_small. inversion HD; tauto. }
    rewrite N. replace (c =? hd 40 d) with false by lia.
    replace ((0 =? length d)%nat && (c =? 34)) with false; [exact IH|].
    destruct d; cbn [length]; [specialize (H2 eq_refl); lia|reflexivity].
Qed.
Lemma readRaw_run d s next : rawDelim d -> rawText d s ->
  readRaw (d ++ 40 :: s ++ 41 :: d ++ 34 :: next) = RawOk next.
Proof.
  intros HD HS. unfold readRaw. rewrite rawDelimiter_run by exact HD. cbn [tl].
  rewrite app_length, Nat.add_sub. now apply rawContents_run.
Qed.

(** Numbers. *)
Lemma digitValue_lt10 c : digitValue c <? 10 = true <-> digit c.
Proof. unfold digitValue, digit. destruct (48 <=? c) eqn:?, (c <=? 57) eqn:?, (65 <=? c) eqn:?, (c <=? 90) eqn:?, (97 <=? c) eqn:?, (c <=? 122) eqn:?; cbn [andb]; lia. Qed.
Lemma digitValue_lt16 c : digitValue c <? 16 = true <-> hexDigit c.
Proof. unfold digitValue, hexDigit. destruct (48 <=? c) eqn:?, (c <=? 57) eqn:?, (65 <=? c) eqn:?, (c <=? 90) eqn:?, (97 <=? c) eqn:?, (c <=? 122) eqn:?; cbn [andb]; lia. Qed.
Lemma skipDigits_run r (P : Z -> Prop) ds rest : (forall c, digitValue c <? r = true <-> P c) ->
  Forall P ds -> stops P rest -> skipDigits r (ds ++ rest) = rest.
Proof.
  intros HP F S0. induction F as [|c ds Hc F IH]; cbn [app].
  - destruct rest as [|c rest]; [reflexivity|]. cbn. specialize (S0 c eq_refl). rewrite <- HP in S0.
    now destruct (digitValue c <? r).
  - cbn [skipDigits]. now rewrite (proj2 (HP c) Hc).
Qed.
Lemma peekIs_stop c s : stops (fun d => d = c) s -> peekIs c s = false.
Proof. destruct s as [|d s]; [reflexivity|]. intros H. specialize (H d eq_refl). cbn in *. lia. Qed.
Lemma eat_stop c s : stops (fun d => d = c) s -> eat c s = s.
Proof. destruct s as [|d s]; [reflexivity|]. intros H. specialize (H d eq_refl). cbn in *. now replace (d =? c) with false by lia. Qed.
Lemma stops_weaken (P Q : Z -> Prop) s : (forall c, Q c -> P c) -> stops P s -> stops Q s.
Proof. intros H S0 c E Qc. exact (S0 c E (H c Qc)). Qed.
(** Only the first byte matters. *)
Lemma stops_app (P : Z -> Prop) a b : stops P a -> (a = [] -> stops P b) -> stops P (a ++ b).
Proof. intros Ha Hb. destruct a as [|c a]; [now apply Hb|]. exact Ha. Qed.

Definition numEnd (c : Z) : Prop := identByte c \/ c = 46.
Ltac bytes := unfold numEnd, identByte, identStart, digit, hexDigit in *; lia.
Lemma skipSuffix_run x next : In x suffixes -> stops numEnd next -> skipSuffix (x ++ next) = next.
Proof.
  intros Hx Hn.
  assert (P : forall c, numEnd c -> peekIs c next = false).
  { intros c Hc. apply peekIs_stop. eapply stops_weaken; [|exact Hn]. cbn. intros d ->. exact Hc. }
  assert (E : forall c, numEnd c -> eat c next = next).
  { intros c Hc. apply eat_stop. eapply stops_weaken; [|exact Hn]. cbn. intros d ->. exact Hc. }
  assert (N102 : numEnd 102) by bytes. assert (N85 : numEnd 85) by bytes. assert (N76 : numEnd 76) by bytes.
  unfold skipSuffix. cbn in Hx. repeat destruct Hx as [<-|Hx]; [..|contradiction];
    cbn [app peekIs tl eat Z.eqb Pos.eqb]; rewrite ?(P 102), ?(P 85), ?(P 76), ?(E 85), ?(E 76), ?(P 76) by assumption;
    try reflexivity.
Qed.
Lemma suffix_stops (P : Z -> Prop) x next : In x suffixes -> (forall c, P c -> c <> 102 /\ c <> 85 /\ c <> 76 /\ numEnd c) ->
  stops numEnd next -> stops P (x ++ next).
Proof.
  intros Hx HP Hn. cbn in Hx.
  assert (N : stops P next) by (eapply stops_weaken; [|exact Hn]; cbn; intros c Hc; apply HP in Hc; tauto).
  repeat destruct Hx as [<-|Hx]; [exact N| | | | | |  |contradiction]; apply stops_cons; intros Hc; apply HP in Hc; lia.
Qed.
Lemma exp_stops (P : Z -> Prop) e rest : exponent e -> ~ P 101 -> ~ P 69 -> stops P rest -> stops P (e ++ rest).
Proof.
  intros [->|(x & sg & ds & [->| ->] & _ & _ & _ & ->)] H1 H2 H; [exact H| |]; now apply stops_cons.
Qed.
Lemma frac_stops (P : Z -> Prop) f rest : fraction f -> ~ P 46 -> stops P rest -> stops P (f ++ rest).
Proof. intros [->|(ds & _ & ->)] H1 H; [exact H|]. now apply stops_cons. Qed.

Lemma skipTail_run any f e x next : fraction f -> exponent e -> In x suffixes -> stops numEnd next ->
  (any = false -> e = []) -> skipTail any (f ++ e ++ x ++ next) = x ++ next.
Proof.
  intros Hf He Hx Hn Ha. unfold skipTail.
  assert (D : stops digit (e ++ x ++ next)).
  { apply exp_stops; [exact He|bytes|bytes|]. apply suffix_stops; [exact Hx| |exact Hn]. intros c Hc. bytes. }
  assert (D0 : stops digit (x ++ next)).
  { apply suffix_stops; [exact Hx| |exact Hn]. intros c Hc. bytes. }
  assert (F : (if peekIs 46 (f ++ e ++ x ++ next) then skipDigits 10 (tl (f ++ e ++ x ++ next)) else f ++ e ++ x ++ next)
              = e ++ x ++ next).
  { destruct Hf as [->|(ds & Hds & ->)].
    - cbn [app]. rewrite peekIs_stop; [reflexivity|]. apply exp_stops; [exact He|lia|lia|].
      apply suffix_stops; [exact Hx| |exact Hn]. intros c ->. bytes.
    - cbn [app peekIs tl]. change (46 =? 46) with true. cbv iota. apply (skipDigits_run 10 digit); [exact digitValue_lt10|exact Hds|exact D]. }
  rewrite F. cbv zeta. destruct He as [->|(y & sg & ds & Hy & Hsg & Hds & Nds & ->)].
  - cbn [app]. rewrite (peekIs_stop 101), (peekIs_stop 69); [now rewrite andb_false_r| |]; (apply suffix_stops; [exact Hx| |exact Hn]; intros c ->; bytes).
  - destruct any; [|specialize (Ha eq_refl); discriminate].
    assert (Y : true && (peekIs 101 ((y :: sg ++ ds) ++ x ++ next) || peekIs 69 ((y :: sg ++ ds) ++ x ++ next)) = true)
      by (cbn [app peekIs]; lia).
    rewrite Y. cbn [app tl]. rewrite <- app_assoc.
    assert (R : skipDigits 10 (ds ++ x ++ next) = x ++ next) by (apply (skipDigits_run 10 digit); [exact digitValue_lt10|exact Hds|exact D0]).
    destruct ds as [|c ds]; [congruence|]. inversion Hds as [|? ? Hc Hds']; subst.
    destruct Hsg as [->|[->| ->]]; cbn [app].
    + unfold peekIs. replace (c =? 43) with false by bytes. rewrite eat_stop; [exact R|]. apply stops_cons. bytes.
    + exact R.
    + exact R.
Qed.
Lemma readNumeric_decimal c ds f e x next : digit c -> Forall digit ds -> fraction f -> exponent e -> In x suffixes ->
  (c :: ds = [48] -> e = []) -> stops numEnd next ->
  (c :: ds ++ f ++ e ++ x = txt "0" -> stops (fun d => d = 45) next) ->
  readNumericLiteral (c :: (ds ++ f ++ e ++ x) ++ next) = next.
Proof.
  intros Hc Hds Hf He Hx H0 Hn Hm. rewrite <- !app_assoc. unfold readNumericLiteral. cbn [peekIs].
  assert (DS : stops digit (f ++ e ++ x ++ next)).
  { apply frac_stops; [exact Hf|bytes|]. apply exp_stops; [exact He|bytes|bytes|].
    apply suffix_stops; [exact Hx| |exact Hn]. intros d Hd. bytes. }
  assert (SK : skipDigits 10 (ds ++ f ++ e ++ x ++ next) = f ++ e ++ x ++ next)
    by (apply (skipDigits_run 10 digit); [exact digitValue_lt10|exact Hds|exact DS]).
  destruct (c =? 48) eqn:E48.
  - apply Z.eqb_eq in E48. subst c. cbn [tl].
    rewrite peekIs_stop.
    2:{ apply stops_app; [destruct ds as [|d ds]; [discriminate|apply stops_cons; inversion Hds; bytes]|].
        intros ->. apply frac_stops; [exact Hf|lia|]. apply exp_stops; [exact He|lia|lia|].
        apply suffix_stops; [exact Hx| |exact Hn]. intros d ->. bytes. }
    unfold skipDouble. rewrite eat_stop.
    2:{ apply stops_app; [destruct ds as [|d ds]; [discriminate|apply stops_cons; inversion Hds; bytes]|].
        intros ->. specialize (H0 eq_refl). subst e. cbn [app] in *.
        destruct Hf as [->|(ds & _ & ->)]; [|apply stops_cons; lia].
        cbn [app] in Hm. cbn in Hx. repeat destruct Hx as [<-|Hx]; [apply Hm; reflexivity| | | | | | |contradiction]; apply stops_cons; lia. }
    rewrite SK. cbv zeta. rewrite skipTail_run; try assumption; [now apply skipSuffix_run|].
    intros Hany. apply H0. destruct ds as [|d ds]; [reflexivity|exfalso]. revert Hany. cbn [app length]. rewrite !app_length. cbn. lia.
  - unfold skipDouble. rewrite eat_stop by (apply stops_cons; bytes).
    rewrite (skipDigits_dig 10 c) by (apply digitValue_lt10; exact Hc). rewrite SK. cbv zeta.
    rewrite skipTail_run; try assumption; [now apply skipSuffix_run|].
    intros Hany. exfalso. revert Hany. cbn [length]. rewrite !app_length. lia.
Qed.
Lemma readNumeric_hex ds x next : Forall hexDigit ds -> In x suffixes -> x <> txt "f" -> stops numEnd next ->
  readNumericLiteral (48 :: 120 :: (ds ++ x) ++ next) = next.
Proof.
  intros Hds Hx Nx Hn. rewrite <- app_assoc.
  change (readNumericLiteral (48 :: 120 :: ds ++ x ++ next)) with (skipSuffix (skipDigits 16 (ds ++ x ++ next))).
  rewrite (skipDigits_run 16 hexDigit); [now apply skipSuffix_run|exact digitValue_lt16|exact Hds|].
  cbn in Hx. repeat destruct Hx as [<-|Hx]; [|now elim Nx| | | | | |contradiction].
  - cbn [app]. eapply stops_weaken; [|exact Hn]. intros c Hc. bytes.
  - apply stops_cons; bytes.
  - apply stops_cons; bytes.
  - apply stops_cons; bytes.
  - apply stops_cons; bytes.
  - apply stops_cons; bytes.
Qed.

(** Comments and directives. *)
Lemma skipLine_run s next : noNewline s -> skipLine (s ++ 10 :: next) = next.
Proof.
  intros H. unfold skipLine. induction H as [|c s Hc H IH]; cbn [app special_loop nth]; [reflexivity|].
  replace (c =? 10) with false by lia. exact IH.
Qed.
Lemma skipComment_run s next : commentText s -> skipComment (s ++ 42 :: 47 :: next) = (true, next).
Proof.
  intros H. unfold skipComment. induction H as [|c s Hc H IH|c s Hc H IH]; cbn [app].
  - reflexivity.
  - cbn [special_loop nth]. replace (c =? 42) with false by lia. exact IH.
  - cbn [special_loop nth length Nat.leb]. change (42 =? 42) with true. cbv iota.
    replace (c =? 47) with false by lia. exact IH.
Qed.
Lemma directiveWhite_run b c r : blanks b -> ~ white c -> directiveWhite (b ++ c :: r) = (false, c :: r).
Proof.
  intros H Hc. induction H as [|x b Hx H IH]; cbn [app directiveWhite].
  - rewrite <- white_iff in Hc. destruct (isWhite c); [congruence|reflexivity].
  - replace (isWhite x) with true by (unfold isWhite; lia). cbn [negb]. replace (x =? 10) with false by lia. exact IH.
Qed.
Lemma id_loop_run w u : Forall identByte u -> w = Z.lor 0x10 0x3ff0000 -> forall rest, stops identByte rest ->
  fst (id_loop (u ++ rest) w false) = rest.
Proof.
  intros F -> rest Hr. induction F as [|c u Hc F IH]; cbn [app].
  - destruct rest as [|c r]; [reflexivity|]. cbn [id_loop]. change (id_mask (Z.lor 16 67043328)) with identMask.
    now rewrite (mask_ident_false c (Hr c eq_refl)).
  - cbn [id_loop]. change (id_mask (Z.lor 16 67043328)) with identMask. now rewrite (proj2 (mask_ident c) Hc).
Qed.
Lemma parse_identifier_run c u rest : mask_match c (id_mask 16) = true -> Forall identByte u -> stops identByte rest ->
  snd (parse_identifier (c :: u ++ rest) WithDollarSign) = rest.
Proof.
  intros Hc Hu Hr. unfold parse_identifier. change (id_word1 WithDollarSign) with 16. cbn [id_loop]. rewrite Hc.
  pose proof (id_loop_run (Z.lor 16 67043328) u Hu eq_refl rest Hr) as L.
  destruct (id_loop (u ++ rest) (Z.lor 16 67043328) false) as [r w]. exact L.
Qed.
Lemma skipDefine_line l : noNewline l -> ~ In 13 l -> forall esc r, exists esc', skipDefine esc (l ++ r) = skipDefine esc' r.
Proof.
  intros H. induction H as [|c l Hc H IH]; intros N esc r; [now exists esc|]. cbn [app skipDefine].
  replace (c =? 10) with false by lia. apply IH. intros X. apply N. now right.
Qed.
Lemma skipDefine_run s next : defineText s -> forall esc, skipDefine esc (s ++ next) = next.
Proof.
  intros H. induction H as [l c Hl N Hc|l s Hl N H IH]; intros esc; rewrite <- app_assoc.
  - apply Forall_app in Hl as [Hl Hc2]. inversion Hc2; subst.
    destruct (skipDefine_line l Hl ltac:(intros X; apply N, in_or_app; now left) esc ([c; 10] ++ next)) as (e' & ->).
    cbn [app skipDefine]. replace (c =? 10) with false by lia.
    assert (c <> 13) by (intros ->; apply N, in_or_app; right; now left).
    replace (c =? 13) with false by lia. replace (c =? 92) with false by lia. reflexivity.
  - destruct (skipDefine_line l Hl N esc ((92 :: 10 :: s) ++ next)) as (e' & ->). cbn [app skipDefine].
    change (92 =? 10) with false. change (92 =? 13) with false. change (92 =? 92) with true. change (10 =? 10) with true. cbv iota. apply IH.
Qed.
Lemma between_front u r : between (u ++ r) r = u.
Proof. apply between_app. Qed.
Lemma names_ok name : In name (txt "define" :: lineDirectives) ->
  exists c u, name = c :: u /\ ~ white c /\ mask_match c (id_mask 16) = true /\ Forall identByte u.
Proof.
  intros H.
  assert (K : forallb (fun n => match n with c :: u => negb (isWhite c) && mask_match c (id_mask 16) &&
     forallb (fun d => mask_match d identMask) u | [] => false end) (txt "define" :: lineDirectives) = true) by (vm_compute; reflexivity).
  rewrite forallb_forall in K. specialize (K name H). destruct name as [|c u]; [discriminate|]. exists c, u.
  apply andb_true_iff in K as [K K3]. apply andb_true_iff in K as [K1 K2]. repeat split; [|exact K2|].
  - rewrite <- white_iff. intros X. now rewrite X in K1.
  - apply Forall_forall. intros d Hd. rewrite forallb_forall in K3. apply mask_ident, K3, Hd.
Qed.
Lemma bytesEqb_refl a : bytesEqb a a = true.
Proof. unfold bytesEqb. destruct (list_eq_dec Z.eq_dec a a); congruence. Qed.
Lemma readDirective_line b name s next : blanks b -> In name lineDirectives -> noNewline s -> stops identByte s ->
  readDirective (35 :: (b ++ name ++ s ++ [10]) ++ next) = (next, true, []).
Proof.
  intros Hb Hn Hs Hi. destruct (names_ok name (or_intror Hn)) as (c & u & E & W & M & F).
  rewrite <- !app_assoc. cbn [app]. unfold readDirective. cbn [tl]. rewrite E at 1. cbn [app].
  rewrite directiveWhite_run by assumption.
  assert (ST : stops identByte (s ++ 10 :: next)).
  { apply stops_app; [exact Hi|]. intros _. apply stops_cons. bytes. }
  rewrite parse_identifier_run by assumption. cbv zeta.
  change (c :: u ++ s ++ 10 :: next) with ((c :: u) ++ s ++ 10 :: next). rewrite between_app.
  replace (existsb (bytesEqb (c :: u)) plainDirectives) with true; [rewrite skipLine_run by exact Hs; reflexivity|].
  symmetry. apply existsb_exists. exists (c :: u). rewrite <- E. split; [exact Hn|apply bytesEqb_refl].
Qed.
Lemma readDirective_define b s next : blanks b -> defineText s -> stops identByte s ->
  readDirective (35 :: (b ++ txt "define" ++ s) ++ next) = (next, true, []).
Proof.
  intros Hb Hs Hi. destruct (names_ok (txt "define") (or_introl eq_refl)) as (c & u & E & W & M & F).
  assert (NS : s <> []) by (destruct Hs; intros X; apply app_eq_nil in X as [_ X]; discriminate).
  rewrite <- !app_assoc. cbn [app]. unfold readDirective. cbn [tl]. rewrite E at 1. cbn [app].
  rewrite directiveWhite_run by assumption.
  assert (ST : stops identByte (s ++ next)) by (apply stops_app; [exact Hi|congruence]).
  rewrite parse_identifier_run by assumption. cbv zeta.
  change (c :: u ++ s ++ next) with ((c :: u) ++ s ++ next). rewrite between_app, <- E.
  change (match txt "define" with
    | [] => (skipLine (s ++ next), true, [(InvalidDirective, s ++ next)])
    | _ => if existsb (bytesEqb (txt "define")) plainDirectives then (skipLine (s ++ next), true, [])
           else if bytesEqb (txt "define") (txt "define") then (skipDefine false (s ++ next), true, [])
           else (skipLine (s ++ next), true, [(InvalidDirective, txt "define" ++ s ++ next)]) end = (next, true, [])).
  replace (existsb (bytesEqb (txt "define")) plainDirectives) with false by (vm_compute; reflexivity).
  rewrite bytesEqb_refl, skipDefine_run by exact Hs. reflexivity.
Qed.

(** Operators. *)
Ltac sep_contra H :=
  exfalso; cbn [andb] in *;
  first
  [ match goal with N : ~ startsWith _ _ |- _ => apply N; eexists; reflexivity end
  | let go n t' p := (destruct (H t' p (nth_error_In punct n eq_refl) ltac:(eexists; reflexivity)) as [HH|[HH1 [HH2|HH2]]];
                      [cbn in HH; lia|congruence|congruence]) in
      first [go 10%nat DoubleColon (txt "::")|go 12%nat DoubleEqual (txt "==")|go 13%nat NotEqual (txt "!=")|go 14%nat PlusEqual (txt "+=")
            |go 15%nat MinusEqual (txt "-=")|go 22%nat DoubleAmpersand (txt "&&")|go 24%nat DoubleVerticalBar (txt "||")
            |go 26%nat DoublePlus (txt "++")|go 28%nat DoubleMinus (txt "--")|go 29%nat LeftShift (txt "<<")|go 30%nat RightShift (txt ">>")
            |go 35%nat LessThanOrEqual (txt "<=")|go 36%nat GreaterThanOrEqual (txt ">=")|go 37%nat Arrow (txt "->")|go 38%nat StarEqual (txt "*=")
            |go 39%nat SlashEqual (txt "/=")|go 34%nat Ellipsis (txt "...")] ].
Lemma lexRound_punct bol ang t p next : In (t, p) punct ->
  (forall t' q, In (t', q) punct -> startsWith q (p ++ next) ->
     (length q <= length p)%nat \/ (ang = true /\ (t' = RightShift \/ t' = GreaterThanOrEqual))) ->
  ~ startsWith (txt "//") (p ++ next) -> ~ startsWith (txt "/*") (p ++ next) ->
  (ang = true -> t <> RightShift /\ t <> GreaterThanOrEqual) ->
  exists c r, p = c :: r /\ ~ white c /\ lexRound bol ang c (r ++ next) = Tok t next false [].
Proof.
  intros HI H N1 N2 HA. cbn [punct In] in HI.
  repeat destruct HI as [HI|HI]; [..|contradiction]; injection HI as <- <-;
    (match goal with |- exists c r, ?p = _ /\ _ => let q := eval vm_compute in p in change p with q in * end);
    (eexists _, _; split; [reflexivity|split; [unfold white; lia|]]);
    cbn [app];
    try reflexivity;
    try (destruct ang; [destruct (HA eq_refl); congruence|reflexivity]).
  all: match goal with |- lexRound _ _ ?c _ = _ => cbn [lexRound isWhite Z.eqb Pos.eqb orb] end.
  all: try (destruct ang; [reflexivity|]).
  all: destruct next as [|d next]; [reflexivity|].
  all: cbn [oper find fst].
  all: repeat match goal with
       | |- context [?k =? ?d] => is_var d; destruct (Z.eqb_spec k d) as [<-|?]; [sep_contra H|]
       | |- context [?d =? ?k] => is_var d; destruct (Z.eqb_spec d k) as [->|?]; [try sep_contra H|]
       end; try reflexivity.
  - destruct next as [|e next]; [reflexivity|]. destruct (Z.eqb_spec e 46) as [->|?]; [sep_contra H|reflexivity].
  - destruct next as [|e next]; reflexivity.
Qed.

Lemma lexRound_default bol ang c r : identByte c -> lexRound bol ang c r = readIdentifierOrLiteral (c :: r).
Proof.
  intros H. unfold lexRound. cbv zeta.
  replace (isWhite c) with false by (unfold isWhite; bytes).
  repeat match goal with |- (if c =? ?k then _ else _) = _ => replace (c =? k) with false by bytes end.
  replace ((c =? 39) || (c =? 34)) with false by bytes. reflexivity.
Qed.
Lemma ident_loop_start c r : identStart c -> readIdentifierOrLiteral (c :: r) = identLoop (S (length (c :: r))) c 0 [] (c :: r).
Proof. intros H. unfold readIdentifierOrLiteral. now replace ((48 <=? c) && (c <=? 57)) with false by bytes. Qed.

Lemma identLoop_raw n r rest : readRaw r = RawOk rest ->
  identLoop (S (S n)) 82 0 [] (82 :: 34 :: r) = Tok StringLiteral rest false [].
Proof.
  intros H. cbn [identLoop]. change (mask_match 82 identMask) with true. change (mask_match 34 identMask) with false.
  change (34 =? 34) with true. change ((1 =? 1)%nat && (82 =? 82)) with true. cbv iota. now rewrite H.
Qed.
Lemma lexRound_written bol ang t text next : written t text -> separated ang t text next ->
  (t = Directive -> bol = true) ->
  exists c r, text = c :: r /\ ~ white c /\ lexRound bol ang c (r ++ next) = Tok t next (bolAfterToken t) [].
Proof.
  intros W S0 B. destruct W as [t p HI|c s Hc Hs|q s Hq Hs|c p s Hc Hp NR Hs|d s Hd Hs|c ds f e x Hc Hds Hf He Hx H0
    |ds x Hds Nds Hx Nx|s Hs|s Hs|b name s Hb Hn Hs Hi|b s Hb Hs Hi].
  - assert (P : bolAfterToken t = false /\
      ((forall t' q, In (t', q) punct -> startsWith q (p ++ next) ->
         (length q <= length p)%nat \/ (ang = true /\ (t' = RightShift \/ t' = GreaterThanOrEqual))) /\
       ~ startsWith (txt "//") (p ++ next) /\ ~ startsWith (txt "/*") (p ++ next) /\
       (ang = true -> t <> RightShift /\ t <> GreaterThanOrEqual))).
    { split.
      - clear S0. cbn [punct In] in HI. repeat destruct HI as [HI|HI]; [..|contradiction]; injection HI as <- <-; reflexivity.
      - assert (K : In (t, p) punct) by exact HI. cbn [punct In] in HI.
        repeat destruct HI as [HI|HI]; [..|contradiction]; injection HI as <- <-; exact S0. }
    destruct P as (-> & H & N1 & N2 & HA). now apply lexRound_punct.
  - exists c, s. split; [reflexivity|]. split; [unfold white; bytes|].
    rewrite lexRound_default, ident_loop_start by first [exact Hc|left; exact Hc].
    change (c :: s ++ next) with ((c :: s) ++ next).
    destruct (identLoop_run c (c :: s) ltac:(constructor; [left; exact Hc|exact Hs]) (S (length ((c :: s) ++ next))) 0 [] next) as (f' & Hf & ->).
    { rewrite app_length. lia. }
    now apply identLoop_stop; [exact Hf|cbn; lia|].
  - exists q, (s ++ [q]). split; [reflexivity|]. split; [unfold white; lia|]. rewrite <- app_assoc. cbn [app].
    assert (E : lexRound bol ang q (s ++ q :: next) = match readString q (s ++ q :: next) with
       | Some rest => Tok StringLiteral rest false [] | None => Skip [] false [(EOFInStringLiteral, [])] end)
      by (destruct Hq as [->| ->]; reflexivity).
    rewrite E, readString_quoted; [reflexivity|lia|exact Hs].
  - exists c, (p ++ 34 :: s ++ [34]). split; [reflexivity|]. split; [unfold white; bytes|].
    rewrite lexRound_default, ident_loop_start by first [exact Hc|left; exact Hc].
    assert (E : c :: (p ++ 34 :: s ++ [34]) ++ next = (c :: p) ++ 34 :: s ++ 34 :: next)
      by (rewrite <- app_assoc; cbn [app]; rewrite <- app_assoc; reflexivity).
    rewrite E.
    destruct (identLoop_run c (c :: p) ltac:(constructor; [left; exact Hc|exact Hp]) (S (length ((c :: p) ++ 34 :: s ++ 34 :: next))) 0 []
        (34 :: s ++ 34 :: next)) as (f' & Hf & ->).
    { rewrite app_length. lia. }
    destruct f' as [|f']; [lia|]. cbn [identLoop]. rewrite mask_ident_false by bytes. change (34 =? 34) with true. cbv iota.
    replace ((0 + length (c :: p) =? 1)%nat && (c =? 82)) with false.
    2:{ destruct p as [|p0 p]; cbn; [|reflexivity]. destruct (Z.eqb_spec c 82) as [->|]; [now elim NR|reflexivity]. }
    rewrite readString_quoted; [reflexivity|lia|exact Hs].
  - exists 82, (34 :: d ++ 40 :: s ++ 41 :: d ++ [34]). split; [reflexivity|]. split; [unfold white; lia|].
    rewrite lexRound_default, ident_loop_start by bytes.
    assert (E : 82 :: (34 :: d ++ 40 :: s ++ 41 :: d ++ [34]) ++ next = 82 :: 34 :: d ++ 40 :: s ++ 41 :: d ++ 34 :: next).
    { cbn [app]. rewrite <- !app_assoc. cbn [app]. rewrite <- !app_assoc. cbn [app]. rewrite <- !app_assoc. reflexivity. }
    rewrite E. cbn [length]. apply identLoop_raw. now apply readRaw_run.
  - exists c, (ds ++ f ++ e ++ x). split; [reflexivity|]. split; [unfold white; bytes|].
    rewrite lexRound_default by (right; exact Hc). unfold readIdentifierOrLiteral.
    replace ((48 <=? c) && (c <=? 57)) with true by bytes. cbn [separated] in S0. rewrite readNumeric_decimal; [reflexivity|try assumption..].
    + intros d X Y. destruct (S0 d X) as (Z1 & Z2 & _). destruct Y; contradiction.
    + intros X d Y. destruct (S0 d Y) as (_ & _ & Z3). exact (Z3 X).
  - exists 48, (120 :: ds ++ x). split; [reflexivity|]. split; [unfold white; lia|].
    rewrite lexRound_default by bytes. unfold readIdentifierOrLiteral. cbn [app].
    change ((48 <=? 48) && (48 <=? 57)) with true. cbv iota. cbn [separated] in S0. rewrite readNumeric_hex; [reflexivity|try assumption..].
    intros d X Y. destruct (S0 d X) as (Z1 & Z2 & _). destruct Y; contradiction.
  - exists 47, (47 :: s ++ [10]). split; [reflexivity|]. split; [unfold white; lia|]. cbn [app]. rewrite <- app_assoc. cbn [app].
    change (lexRound bol ang 47 (47 :: s ++ 10 :: next)) with (Tok LineComment (skipLine (s ++ 10 :: next)) true []).
    now rewrite skipLine_run.
  - exists 47, (42 :: s ++ [42; 47]). split; [reflexivity|]. split; [unfold white; lia|]. cbn [app]. rewrite <- app_assoc. cbn [app].
    change (lexRound bol ang 47 (42 :: s ++ 42 :: 47 :: next)) with
      (let '(found, rest) := skipComment (s ++ 42 :: 47 :: next) in
       if found then Tok CStyleComment rest false [] else Skip rest false [(EOFInComment, rest)]).
    now rewrite skipComment_run.
  - exists 35, (b ++ name ++ s ++ [10]). split; [reflexivity|]. split; [unfold white; lia|]. rewrite (B eq_refl).
    change (lexRound true ang 35 ((b ++ name ++ s ++ [10]) ++ next)) with
      (let '(rest, b, e) := readDirective (35 :: (b ++ name ++ s ++ [10]) ++ next) in Tok Directive rest b e).
    now rewrite readDirective_line.
  - exists 35, (b ++ txt "define" ++ s). split; [reflexivity|]. split; [unfold white; lia|]. rewrite (B eq_refl).
    change (lexRound true ang 35 ((b ++ txt "define" ++ s) ++ next)) with
      (let '(rest, b, e) := readDirective (35 :: (b ++ txt "define" ++ s) ++ next) in Tok Directive rest b e).
    now rewrite readDirective_define.
Qed.

(** ** A whole source *)
Definition oneFile (ms : list macro) (p : pp) (bol : bool) (rest : list Z) : Prop :=
  ppMacros p = ms /\ (exists ci d, ppStack p = [mkItem ci d rest]) /\ ppBol p = bol /\ ppErrors p = [].

Lemma skipWhite_run g : allWhite g -> forall bol rest, (forall c, hd_error rest = Some c -> ~ white c) ->
  skipWhite bol (g ++ rest) = (rest, bolAfterGap bol g).
Proof.
  intros H. induction H as [|c g Hc H IH]; intros bol rest Hr; cbn [app].
  - unfold bolAfterGap. cbn [existsb]. rewrite orb_false_r. destruct rest as [|c r]; [reflexivity|]. cbn [skipWhite].
    specialize (Hr c eq_refl). rewrite <- white_iff in Hr. destruct (isWhite c); [congruence|reflexivity].
  - cbn [skipWhite]. rewrite (proj2 (white_iff c) Hc), IH by exact Hr. f_equal. unfold bolAfterGap. cbn [existsb].
    rewrite (Z.eqb_sym 10 c). destruct (c =? 10), bol; reflexivity.
Qed.
Lemma token_round f ang last p ms bol c r next t :
  oneFile ms p bol (c :: r ++ next) -> lexRound bol ang c (r ++ next) = Tok t next (bolAfterToken t) [] ->
  t <> Macro -> (t = Identifier -> findMacro (c :: r) ms = None) ->
  exists loc q, readTokenF (S f) ang last p = Got (mkToken loc t (c :: r)) q /\ oneFile ms q (bolAfterToken t) next.
Proof.
  intros (HM & (ci & d & HS) & HB & HE) L NM FM. subst ms. cbn [readTokenF]. rewrite HS. cbn [itRest]. rewrite HB, L. cbv zeta.
  change (c :: r ++ next) with ((c :: r) ++ next). rewrite between_app, HE.
  assert (G : forall args, exists loc q, Got (mkToken (linearLoc (ppEnd p) ((c :: r) ++ next)) t (c :: r))
     (mkPP [advance (mkItem ci d ((c :: r) ++ next)) next] (ppEnd p) (bolAfterToken t) (ppMacros p) (ppChains p) (ppMap p)
        (addErrs (ppEnd p) [] []) args) = Got (mkToken loc t (c :: r)) q /\ oneFile (ppMacros p) q (bolAfterToken t) next).
  { intros args. eexists _, _. split; [reflexivity|]. split; [reflexivity|]. split; [|split; reflexivity].
    unfold advance. cbn [itChain itDone itRest ppStack]. eexists _, _. reflexivity. }
  destruct t; try apply G. rewrite FM by reflexivity. apply G.
Qed.
Lemma gap_round f ang last p ms bol g rest : g <> [] -> allWhite g -> (forall c, hd_error rest = Some c -> ~ white c) ->
  oneFile ms p bol (g ++ rest) ->
  exists last' q, readTokenF (S f) ang last p = readTokenF f ang last' q /\ oneFile ms q (bolAfterGap bol g) rest.
Proof.
  intros Ng Wg Hr (HM & (ci & d & HS) & HB & HE). destruct g as [|c g]; [congruence|].
  inversion Wg as [|? ? Wc Wg']; subst. cbn [readTokenF]. rewrite HS. cbn [itRest app]. unfold lexRound at 1.
  rewrite (proj2 (white_iff c) Wc). change (c :: g ++ rest) with ((c :: g) ++ rest). rewrite skipWhite_run by assumption.
  eexists _, _. split; [reflexivity|]. split; [reflexivity|]. split; [unfold advance; cbn [itChain ppStack]; eexists _, _; reflexivity|].
  split; [reflexivity|]. cbn [ppErrors]. rewrite HE. reflexivity.
Qed.
Lemma end_round f ang last p ms bol : oneFile ms p bol [] ->
  exists e q, readTokenF (S (S f)) ang last p = Got e q /\ tokType e = EndOfFile /\ ppErrors q = [].
Proof.
  intros (HM & (ci & d & HS) & HB & HE). cbn [readTokenF]. rewrite HS. cbn [itRest ppStack]. eexists _, _.
  split; [reflexivity|]. split; [reflexivity|]. exact HE.
Qed.
Lemma oneFile_left ms p bol rest : oneFile ms p bol rest -> left p = S (length rest).
Proof. intros (_ & (ci & d & HS) & _). unfold left. rewrite HS. cbn. lia. Qed.

Lemma written_type t text : written t text -> t <> Macro /\ t <> EndOfFile.
Proof.
  intros W. destruct W; try (split; discriminate).
  match goal with H : In _ punct |- _ => cbn [punct In] in H; repeat destruct H as [H|H]; [..|contradiction]; injection H as <- <- end; split; discriminate.
Qed.
Lemma source_read ms bol angles src ts : source bol angles src ts ->
  (forall name, In (Identifier, name) ts -> findMacro name ms = None) ->
  forall p, oneFile ms p bol src ->
  exists n toks e q, readAll n angles p = Some (toks ++ [e], q) /\ tokType e = EndOfFile /\
    map (fun t => (tokType t, tokText t)) toks = ts /\ ppErrors q = [].
Proof.
  intros H. induction H as [bol angles g Wg|bol angles g t text rest ts Wg W S0 B _ IH]; intros FM p O.
  - assert (R : exists e q, readToken (hd false angles) p = Got e q /\ tokType e = EndOfFile /\ ppErrors q = []).
    { unfold readToken. rewrite (oneFile_left _ _ _ _ O). destruct g as [|c g].
      - exact (end_round _ _ _ _ _ _ O).
      - rewrite <- (app_nil_r (c :: g)) in O. destruct (gap_round (S (length (c :: g))) (hd false angles) (-1) p ms bol (c :: g) []
            ltac:(discriminate) Wg ltac:(discriminate) O) as (l' & q & -> & O'). exact (end_round _ _ _ _ _ _ O'). }
    destruct R as (e & q & R & Te & Eq). exists 1%nat, [], e, q. cbn [readAll]. rewrite R, Te. repeat split; assumption.
  - destruct (lexRound_written (bolAfterGap bol g) (hd false angles) t text rest W S0 B) as (c & r & -> & Nc & L).
    destruct (written_type _ _ W) as [NM NE].
    assert (FMt : t = Identifier -> findMacro (c :: r) ms = None) by (intros ->; apply FM; now left).
    assert (R : exists loc q, readToken (hd false angles) p = Got (mkToken loc t (c :: r)) q /\ oneFile ms q (bolAfterToken t) rest).
    { unfold readToken. rewrite (oneFile_left _ _ _ _ O). destruct g as [|w g].
      - unfold bolAfterGap in L. cbn [existsb] in L. rewrite orb_false_r in L. cbn [app] in O.
        exact (token_round _ _ _ _ _ _ _ _ _ _ O L NM FMt).
      - destruct (gap_round (S (length ((w :: g) ++ (c :: r) ++ rest))) (hd false angles) (-1) p ms bol (w :: g) ((c :: r) ++ rest)
            ltac:(discriminate) Wg ltac:(cbn; intros x X; injection X as <-; exact Nc) O) as (l' & q & -> & O').
        exact (token_round _ _ _ _ _ _ _ _ _ _ O' L NM FMt). }
    destruct R as (loc & q & R & Oq).
    destruct (IH ltac:(intros name Hn; apply FM; now right) q Oq) as (n & toks & e & q' & RA & Te & Em & Eq).
    exists (S n), (mkToken loc t (c :: r) :: toks), e, q'. split.
    + cbn [readAll]. rewrite R. cbn [tokType]. rewrite RA. destruct t; try reflexivity. congruence.
    + split; [exact Te|]. split; [cbn; now rewrite Em|exact Eq].
Qed.
Theorem written_read_back ms angles src ts : source true angles src ts ->
  (forall name m, In (Identifier, name) ts -> In m ms -> mName m <> name) ->
  exists n toks e q, readAll n angles (start ms src) = Some (toks ++ [e], q) /\ tokType e = EndOfFile /\
    map (fun t => (tokType t, tokText t)) toks = ts /\ ppErrors q = [].
Proof.
  intros H FM. apply (source_read ms true angles src ts H).
  - intros name Hn. induction ms as [|m ms IH]; [reflexivity|]. cbn [findMacro]. unfold bytesEqb.
    destruct (list_eq_dec Z.eq_dec name (mName m)) as [E|_]; [exfalso; exact (FM name m Hn (or_introl eq_refl) (eq_sym E))|].
    apply IH. intros name' m' H1 H2. exact (FM name' m' H1 (or_intror H2)).
  - split; [reflexivity|]. split; [eexists _, _; reflexivity|]. split; reflexivity.
Qed.
