(* Proofs about titles. *)
From Coq Require Import String.
From Verif Require Import Base Txt EscapeSpec EscapeProofs TitleModel TitleSpec.
Local Open Scope string_scope.
Local Open Scope list_scope.
Local Open Scope Z_scope.
Local Notation length := List.length.

Lemma id_loop_split s w f : exists u, s = u ++ fst (id_loop s w f).
Proof.
  revert w f. induction s as [|c s IH]; intros w f; cbn; [exists []; reflexivity|].
  destruct (mask_match c (id_mask w)); [|exists []; reflexivity].
  destruct (IH (if f then Z.lor w 0x3ff0000 else w) false) as [u E]. exists (c :: u). cbn. f_equal. exact E.
Qed.
Lemma read_split r w rest : readIdentifier r = (w, rest) -> r = w ++ rest.
Proof.
  unfold readIdentifier, parse_identifier. destruct (id_loop_split r (id_word1 0) true) as [u E].
  destruct (id_loop r (id_word1 0) true) as [rest' w1]. cbn [fst snd] in *. intros [= <- <-]. subst r.
  rewrite app_length. replace (length u + length rest' - length rest')%nat with (length u) by lia.
  rewrite firstn_app, Nat.sub_diag, firstn_all. cbn. rewrite app_nil_r. reflexivity.
Qed.

Lemma read_keyword ty kw r : keyword ty kw -> readIdentifier (kw ++ 32 :: r) = (kw, 32 :: r).
Proof.
  intros H.
  assert (E : snd (parse_identifier (kw ++ 32 :: r) 0) = 32 :: r) by (destruct H; vm_compute; reflexivity).
  unfold readIdentifier. rewrite E. f_equal. rewrite app_length.
  replace (Nat.sub (Nat.add (length kw) (length (32 :: r))) (length (32 :: r))) with (length kw) by lia.
  rewrite firstn_app, Nat.sub_diag, firstn_all. cbn. apply app_nil_r.
Qed.
Lemma keyword_type ty kw old loc : keyword ty kw -> spanTypeOf kw old loc = (ty, []).
Proof. intros H. destruct H; vm_compute; reflexivity. Qed.
Lemma sameText_true a b : sameText a b = true -> a = b.
Proof. unfold sameText. destruct (list_eq_dec Z.eq_dec a b); [auto|discriminate]. Qed.
Lemma type_keyword w old loc ty : spanTypeOf w old loc = (ty, []) -> keyword ty w.
Proof.
  unfold spanTypeOf. destruct w as [|c w]; [discriminate|].
  destruct (sameText (c :: w) (txt "strong")) eqn:E1; [intros [= <-]; rewrite (sameText_true _ _ E1); constructor|].
  destruct (sameText (c :: w) (txt "em")) eqn:E2; [intros [= <-]; rewrite (sameText_true _ _ E2); constructor|].
  destruct (sameText (c :: w) (txt "qid")) eqn:E3; [intros [= <-]; rewrite (sameText_true _ _ E3); constructor|discriminate].
Qed.
Lemma skip_inv n w rest rest1 : skipSpace n w rest = (rest1, []) -> rest = 32 :: rest1.
Proof.
  unfold skipSpace. destruct rest as [|c r]; [discriminate|].
  destruct (Z.eq_dec c 32) as [->|Hc]; [intros [= <-]; reflexivity|].
  destruct c as [|p|p]; try discriminate. do 6 (destruct p as [p|p|]; try discriminate). contradiction.
Qed.
Lemma skip_len n w rest : (length (fst (skipSpace n w rest)) <= length rest)%nat.
Proof.
  unfold skipSpace. destruct rest as [|c r]; [cbn; lia|]. destruct c as [|p|p]; try (cbn; lia).
  do 6 (destruct p as [p|p|]; try (cbn; lia)).
Qed.

Lemma emit_some l es r : r <> None -> emit l es r <> None.
Proof. destruct r as [[? ?]|]; [discriminate|contradiction]. Qed.

Lemma loop_ends n : forall fuel ins text ty start, (length ins < fuel)%nat -> title_loop fuel n ins text ty start <> None.
Proof.
  induction fuel as [|fuel IH]; intros ins text ty start Hf; [lia|]. cbn [title_loop].
  destruct ins as [|c r]; [discriminate|]. cbn [length] in Hf.
  destruct (c =? 92); [destruct r as [|d r]; cbn [length] in Hf; apply IH; cbn; lia|].
  destruct (c =? 91).
  - destruct (readIdentifier r) as [w rest] eqn:E. apply read_split in E.
    destruct (spanTypeOf w ty (n - zlen r)) as [ty1 es2]. destruct (skipSpace n w rest) as [rest1 es3] eqn:Es.
    apply emit_some, IH. pose proof (skip_len n w rest) as H. rewrite Es in H. cbn in H.
    subst r. rewrite app_length in Hf. lia.
  - destruct (c =? 93); [|apply IH; lia]. destruct (isNormal ty); apply emit_some, IH; lia.
Qed.

(** ** Titles are read *)
Lemma special_no c : ~ In c (txt "\[]") -> (c =? 92) = false /\ (c =? 91) = false /\ (c =? 93) = false.
Proof.
  intros H. change (txt "\[]") with [92; 91; 93] in H. cbn in H. repeat split; apply Z.eqb_neq; intros ->; apply H; auto.
Qed.

Lemma run_escapes n s t : escapes s t -> forall tail text ty start fuel, (length (s ++ tail) < fuel)%nat ->
  exists fuel', (length tail < fuel')%nat /\
  title_loop fuel n (s ++ tail) text ty start = title_loop fuel' n tail (text ++ t) ty start.
Proof.
  induction 1 as [|c s t Hc H IH|c s t H IH]; intros tail text ty start fuel Hf.
  - exists fuel. rewrite app_nil_r. split; [exact Hf|reflexivity].
  - destruct fuel as [|fuel]; [lia|]. cbn [app length] in Hf. destruct (special_no c Hc) as (E1 & E2 & E3).
    destruct (IH tail (text ++ [c]) ty start fuel) as (f' & Hf' & E); [lia|]. exists f'. split; [exact Hf'|].
    cbn [app title_loop]. rewrite E1, E2, E3, E, <- app_assoc. reflexivity.
  - destruct fuel as [|fuel]; [lia|]. cbn [app length] in Hf.
    destruct (IH tail (text ++ [c]) ty start fuel) as (f' & Hf' & E); [lia|]. exists f'. split; [exact Hf'|].
    cbn [app title_loop]. rewrite Z.eqb_refl, E, <- app_assoc. reflexivity.
Qed.

Lemma run_title n s l : title s l -> forall start fuel, (length s < fuel)%nat -> title_loop fuel n s [] Normal start = Some (l, []).
Proof.
  induction 1 as [s t H|s t H|s t ty kw u v rest l H Hk Hu Ht IH]; intros start fuel Hf.
  - destruct (run_escapes n s t H [] [] Normal start fuel) as (f & Hf' & E); [rewrite app_nil_r; exact Hf|].
    rewrite app_nil_r in E. rewrite E. destruct f as [|f]; [cbn in Hf'; lia|]. cbn. destruct t; reflexivity.
  - destruct (run_escapes n s t H [92] [] Normal start fuel Hf) as (f & Hf' & E).
    rewrite E. destruct f as [|[|f]]; [cbn in Hf'; lia|cbn in Hf'; lia|]. cbn. destruct t; reflexivity.
  - destruct (run_escapes n s t H _ [] Normal start fuel Hf) as (f & Hf' & E). rewrite E. clear E Hf fuel.
    destruct f as [|f]; [lia|]. change (txt "[") with [91] in *. change (txt " ") with [32] in *. change (txt "]") with [93] in *.
    cbn [app] in Hf' |- *. cbn [title_loop]. change (91 =? 92) with false. change (91 =? 91) with true. cbv beta iota.
    rewrite (read_keyword ty kw _ Hk). rewrite (keyword_type ty kw _ _ Hk). cbn [skipSpace isNormal app].
    cbn [length] in Hf'. rewrite app_length in Hf'. cbn [length] in Hf'.
    match goal with |- context [title_loop f n ?i [] ty ?st] => destruct (run_escapes n u v Hu (93 :: rest) [] ty st f) as (f2 & Hf2 & E2); [lia|] end.
    rewrite E2. destruct f2 as [|f2]; [lia|]. cbn [title_loop]. change (93 =? 92) with false. change (93 =? 91) with false. change (93 =? 93) with true.
    cbv beta iota. replace (isNormal ty) with false by (destruct Hk; reflexivity).
    rewrite IH by (cbn [length] in Hf2; lia). destruct t, v; reflexivity.
Qed.

(** ** And nothing else is read without an error *)
Definition normalFrom (text ins : list Z) (l : list span) : Prop :=
  exists s t, escapes s t /\
  ((ins = s /\ l = spanned Normal (text ++ t)) \/ (ins = s ++ [92] /\ l = spanned Normal (text ++ t)) \/
   exists ty kw u v rest l', ins = s ++ txt "[" ++ kw ++ txt " " ++ u ++ txt "]" ++ rest /\ keyword ty kw /\ escapes u v /\
     title rest l' /\ l = spanned Normal (text ++ t) ++ spanned ty v ++ l').
Definition insideFrom (ty : spanType) (text ins : list Z) (l : list span) : Prop :=
  exists u v rest l', escapes u v /\ ins = u ++ txt "]" ++ rest /\ title rest l' /\ l = spanned ty (text ++ v) ++ l'.

Lemma normal_title ins l : normalFrom [] ins l -> title ins l.
Proof.
  intros (s & t & H & [(-> & ->)|[(-> & ->)|(ty & kw & u & v & rest & l' & -> & Hk & Hu & Ht & ->)]]); cbn [app].
  - apply title_end, H.
  - apply title_backslash, H.
  - apply (title_span s t ty kw u v rest l'); assumption.
Qed.

Lemma normal_more x pre text ins l : (forall s t, escapes s t -> escapes (pre ++ s) (x :: t)) ->
  normalFrom (text ++ [x]) ins l -> normalFrom text (pre ++ ins) l.
Proof.
  intros Hx (s & t & H & Hc). exists (pre ++ s), (x :: t). split; [apply Hx, H|].
  assert (E : text ++ x :: t = (text ++ [x]) ++ t) by (rewrite <- app_assoc; reflexivity). rewrite E.
  destruct Hc as [(-> & ->)|[(-> & ->)|(ty & kw & u & v & rest & l' & -> & Hc)]].
  - left. split; reflexivity.
  - right. left. split; [rewrite app_assoc|]; reflexivity.
  - right. right. exists ty, kw, u, v, rest, l'. split; [rewrite app_assoc; reflexivity|exact Hc].
Qed.
Lemma inside_more x pre ty text ins l : (forall s t, escapes s t -> escapes (pre ++ s) (x :: t)) ->
  insideFrom ty (text ++ [x]) ins l -> insideFrom ty text (pre ++ ins) l.
Proof.
  intros Hx (u & v & rest & l' & H & -> & Ht & ->). exists (pre ++ u), (x :: v), rest, l'. split; [apply Hx, H|].
  split; [rewrite app_assoc; reflexivity|]. split; [exact Ht|]. rewrite <- app_assoc. reflexivity.
Qed.

Lemma emit_inv l es r L : emit l es r = Some (L, []) -> es = [] /\ exists l', r = Some (l', []) /\ L = l ++ l'.
Proof.
  destruct r as [[l' es']|]; [|discriminate]. cbn. intros [= <- E]. apply app_eq_nil in E as [-> ->]. split; [reflexivity|]. exists l'. auto.
Qed.

Lemma read_title n : forall fuel ins text ty start l, title_loop fuel n ins text ty start = Some (l, []) ->
  if isNormal ty then normalFrom text ins l else insideFrom ty text ins l.
Proof.
  induction fuel as [|fuel IH]; intros ins text ty start l; [discriminate|]. cbn [title_loop].
  assert (Hflush : forall ty0 t, flushSpan ty0 t = spanned ty0 t) by (intros ? []; reflexivity).
  destruct ins as [|c r].
  - destruct ty; cbn [isNormal]; try discriminate. intros [= <-]. exists [], []. split; [constructor|]. left.
    split; [reflexivity|]. rewrite app_nil_r. apply Hflush.
  - destruct (Z.eqb_spec c 92) as [->|H1].
    + destruct r as [|d r].
      * intros H. apply IH in H. destruct (isNormal ty).
        -- destruct H as (s & t & He & [(<- & ->)|[(E & _)|(ty0 & kw & u & v & rest & l' & E & _)]]).
           ++ inversion He; subst. exists [], []. split; [constructor|]. right. left. split; reflexivity.
           ++ destruct s; discriminate E.
           ++ destruct s; discriminate E.
        -- destruct H as (u & v & rest & l' & _ & E & _). destruct u; discriminate E.
      * intros H. apply IH in H. change (92 :: d :: r) with ([92; d] ++ r). destruct (isNormal ty).
        -- apply (normal_more d); [|exact H]. intros s t He. cbn. apply escapes_any, He.
        -- apply (inside_more d); [|exact H]. intros s t He. cbn. apply escapes_any, He.
    + destruct (Z.eqb_spec c 91) as [->|H2].
      * destruct (readIdentifier r) as [w rest] eqn:Er. apply read_split in Er.
        destruct (spanTypeOf w ty (n - zlen r)) as [ty1 es2] eqn:Et. destruct (skipSpace n w rest) as [rest1 es3] eqn:Es.
        intros H. apply emit_inv in H as (He & l' & Hl & ->). apply app_eq_nil in He as [He1 He]. apply app_eq_nil in He as [-> ->].
        apply type_keyword in Et. apply skip_inv in Es. apply IH in Hl.
        destruct ty; cbn [isNormal] in *; try discriminate He1.
        replace (isNormal ty1) with false in Hl by (destruct Et; reflexivity).
        destruct Hl as (u & v & rest2 & l2 & Hu & -> & Ht & ->). exists [], []. split; [constructor|]. right. right.
        exists ty1, w, u, v, rest2, l2. rewrite Hflush, app_nil_r. subst r rest. repeat split; assumption.
      * destruct (Z.eqb_spec c 93) as [->|H3].
        -- destruct (isNormal ty) eqn:En.
           ++ intros H. apply emit_inv in H as (He & _). discriminate He.
           ++ intros H. apply emit_inv in H as (_ & l' & Hl & ->). apply IH in Hl. cbn [isNormal] in Hl. apply normal_title in Hl.
              exists [], [], r, l'. split; [constructor|]. split; [reflexivity|]. split; [exact Hl|]. rewrite Hflush, app_nil_r. reflexivity.
        -- intros H. apply IH in H. change (c :: r) with ([c] ++ r).
           assert (Hx : forall s t, escapes s t -> escapes ([c] ++ s) (c :: t)).
           { intros s t He. cbn. apply escapes_byte; [|exact He]. change (txt "\[]") with [92; 91; 93]. cbn. intuition congruence. }
           destruct (isNormal ty); [apply (normal_more c)|apply (inside_more c)]; assumption.
Qed.

Lemma title_exact src l : parseTitle src = Some (l, []) <-> title src l.
Proof.
  unfold parseTitle. split.
  - intros H. apply read_title in H. apply normal_title, H.
  - intros H. apply run_title; [exact H|lia].
Qed.

(** ** Places of errors *)

Lemma zlen_le (a b : list Z) : (length a <= length b)%nat -> zlen a <= zlen b.
Proof. unfold zlen. lia. Qed.

Lemma loop_places n : forall fuel ins text ty start l es, title_loop fuel n ins text ty start = Some (l, es) ->
  0 <= start <= n -> zlen ins <= n -> Forall (fun e => 0 <= place e <= n) es.
Proof.
  induction fuel as [|fuel IH]; intros ins text ty start l es; [discriminate|]. cbn [title_loop].
  destruct ins as [|c r].
  - intros [= _ <-] Hs _. destruct (isNormal ty); [constructor|]. constructor; [exact Hs|constructor].
  - assert (Hz : zlen (c :: r) = zlen r + 1) by (unfold zlen; cbn [length]; lia).
    assert (Hr0 : 0 <= zlen r) by (unfold zlen; lia).
    destruct (c =? 92).
    + destruct r as [|d r]; intros H Hs Hn; eapply IH; try exact H; try exact Hs; [unfold zlen in *; cbn in *; lia|].
      unfold zlen in *; cbn [length] in *; lia.
    + destruct (c =? 91).
      * destruct (readIdentifier r) as [w rest] eqn:Er. apply read_split in Er.
        destruct (spanTypeOf w ty (n - zlen r)) as [ty1 es2] eqn:Et. destruct (skipSpace n w rest) as [rest1 es3] eqn:Es.
        intros H Hs Hn. destruct (title_loop fuel n rest1 [] ty1 (n - zlen r - 1)) as [[l' es']|] eqn:E; [|discriminate H].
        cbn in H. injection H as _ <-.
        assert (Hrest : 0 <= zlen rest <= zlen r) by (subst r; unfold zlen; rewrite app_length; lia).
        assert (Hrest1 : zlen rest1 <= zlen rest) by (apply zlen_le; pose proof (skip_len n w rest) as HL; rewrite Es in HL; exact HL).
        apply Forall_app; split.
        -- apply Forall_app. split; [|apply Forall_app; split].
           ++ destruct (isNormal ty); [constructor|]. constructor; [exact Hs|constructor].
           ++ unfold spanTypeOf in Et. destruct w as [|y w]; [injection Et as _ <-; constructor; [cbn; lia|constructor]|].
              destruct (sameText _ _); [injection Et as _ <-; constructor|]. destruct (sameText _ _); [injection Et as _ <-; constructor|].
              destruct (sameText _ _); injection Et as _ <-; [constructor|]. constructor; [cbn; lia|constructor].
           ++ unfold skipSpace in Es. assert (Hp : Forall (fun e => 0 <= place e <= n) [ExpectedSpace w (n - zlen rest)]) by (constructor; [cbn; lia|constructor]).
              destruct rest as [|y rest]; [injection Es as _ <-; exact Hp|].
              destruct y as [|p|p]; try (injection Es as _ <-; exact Hp).
              do 6 (destruct p as [p|p|]; try (injection Es as _ <-; exact Hp)). injection Es as _ <-. constructor.
        -- eapply IH; [exact E|lia|lia].
      * destruct (c =? 93).
        -- destruct (isNormal ty); intros H Hs Hn;
             match type of H with emit _ _ ?t = _ => destruct t as [[l' es']|] eqn:E; [|discriminate H] end; cbn in H; injection H as _ <-.
           ++ constructor; [cbn; lia|]. eapply IH; [exact E|exact Hs|lia].
           ++ eapply IH; [exact E|exact Hs|lia].
        -- intros H Hs Hn. eapply IH; [exact H|exact Hs|lia].
Qed.

(** ** HTML *)
Lemma title_html link spans : (forall t, In t (map snd spans) -> bytes_ok t /\ no_overlong_ascii t /\ bytes_ok (link t) /\ no_overlong_ascii (link t)) ->
  shows link (writeTitle link spans) spans.
Proof.
  induction spans as [|[ty t] spans IH]; intros H; [constructor|].
  change (writeTitle link ((ty, t) :: spans)) with (writeSpan link (ty, t) ++ writeTitle link spans).
  destruct (H t (or_introl eq_refl)) as (H1 & H2 & H3 & H4). pose proof (xml_lossless t H1 H2) as Ht. pose proof (xml_lossless _ H3 H4) as Hd.
  specialize (IH (fun t' H' => H t' (or_intror H'))).
  unfold writeSpan. cbn [fst snd]. destruct ty.
  - apply shows_text; assumption.
  - rewrite <- !app_assoc. apply shows_strong; assumption.
  - rewrite <- !app_assoc. apply shows_em; assumption.
  - destruct (link t) as [|x d] eqn:E.
    + cbn [app]. rewrite app_nil_r. apply shows_plain_qid; assumption.
    + rewrite <- !app_assoc. apply shows_link; [exact Ht|congruence|rewrite E; exact Hd|exact IH].
Qed.
