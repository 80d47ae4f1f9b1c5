(* Errors in titles, and every list of spans can be written. *)
From Coq Require Import String.
From Verif Require Import Base Txt ScanModel ScanSpec ScanProofs EscapeSpec TitleModel TitleSpec TitleProofs.
Local Open Scope string_scope.
Local Open Scope list_scope.
Local Open Scope Z_scope.
Local Notation length := List.length.

Definition stops (rest : list Z) : Prop := match rest with [] => True | c :: _ => ~ id_continue 0 c end.
Lemma prefix_one : forall w rest w' rest', Forall (id_continue 0) w -> Forall (id_continue 0) w' ->
  stops rest -> stops rest' -> w ++ rest = w' ++ rest' -> w = w' /\ rest = rest'.
Proof.
  induction w as [|c w IH]; intros rest [|c' w'] rest' H H' S1 S2 E; cbn [app] in E.
  - auto.
  - subst rest. inversion H'; subst. contradiction.
  - subst rest'. inversion H; subst. contradiction.
  - injection E as -> E. inversion H; inversion H'; subst. destruct (IH rest w' rest') as [-> ->]; auto.
Qed.
Lemma ident_all w : ident 0 w -> Forall (id_continue 0) w.
Proof. destruct w as [|c w]; [intros []|]. intros [H1 H2]. constructor; [left; exact H1|exact H2]. Qed.

Lemma read_ident w rest : ident 0 w -> bytes_ok (w ++ rest) -> stops rest -> readIdentifier (w ++ rest) = (w, rest).
Proof.
  intros Hw Hb Hs. assert (E : snd (parse_identifier (w ++ rest) 0) = rest).
  { pose proof (identifier_spec (w ++ rest) 0 Hb) as H. destruct (parse_identifier (w ++ rest) 0) as [ok rest'] eqn:E. cbn [snd].
    destruct H as (w' & E' & D). destruct D as [(Hw' & _ & Hs')|(-> & Hn & _)].
    - symmetry. apply (prefix_one w rest w' rest'); auto using ident_all.
    - destruct w as [|c w]; [destruct Hw|]. cbn [app] in E'. subst rest'. destruct Hw as [Hc _]. contradiction. }
  unfold readIdentifier. rewrite E. f_equal. rewrite app_length. rewrite Nat.add_sub.
  rewrite firstn_app, Nat.sub_diag, firstn_all. cbn. apply app_nil_r.
Qed.
Lemma read_none rest : bytes_ok rest -> match rest with [] => True | c :: _ => ~ id_start 0 c end -> readIdentifier rest = ([], rest).
Proof.
  intros Hb Hs. assert (E : snd (parse_identifier rest 0) = rest).
  { pose proof (identifier_spec rest 0 Hb) as H. destruct (parse_identifier rest 0) as [ok rest'] eqn:E. cbn [snd].
    destruct H as (w' & E' & D). destruct D as [(Hw' & _ & _)|(-> & _)]; [|exact (eq_sym E')].
    destruct w' as [|c w']; [destruct Hw'|]. destruct Hw' as [Hc _]. rewrite E' in Hs. cbn in Hs. contradiction. }
  unfold readIdentifier. rewrite E, Nat.sub_diag. reflexivity.
Qed.

Lemma space_stops r : stops (32 :: r).
Proof.
  unfold stops, id_continue, id_start. intros [[H|[H|[H|[H|[[H _]|[H _]]]]]]|H]; lia.
Qed.

(** Running from any state over one piece. *)
Lemma flush_spanned ty t : flushSpan ty t = spanned ty t.
Proof. destruct t; reflexivity. Qed.

Lemma run_open n ty kw tail text old start fuel : keyword ty kw -> (length (91%Z :: kw ++ 32%Z :: tail) < fuel)%nat ->
  exists fuel', (length tail < fuel')%nat /\
  title_loop fuel n (91 :: kw ++ 32 :: tail) text old start =
  emit (spanned old text) (if isNormal old then [] else [UnclosedSpan start]) (title_loop fuel' n tail [] ty (n - zlen (kw ++ 32 :: tail) - 1)).
Proof.
  intros Hk Hf. destruct fuel as [|fuel]; [lia|]. exists fuel. cbn [length] in Hf. rewrite app_length in Hf. cbn [length] in Hf. split; [lia|].
  cbn [title_loop]. change (91 =? 92) with false. change (91 =? 91) with true. cbv beta iota.
  rewrite (read_keyword ty kw _ Hk), (keyword_type ty kw _ _ Hk). cbn [skipSpace]. rewrite flush_spanned, !app_nil_r. reflexivity.
Qed.
Lemma run_close n ty tail text start fuel : isNormal ty = false -> (length (93%Z :: tail) < fuel)%nat ->
  exists fuel', (length tail < fuel')%nat /\
  title_loop fuel n (93 :: tail) text ty start = emit (spanned ty text) [] (title_loop fuel' n tail [] Normal start).
Proof.
  intros Hk Hf. destruct fuel as [|fuel]; [lia|]. exists fuel. cbn [length] in Hf. split; [lia|].
  cbn [title_loop]. change (93 =? 92) with false. change (93 =? 91) with false. change (93 =? 93) with true. cbv beta iota.
  rewrite Hk, flush_spanned. reflexivity.
Qed.
Lemma run_end n text ty start fuel : (0 < fuel)%nat ->
  title_loop fuel n [] text ty start = Some (spanned ty text, if isNormal ty then [] else [UnclosedSpan start]).
Proof. intros H. destruct fuel; [lia|]. cbn. rewrite flush_spanned. reflexivity. Qed.

Lemma zlen_app (a b : list Z) : zlen (a ++ b) = zlen a + zlen b.
Proof. unfold zlen. rewrite app_length. lia. Qed.
Lemma zlen_cons c (a : list Z) : zlen (c :: a) = zlen a + 1.
Proof. unfold zlen. cbn [length]. lia. Qed.

Lemma keyword_inside ty kw : keyword ty kw -> isNormal ty = false.
Proof. intros []; reflexivity. Qed.

Lemma unclosed_ok s t ty kw u v : escapes s t -> keyword ty kw -> escapes u v ->
  parseTitle (s ++ txt "[" ++ kw ++ txt " " ++ u) = Some (spanned Normal t ++ spanned ty v, [UnclosedSpan (zlen s)]).
Proof.
  intros Hs Hk Hu. unfold parseTitle. change (txt "[") with [91]. change (txt " ") with [32]. cbn [app].
  set (n := zlen _).
  destruct (run_escapes n s t Hs (91 :: kw ++ 32 :: u) [] Normal 0 (S (length (s ++ 91 :: kw ++ 32 :: u))) ltac:(lia)) as (f1 & L1 & ->).
  destruct (run_open n ty kw u ([] ++ t) Normal 0 f1 Hk L1) as (f2 & L2 & ->).
  match goal with |- context [title_loop f2 n u [] ty ?st] =>
    destruct (run_escapes n u v Hu [] [] ty st f2 ltac:(rewrite app_nil_r; exact L2)) as (f3 & L3 & E3) end.
  rewrite app_nil_r in E3. rewrite E3, run_end by (cbn in L3; lia). rewrite (keyword_inside ty kw Hk). cbn [emit app isNormal].
  repeat f_equal. unfold n. rewrite zlen_app, zlen_cons. lia.
Qed.

Lemma close_ok s t u v : escapes s t -> escapes u v ->
  parseTitle (s ++ txt "]" ++ u) = Some (spanned Normal (t ++ v), [UnexpectedClose (zlen s)]).
Proof.
  intros Hs Hu. unfold parseTitle. change (txt "]") with [93]. cbn [app]. set (n := zlen _).
  destruct (run_escapes n s t Hs (93 :: u) [] Normal 0 (S (length (s ++ 93 :: u))) ltac:(lia)) as (f1 & L1 & ->).
  destruct f1 as [|f1]; [lia|]. cbn [title_loop]. change (93 =? 92) with false. change (93 =? 91) with false. change (93 =? 93) with true.
  cbv beta iota. cbn [isNormal]. cbn [length] in L1.
  destruct (run_escapes n u v Hu [] ([] ++ t) Normal 0 f1 ltac:(rewrite app_nil_r; lia)) as (f2 & L2 & E2).
  rewrite app_nil_r in E2. rewrite E2, run_end by (cbn in L2; lia). cbn [emit app isNormal].
  repeat f_equal. unfold n. rewrite zlen_app, zlen_cons. lia.
Qed.

Lemma nested_ok s t ty kw u v ty2 kw2 u2 v2 : escapes s t -> keyword ty kw -> escapes u v -> keyword ty2 kw2 -> escapes u2 v2 ->
  parseTitle (s ++ txt "[" ++ kw ++ txt " " ++ u ++ txt "[" ++ kw2 ++ txt " " ++ u2 ++ txt "]") =
  Some (spanned Normal t ++ spanned ty v ++ spanned ty2 v2, [UnclosedSpan (zlen s)]).
Proof.
  intros Hs Hk Hu Hk2 Hu2. unfold parseTitle. change (txt "[") with [91]. change (txt " ") with [32]. change (txt "]") with [93]. cbn [app].
  set (n := zlen _). match goal with |- title_loop (S (length ?x)) _ _ _ _ _ = _ => set (len := S (length x)) end.
  destruct (run_escapes n s t Hs (91 :: kw ++ 32 :: u ++ 91 :: kw2 ++ 32 :: u2 ++ [93]) [] Normal 0 len ltac:(unfold len; lia)) as (f1 & L1 & ->).
  destruct (run_open n ty kw (u ++ 91 :: kw2 ++ 32 :: u2 ++ [93]) ([] ++ t) Normal 0 f1 Hk L1) as (f2 & L2 & ->).
  set (st := n - _ - 1).
  destruct (run_escapes n u v Hu (91 :: kw2 ++ 32 :: u2 ++ [93]) [] ty st f2 L2) as (f3 & L3 & ->).
  destruct (run_open n ty2 kw2 (u2 ++ [93]) ([] ++ v) ty st f3 Hk2 L3) as (f4 & L4 & ->). set (st2 := n - _ - 1).
  destruct (run_escapes n u2 v2 Hu2 [93] [] ty2 st2 f4 L4) as (f5 & L5 & ->).
  destruct (run_close n ty2 [] ([] ++ v2) st2 f5 (keyword_inside _ _ Hk2) L5) as (f6 & L6 & ->).
  rewrite run_end by (cbn in L6; lia). rewrite (keyword_inside ty kw Hk). cbn [emit app isNormal spanned].
  rewrite !app_nil_r. f_equal. f_equal. f_equal. f_equal. unfold st, n. rewrite zlen_app, zlen_cons. lia.
Qed.

Lemma unknown_ok s t w u v : escapes s t -> ident 0 w -> ~ In w [txt "strong"; txt "em"; txt "qid"] -> bytes_ok (w ++ txt " " ++ u ++ txt "]") -> escapes u v ->
  parseTitle (s ++ txt "[" ++ w ++ txt " " ++ u ++ txt "]") = Some (spanned Normal t ++ spanned Strong v, [Unrecognized w (zlen s + 1)]).
Proof.
  intros Hs Hw Hn Hb Hu. unfold parseTitle. change (txt "[") with [91]. change (txt " ") with [32] in *. change (txt "]") with [93] in *. cbn [app] in *.
  set (n := zlen _). match goal with |- title_loop (S (length ?x)) _ _ _ _ _ = _ => set (len := S (length x)) end.
  destruct (run_escapes n s t Hs (91 :: w ++ 32 :: u ++ [93]) [] Normal 0 len ltac:(unfold len; lia)) as (f1 & L1 & ->).
  destruct f1 as [|f1]; [lia|]. cbn [length] in L1. rewrite app_length in L1. cbn [length] in L1.
  cbn [title_loop]. change (91 =? 92) with false. change (91 =? 91) with true. cbv beta iota.
  rewrite (read_ident w (32 :: u ++ [93]) Hw Hb (space_stops _)).
  assert (Et : spanTypeOf w Normal (n - zlen (w ++ 32 :: u ++ [93])) = (Strong, [Unrecognized w (zlen s + 1)])).
  { unfold spanTypeOf. destruct w as [|c w]; [destruct Hw|].
    destruct (sameText (c :: w) (txt "strong")) eqn:E1; [apply sameText_true in E1; destruct Hn; left; congruence|].
    destruct (sameText (c :: w) (txt "em")) eqn:E2; [apply sameText_true in E2; destruct Hn; right; left; congruence|].
    destruct (sameText (c :: w) (txt "qid")) eqn:E3; [apply sameText_true in E3; destruct Hn; right; right; left; congruence|].
    assert (En : n - zlen ((c :: w) ++ 32 :: u ++ [93]) = zlen s + 1) by (unfold n; rewrite (zlen_app s), zlen_cons; lia).
    rewrite En. reflexivity. }
  rewrite Et. cbn [skipSpace]. set (st := n - _ - 1).
  destruct (run_escapes n u v Hu [93] [] Strong st f1 ltac:(lia)) as (f2 & L2 & ->).
  destruct (run_close n Strong [] ([] ++ v) st f2 eq_refl L2) as (f3 & L3 & ->).
  rewrite run_end by (cbn in L3; lia). cbn [emit app isNormal spanned]. rewrite flush_spanned, !app_nil_r. reflexivity.
Qed.

Lemma untyped_ok s t u v : escapes s t -> escapes u v -> bytes_ok u -> match u with [] => True | c :: _ => ~ id_start 0 c /\ c <> 32 end ->
  parseTitle (s ++ txt "[" ++ u) = Some (spanned Normal t ++ spanned Normal v, [ExpectedSpanType (zlen s); ExpectedSpace [] (zlen s + 1)]).
Proof.
  intros Hs Hu Hb Hc. unfold parseTitle. change (txt "[") with [91]. cbn [app].
  set (n := zlen _). match goal with |- title_loop (S (length ?x)) _ _ _ _ _ = _ => set (len := S (length x)) end.
  destruct (run_escapes n s t Hs (91 :: u) [] Normal 0 len ltac:(unfold len; lia)) as (f1 & L1 & ->).
  destruct f1 as [|f1]; [lia|]. cbn [length] in L1.
  cbn [title_loop]. change (91 =? 92) with false. change (91 =? 91) with true. cbv beta iota.
  rewrite read_none; [|exact Hb|destruct u; [exact I|exact (proj1 Hc)]]. cbn [spanTypeOf isNormal].
  assert (Es : skipSpace n [] u = (u, [ExpectedSpace [] (n - zlen u)])).
  { unfold skipSpace. destruct u as [|c u]; [reflexivity|]. destruct Hc as [_ Hc]. destruct c as [|p|p]; try reflexivity.
    do 6 (destruct p as [p|p|]; try reflexivity). contradiction. }
  rewrite Es. set (st := n - zlen u - 1).
  destruct (run_escapes n u v Hu [] [] Normal st f1 ltac:(rewrite app_nil_r; lia)) as (f2 & L2 & E2).
  rewrite app_nil_r in E2. rewrite E2, run_end by (cbn in L2; lia). cbn [emit app isNormal]. rewrite flush_spanned.
  assert (En : n - zlen u = zlen s + 1) by (unfold n; rewrite zlen_app, zlen_cons; lia). unfold st. rewrite En.
  replace (zlen s + 1 - 1) with (zlen s) by lia. reflexivity.
Qed.

(** ** Writing *)
Fixpoint esc (t : list Z) : list Z :=
  match t with [] => [] | c :: r => (if existsb (Z.eqb c) (txt "\[]") then [92; c] else [c]) ++ esc r end.
Lemma esc_ok t : escapes (esc t) t.
Proof.
  induction t as [|c t IH]; [constructor|]. cbn [esc]. destruct (existsb (Z.eqb c) (txt "\[]")) eqn:E; cbn [app].
  - apply escapes_any, IH.
  - apply escapes_byte; [|exact IH]. intros Hin. assert (F : existsb (Z.eqb c) (txt "\[]") = true).
    { apply existsb_exists. exists c. split; [exact Hin|apply Z.eqb_refl]. } congruence.
Qed.

Lemma spanned_one ty t : t <> [] -> spanned ty t = [(ty, t)].
Proof. destruct t; [contradiction|reflexivity]. Qed.
Lemma keyword_of ty : ty <> Normal -> exists kw, keyword ty kw.
Proof. destruct ty; [contradiction| | |]; intros _; eexists; constructor. Qed.

Lemma writable : forall k l, (length l <= k)%nat -> regular l -> exists src, title src l.
Proof.
  induction k as [|k IH]; intros l Hl Hr.
  - destruct l; [|cbn in Hl; lia]. exists []. apply (title_end [] []). constructor.
  - assert (Hspan : forall s t ty v r, escapes s t -> ty <> Normal -> v <> [] -> (length r <= k)%nat -> regular r ->
              exists src, title src (spanned Normal t ++ (ty, v) :: r)).
    { intros s t ty v r Hs Hty Hv Hlen Hreg. destruct (IH r Hlen Hreg) as [rest Hrest]. destruct (keyword_of ty Hty) as [kw Hk].
      pose proof (title_span s t ty kw (esc v) v rest r Hs Hk (esc_ok v) Hrest) as H. rewrite (spanned_one ty v Hv) in H. eexists. exact H. }
    destruct l as [|[ty t] r]; [exists []; apply (title_end [] []); constructor|]. cbn [regular length] in Hl, Hr. destruct Hr as (Ht & Hn & Hr).
    destruct ty; [|apply (Hspan [] [] Strong t r)|apply (Hspan [] [] Em t r)|apply (Hspan [] [] QID t r)];
      try constructor; try discriminate; try exact Ht; try exact Hr; try lia.
    destruct r as [|[ty v] r].
    + exists (esc t). pose proof (title_end (esc t) t (esc_ok t)) as H. rewrite (spanned_one Normal t Ht) in H. exact H.
    + cbn [regular length] in Hl, Hr. destruct Hr as (Hv & _ & Hr).
      assert (Hty : ty <> Normal) by (intros ->; exact (Hn eq_refl)).
      destruct (Hspan (esc t) t ty v r (esc_ok t) Hty Hv) as [src Hsrc]; [lia|exact Hr|].
      rewrite (spanned_one Normal t Ht) in Hsrc. exists src. exact Hsrc.
Qed.
