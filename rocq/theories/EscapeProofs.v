From Verif Require Import TextEncodingSpec TextEncodingModel TextEncodingProofs EscapeSpec EscapeModel.
From Coq Require Import ZifyBool ZifyNat.
Ltac Zify.zify_post_hook ::= Z.div_mod_to_equations.

(** ** Decoding step, seen from the escaping loop *)
Lemma decode_cases s : bytes_ok s -> s <> [] ->
  let d := utf8_decode s in
  (exists b r, s = b :: r /\ point d = b /\ nbytes d = 1%nat) \/
  (exists l r, s = l ++ r /\ (2 <= length l)%nat /\ nbytes d = length l /\ utf8_form l (point d) /\
               Forall (fun b => 128 <= b) l).
Proof.
  intros Hs Hne d. destruct s as [|b s]; [congruence|].
  destruct (announced b) as [k|] eqn:Ea.
  2:{ left. exists b, s. unfold d. rewrite utf8_stray_truncated by assumption. auto. }
  destruct (stat d) eqn:Est.
  - left. exists b, s. unfold d in *. rewrite utf8_decode_arith_eq in * by assumption.
    revert Est. unfold utf8_decode_arith.
    repeat match goal with |- context [if ?x then _ else _] => destruct x | |- context [match ?l with [] => _ | _ => _ end] => is_var l; destruct l end;
      cbn; intros; try discriminate; auto.
  - left. exists b, s. unfold d in *. rewrite utf8_decode_arith_eq in * by assumption.
    revert Est. unfold utf8_decode_arith.
    repeat match goal with |- context [if ?x then _ else _] => destruct x | |- context [match ?l with [] => _ | _ => _ end] => is_var l; destruct l end;
      cbn; intros; try discriminate; auto.
  - destruct (utf8_decode_valid_inv (b :: s) Hs Est) as (l & r & E & HF & Hn). fold d in HF, Hn.
    destruct (Nat.eq_dec (length l) 1) as [H1|H1].
    + left. inversion HF; subst l; cbn in H1; try lia.
      cbn in E. injection E as <- <-. exists b, s. auto.
    + right. exists l, r. split; [exact E|]. split; [destruct HF; cbn in *; lia|]. split; [exact Hn|].
      split; [exact HF|]. destruct HF; cbn in H1; try lia; repeat constructor; unfold cont_byte in *; lia.
Qed.

Lemma no_overlong_suffix a b : no_overlong_ascii (a ++ b) -> no_overlong_ascii b.
Proof.
  intros H pre l post p E HF Hp. apply (H (a ++ pre) l post p); auto. rewrite E, <- app_assoc. reflexivity.
Qed.

(* Without overlong forms the loop works byte by byte. *)
Lemma point_loop_bytewise f fuel s pts : bytes_ok s -> no_overlong_ascii s -> (length s <= fuel)%nat ->
  (forall p src, 128 <= p -> f p src = src) ->
  point_loop f fuel 0 pts s = flat_map (fun b => f b [b]) s.
Proof.
  intros Hs Hno Hf Hp. revert s pts Hs Hno Hf. induction fuel as [|fuel IH]; intros s pts Hs Hno Hf.
  - destruct s; [reflexivity|cbn in Hf; lia].
  - destruct s as [|b0 s0] eqn:Es; [reflexivity|]. cbn [point_loop]. cbn [Z.ltb Z.compare andb].
    rewrite <- Es in *. assert (Hne : s <> []) by congruence.
    destruct (decode_cases s Hs Hne) as [(b & r & E & Ep & En)|(l & r & E & Hl & En & HF & Hl8)].
    + rewrite Ep, En, E. cbn [firstn skipn flat_map]. f_equal. apply IH.
      * rewrite E in Hs. inversion Hs; assumption.
      * apply (no_overlong_suffix [b]). rewrite E in Hno. exact Hno.
      * rewrite E in Hf. cbn in Hf. lia.
    + rewrite En. rewrite E at 2 3. rewrite firstn_app, firstn_all, Nat.sub_diag. cbn [firstn]. rewrite app_nil_r.
      rewrite skipn_app, skipn_all, Nat.sub_diag. cbn [skipn app].
      assert (Hpt : 128 <= point (utf8_decode s)).
      { destruct (Z.leb_spec 128 (point (utf8_decode s))) as [H|H]; [assumption|].
        assert (length l = 1%nat); [|lia]. apply (Hno [] l r (point (utf8_decode s))); auto. }
      rewrite (Hp _ _ Hpt). rewrite E. rewrite flat_map_app. f_equal.
      * clear -Hl8 Hp. induction Hl8 as [|x l Hx Hl IH]; [reflexivity|]. cbn. rewrite Hp by exact Hx. cbn. f_equal. exact IH.
      * apply IH.
        -- rewrite E in Hs. apply Forall_app in Hs. tauto.
        -- apply (no_overlong_suffix l). rewrite <- E. exact Hno.
        -- rewrite E, app_length in Hf. lia.
Qed.

(** ** XML *)
Lemma xml_text_app e1 s1 e2 s2 : xml_text e1 s1 -> xml_text e2 s2 -> xml_text (e1 ++ e2) (s1 ++ s2).
Proof.
  induction 1; intros H2; cbn [app]; [exact H2|apply xml_plain; auto|].
  rewrite <- app_assoc. apply xml_ent; auto.
Qed.

Lemma xml_text_high l : Forall (fun b => 128 <= b) l -> xml_text l l.
Proof. induction 1; [constructor|]. apply xml_plain; [cbn; lia|assumption]. Qed.

Lemma xml_point_text p : xml_text (xml_point p [p]) [p].
Proof.
  unfold xml_point.
  repeat match goal with |- context [?a =? ?b] => destruct (Z.eqb_spec a b); [subst|] end.
  1-4: match goal with |- xml_text ?n _ => rewrite <- (app_nil_r n) end; apply xml_ent; constructor.
  apply xml_plain; [cbn; lia|constructor].
Qed.

Theorem xml_safe s m : bytes_ok s -> exists t, xml_text (xmlEscape s m) t.
Proof.
  intros Hs. unfold xmlEscape. generalize 0 as pts. assert (Hf : (length s <= length s)%nat) by lia.
  revert Hf. generalize (length s) at 2 3 as fuel. intros fuel. revert s Hs.
  induction fuel as [|fuel IH]; intros s Hs Hf pts.
  - exists []. constructor.
  - destruct s as [|b0 s0] eqn:Es; [exists []; constructor|]. cbn [point_loop]. rewrite <- Es in *.
    destruct ((0 <? m) && (m <=? pts)).
    { exists [46; 46; 46]. repeat (apply xml_plain; [cbn; lia|]). constructor. }
    assert (Hne : s <> []) by congruence.
    destruct (decode_cases s Hs Hne) as [(b & r & E & Ep & En)|(l & r & E & Hl & En & HF & Hl8)].
    + rewrite Ep, En, E. cbn [firstn skipn].
      destruct (IH r) with (pts := pts + 1) as [t Ht].
      * rewrite E in Hs. inversion Hs; assumption.
      * rewrite E in Hf. cbn in Hf. lia.
      * exists ([b] ++ t). apply xml_text_app; [apply xml_point_text|exact Ht].
    + assert (E1 : firstn (length l) s = l).
      { rewrite E, firstn_app, firstn_all, Nat.sub_diag. cbn [firstn]. apply app_nil_r. }
      assert (E2 : skipn (length l) s = r).
      { rewrite E, skipn_app, skipn_all, Nat.sub_diag. reflexivity. }
      rewrite En, E1, E2.
      destruct (IH r) with (pts := pts + 1) as [t Ht].
      * rewrite E in Hs. apply Forall_app in Hs. tauto.
      * rewrite E, app_length in Hf. lia.
      * set (p := point (utf8_decode s)). unfold xml_point.
        repeat match goal with |- context [?a =? ?b] => destruct (Z.eqb_spec a b) end.
        1-4: eexists; apply xml_ent; [constructor|exact Ht].
        exists (l ++ t). apply xml_text_app; [apply xml_text_high; exact Hl8|exact Ht].
Qed.

Theorem xml_lossless s : bytes_ok s -> no_overlong_ascii s -> xml_text (xmlEscape s 0) s.
Proof.
  intros Hs Hno. unfold xmlEscape. rewrite point_loop_bytewise; auto.
  - induction s as [|b s IH]; [constructor|]. cbn [flat_map].
    change (b :: s) with ([b] ++ s). apply xml_text_app; [apply xml_point_text|].
    apply IH; [inversion Hs; assumption|]. apply (no_overlong_suffix [b]). exact Hno.
  - intros p src Hp. unfold xml_point.
    repeat match goal with |- context [?a =? ?b] => destruct (Z.eqb_spec a b); [lia|] end. reflexivity.
Qed.

(* The text denoted by an escaped text is unique: it is what an XML reader recovers. *)
Theorem xml_text_fun e s1 s2 : xml_text e s1 -> xml_text e s2 -> s1 = s2.
Proof.
  intros H1. revert s2. induction H1 as [|c e s Hc H1 IH|n c e s Hn H1 IH]; intros s2 H2.
  - inversion H2 as [|? ? ? ? ? |n c e s Hn H E]; [reflexivity|]. destruct Hn; discriminate.
  - inversion H2 as [|? ? ? ? H E1 E2|n c' e' s' Hn H E]; subst.
    + f_equal. apply IH. assumption.
    + exfalso. apply Hc. destruct Hn; cbn in E; injection E; intros; subst; cbn; auto.
  - inversion H2 as [E|c' e' s' Hc' H E1 E2|n' c' e' s' Hn' H E]; subst.
    + destruct Hn; discriminate.
    + exfalso. apply Hc'. destruct Hn; cbn in E1; injection E1; intros; subst; cbn; auto.
    + assert (n = n' /\ c = c' /\ e = e') as (<- & <- & <-).
      { destruct Hn, Hn'; cbn in E; try discriminate; injection E; intros; subst; auto. }
      f_equal. apply IH. assumption.
Qed.

Theorem xml_no_markup e s : xml_text e s -> ~ In 60 e /\ ~ In 62 e /\ ~ In 34 e.
Proof.
  induction 1 as [|c e s Hc H IH|n c e s Hn H IH]; [cbn; auto| |].
  - cbn in *. intuition congruence.
  - destruct Hn; cbn; intuition congruence.
Qed.

(** ** Escaped strings through the quoted-string parser *)
Lemma q_escaped s rest run : bytes_ok s -> run = 0%nat \/ (run = 1%nat /\ s <> []) ->
  Forall (fun b => 32 <= b \/ b = 9 \/ b = 10 \/ b = 13) s ->
  q_loop 34 (flat_map (fun b => esc_point b [b]) s ++ 34 :: rest) run false = (s, rest, []).
Proof.
  intros Hs Hrun Hpr. revert run Hrun. induction s as [|b s IH]; intros run Hrun.
  - destruct Hrun as [->|[_ H]]; [|congruence]. reflexivity.
  - inversion Hs as [|? ? Hb Hs']; inversion Hpr as [|? ? Hb2 Hpr']; subst.
    specialize (IH Hs' Hpr' 0%nat (or_introl eq_refl)). cbn [flat_map]. rewrite <- app_assoc.
    assert (Hr : negb false && (run =? 2)%nat = false) by (destruct Hrun as [->|[-> _]]; reflexivity).
    unfold esc_point at 1.
    destruct (Z.eqb_spec b 34) as [->|N1];
      [|destruct (Z.eqb_spec b 92) as [->|N2];
        [|destruct (Z.eqb_spec b 13) as [->|N3];
          [|destruct (Z.eqb_spec b 10) as [->|N4];
            [|destruct (Z.eqb_spec b 9) as [->|N5]]]]].
    1-5: cbn [app]; cbn [q_loop]; change (92 =? 34) with false; cbv iota; rewrite Hr; 
      cbv beta iota zeta; cbn [Z.eqb Pos.eqb orb]; rewrite IH; reflexivity.
    replace (32 <=? b) with true by lia. cbn [app]. cbn [q_loop].
    replace (b =? 34) with false by lia. rewrite Hr. cbv zeta.
    replace ((b =? 13) || (b =? 10)) with false by lia. replace (b =? 92) with false by lia.
    rewrite IH. reflexivity.
Qed.

Theorem escaped_roundtrip s rest single : bytes_ok s -> no_overlong_ascii s ->
  Forall (fun b => 32 <= b \/ b = 9 \/ b = 10 \/ b = 13) s ->
  s <> [] \/ (exists c r, rest = c :: r /\ c <> 34) ->
  parse_quoted (34 :: escapedString s 0 ++ 34 :: rest) single = (s, rest, []).
Proof.
  intros Hs Hno Hpr Hne. unfold parse_quoted. change (34 =? 34) with true. cbn [orb].
  unfold escapedString. rewrite point_loop_bytewise; auto.
  - destruct s as [|b s].
    + destruct Hne as [H|(c & r & -> & Hc)]; [congruence|]. cbn [flat_map app q_loop].
      change (34 =? 34) with true. cbn [Nat.eqb q_loop]. replace (c =? 34) with false by lia. reflexivity.
    + apply q_escaped; auto. right. split; [reflexivity|discriminate].
  - intros p src Hp. unfold esc_point.
    repeat match goal with |- context [?a =? ?b] => destruct (Z.eqb_spec a b); [lia|] end.
    replace (32 <=? p) with true by lia. reflexivity.
Qed.

(** ** Windows command-line arguments *)
Lemma repeat_app_cons (x : Z) n l : repeat x n ++ x :: l = repeat x (S n) ++ l.
Proof. induction n as [|n IH]; cbn in *; [reflexivity|]. f_equal. exact IH. Qed.

Lemma crt_backslashes inq bs n l : crt_arg inq bs (repeat 92 n ++ l) = crt_arg inq (bs + n) l.
Proof.
  revert bs. induction n as [|n IH]; intros bs; [rewrite Nat.add_0_r; reflexivity|].
  cbn [repeat app crt_arg]. change (92 =? 92) with true. cbv iota. rewrite IH. f_equal. lia.
Qed.

Lemma concat_repeat_pair n : concat (repeat [92; 92] n) = repeat 92 (n + n).
Proof.
  induction n as [|n IH]; [reflexivity|]. cbn [repeat concat]. rewrite IH.
  replace (S n + S n)%nat with (S (S (n + n))) by lia. reflexivity.
Qed.

Lemma div2_double n : Nat.div2 (S (n + n)) = n /\ Nat.odd (S (n + n)) = true.
Proof.
  split.
  - replace (S (n + n)) with (1 + 2 * n)%nat by lia. rewrite Nat.div2_div. lia.
  - rewrite Nat.odd_spec. exists n. lia.
Qed.

Lemma crt_quoted s bs rest : arg_end rest ->
  (forall a n, repeat 92 bs ++ s = a ++ repeat 92 n -> n = 0%nat) ->
  crt_arg true 0 (wincrt_loop bs s ++ 34 :: rest) = (repeat 92 bs ++ s, rest).
Proof.
  intros Hend. revert bs. induction s as [|c s IH]; intros bs Hbs.
  - assert (bs = 0%nat) by (apply (Hbs [] bs); cbn; rewrite app_nil_r; reflexivity). subst bs.
    cbn [wincrt_loop app crt_arg repeat]. change (34 =? 92) with false. change (34 =? 34) with true.
    cbn [Nat.odd Nat.even negb Nat.div2 repeat]. 
    destruct rest as [|c r]; [reflexivity|]. destruct Hend as [->| ->]; reflexivity.
  - cbn [wincrt_loop]. destruct (Z.eqb_spec c 92) as [->|N1].
    + rewrite IH; [rewrite repeat_app_cons; reflexivity|]. intros a n E. apply (Hbs a n).
      rewrite repeat_app_cons. exact E.
    + assert (Hs : forall a n, s = a ++ repeat 92 n -> n = 0%nat).
      { intros a n E. apply (Hbs ((repeat 92 bs ++ [c]) ++ a) n). rewrite E, <- !app_assoc. reflexivity. }
      destruct (Z.eqb_spec c 34) as [->|N2].
      * rewrite concat_repeat_pair. rewrite <- !app_assoc. rewrite crt_backslashes. cbn [app Nat.add].
        cbn [crt_arg]. change (92 =? 92) with true. cbv iota.
        change (34 =? 92) with false. change (34 =? 34) with true. cbv iota.
        destruct (div2_double bs) as [-> ->]. rewrite IH by exact Hs. unfold crt_cons. cbn [fst snd repeat app].
        rewrite <- app_assoc. reflexivity.
      * rewrite <- app_assoc, crt_backslashes. cbn [app Nat.add crt_arg].
        replace (c =? 92) with false by lia. replace (c =? 34) with false by lia.
        rewrite andb_false_r. rewrite IH by exact Hs. unfold crt_cons. cbn [fst snd repeat app].
        rewrite <- app_assoc. reflexivity.
Qed.

Lemma crt_plain s bs rest : arg_end rest -> existsb (fun c => isWhite c || (c =? 34)) s = false ->
  crt_arg false bs (s ++ rest) = (repeat 92 bs ++ s, rest).
Proof.
  intros Hend. revert bs. induction s as [|c s IH]; intros bs He.
  - cbn [app]. rewrite app_nil_r. destruct rest as [|c r]; [reflexivity|]. destruct Hend as [->| ->]; reflexivity.
  - cbn [existsb] in He. apply orb_false_iff in He. destruct He as [Hc He]. unfold isWhite in Hc.
    cbn [app crt_arg]. destruct (Z.eqb_spec c 92) as [->|N1].
    + rewrite IH by exact He. rewrite repeat_app_cons. reflexivity.
    + replace (c =? 34) with false by lia.
      replace (((c =? 32) || (c =? 9)) && negb false) with false by lia.
      rewrite IH by exact He. unfold crt_cons. cbn [fst snd repeat app]. rewrite <- app_assoc. reflexivity.
Qed.

Theorem cmdline_roundtrip s rest : arg_end rest ->
  (forall a, s = a ++ [92] -> ~ In 32 s /\ ~ In 9 s /\ ~ In 10 s /\ ~ In 13 s /\ ~ In 34 s) ->
  crt_arg false 0 (cmdLineArg s ++ rest) = (s, rest).
Proof.
  intros Hend Hbs. unfold cmdLineArg. destruct (existsb _ s) eqn:Ex.
  - cbn [app crt_arg]. change (34 =? 92) with false. change (34 =? 34) with true.
    cbn [Nat.odd Nat.even negb Nat.div2 repeat]. rewrite <- app_assoc. cbn [app].
    rewrite crt_quoted; [reflexivity|exact Hend|]. cbn [repeat app]. intros a n E.
    destruct n as [|n]; [reflexivity|]. exfalso.
    apply existsb_exists in Ex. destruct Ex as (c & Hc & Hw).
    destruct (Hbs (a ++ repeat 92 n)) as (A & B & C & D & F).
    { rewrite E, <- app_assoc. f_equal. change [92] with (repeat 92 1). rewrite <- repeat_app. f_equal. lia. }
    unfold isWhite in Hw. assert (c = 32 \/ c = 9 \/ c = 10 \/ c = 13 \/ c = 34) by lia.
    intuition subst; contradiction.
  - apply (crt_plain s 0 rest Hend Ex).
Qed.

(** ** Format strings *)
Theorem format_iff f a o : format f a = Some o <-> formats f a o.
Proof.
  split.
  - revert a o. enough (H : forall n f, (length f <= n)%nat -> forall a o, format f a = Some o -> formats f a o)
      by (intros a o; apply (H (length f)); lia).
    clear f. induction n as [|n IH]; intros f Hl a o.
    + destruct f; [|cbn in Hl; lia]. cbn. destruct a; [intros [= <-]; constructor|discriminate].
    + destruct f as [|c f]; cbn [format].
      { destruct a; [intros [= <-]; constructor|discriminate]. }
      cbn in Hl. destruct (Z.eqb_spec c 123) as [->|N1].
      * destruct f as [|d f]; [discriminate|]. cbn in Hl. destruct (Z.eqb_spec d 123) as [->|].
        { destruct (format f a) eqn:E; [|discriminate]. intros [= <-]. apply fmt_open. apply IH; [lia|exact E]. }
        destruct (Z.eqb_spec d 125) as [->|]; [|discriminate].
        destruct a as [|x a]; [discriminate|]. destruct (format f a) eqn:E; [|discriminate].
        intros [= <-]. apply fmt_arg. apply IH; [lia|exact E].
      * destruct (Z.eqb_spec c 125) as [->|N2].
        { destruct f as [|d f]; [discriminate|]. cbn in Hl. destruct (Z.eqb_spec d 125) as [->|]; [|discriminate].
          destruct (format f a) eqn:E; [|discriminate]. intros [= <-]. apply fmt_close. apply IH; [lia|exact E]. }
        destruct (format f a) eqn:E; [|discriminate]. intros [= <-]. constructor; auto. apply IH; [lia|exact E].
  - induction 1 as [|c f a o N1 N2 H IH|f a o H IH|f a o H IH|x f a o H IH]; cbn [format].
    + reflexivity.
    + replace (c =? 123) with false by lia. replace (c =? 125) with false by lia. rewrite IH. reflexivity.
    + cbn. rewrite IH. reflexivity.
    + cbn. rewrite IH. reflexivity.
    + cbn. rewrite IH. reflexivity.
Qed.

Definition brace_free (l : list Z) : Prop := ~ In 123 l /\ ~ In 125 l.
Lemma formats_lit l f a o : brace_free l -> formats f a o -> formats (l ++ f) a (l ++ o).
Proof.
  intros [H1 H2] H. induction l as [|c l IH]; [exact H|]. cbn in *.
  constructor; [intuition congruence|intuition congruence|apply IH; tauto].
Qed.

(* Doubling the braces of any text makes a format string that prints the text. *)
Theorem format_literal l : format (flat_map (fun c => if (c =? 123) || (c =? 125) then [c; c] else [c]) l) [] = Some l.
Proof.
  apply format_iff. induction l as [|c l IH]; [constructor|]. cbn [flat_map].
  destruct (Z.eqb_spec c 123) as [->|]; [apply fmt_open; exact IH|].
  destruct (Z.eqb_spec c 125) as [->|]; [apply fmt_close; exact IH|]. constructor; auto.
Qed.

Lemma line_break_loop q s c rest : Forall (fun b => b <> q /\ b <> 92 /\ b <> 10 /\ b <> 13) s -> (c = 10 \/ c = 13) -> c <> q ->
  forall run, (run < 2)%nat -> q_loop q (s ++ c :: rest) run false = (s, c :: rest, [UnexpectedEndOfLine]).
Proof.
  intros H Hc Hq. induction H as [|b s (H1 & H2 & H3 & H4) _ IH]; intros run Hr; cbn [app q_loop negb andb].
  - destruct (Z.eqb_spec c q); [contradiction|]. destruct (Nat.eqb_spec run 2); [lia|].
    destruct Hc as [-> | ->]; reflexivity.
  - destruct (Z.eqb_spec b q); [contradiction|]. destruct (Nat.eqb_spec run 2); [lia|].
    destruct (Z.eqb_spec b 13); [contradiction|]. destruct (Z.eqb_spec b 10); [contradiction|]. cbn [orb].
    destruct (Z.eqb_spec b 92); [contradiction|]. rewrite IH by lia. reflexivity.
Qed.
Lemma line_break_rejected s c rest single : Forall (fun b => b <> 34 /\ b <> 92 /\ b <> 10 /\ b <> 13) s ->
  (c = 10 \/ c = 13) -> parse_quoted (34 :: s ++ c :: rest) single = (s, c :: rest, [UnexpectedEndOfLine]).
Proof.
  intros H Hc. unfold parse_quoted. cbn [Z.eqb Pos.eqb orb]. apply line_break_loop; [exact H|exact Hc|lia|lia].
Qed.
