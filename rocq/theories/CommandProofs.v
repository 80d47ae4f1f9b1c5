(* Proofs about commands in comments. *)
From Coq Require Import String.
From Verif Require Import Base Txt ScanModel ScanSpec ScanProofs TitleModel TitleProofs TitleMore CommandModel CommandSpec.
Local Open Scope string_scope.
Local Open Scope list_scope.
Local Open Scope Z_scope.
Local Notation length := List.length.

(** ** Reading what is written *)
Lemma white_stop c r : mask_match c WhitespaceMask = false -> white (c :: r) = c :: r.
Proof. intros H. unfold white. cbn [scanUsingMask]. rewrite H. reflexivity. Qed.
Lemma white_skip w r : blank w -> white (w ++ r) = white r.
Proof.
  induction 1 as [|c w Hc Hw IH]; [reflexivity|]. unfold white in *. cbn [app scanUsingMask].
  assert (E : mask_match c WhitespaceMask = true). { destruct Hc as [<-|[<-|[<-|[<-|[]]]]]; vm_compute; reflexivity. }
  rewrite E. exact IH.
Qed.
Lemma white_all w : blank w -> white w = [].
Proof. intros H. rewrite <- (app_nil_r w), (white_skip w [] H). reflexivity. Qed.
Lemma eq_ok c d x r : blank c -> blank d -> readEq (c ++ 61 :: d ++ 34 :: x ++ r) = Some (34 :: x ++ r).
Proof.
  intros Hc Hd. unfold readEq. rewrite (white_skip c _ Hc), (white_stop 61) by reflexivity.
  rewrite (white_skip d _ Hd), (white_stop 34) by reflexivity. reflexivity.
Qed.

Lemma q_plain x rest run : (run <= 1)%nat -> Forall (fun c => 0 <= c < 256 /\ ~ In c [34; 92; 10; 13]) x -> (x = [] -> run = O) ->
  q_loop 34 (x ++ 34 :: rest) run false = (x, rest, []).
Proof.
  intros Hr H. revert run Hr. induction H as [|c x [Hb Hc] Hx IH]; intros run Hr Hn.
  - rewrite (Hn eq_refl). reflexivity.
  - cbn [app q_loop]. assert (E34 : c =? 34 = false) by (apply Z.eqb_neq; intros ->; apply Hc; cbn; tauto).
    assert (E92 : c =? 92 = false) by (apply Z.eqb_neq; intros ->; apply Hc; cbn; tauto).
    assert (E10 : c =? 10 = false) by (apply Z.eqb_neq; intros ->; apply Hc; cbn; tauto).
    assert (E13 : c =? 13 = false) by (apply Z.eqb_neq; intros ->; apply Hc; cbn; tauto).
    rewrite E34, E92, E10, E13. cbn [orb negb andb]. replace (run =? 2)%nat with false by (symmetry; apply Nat.eqb_neq; lia).
    rewrite (IH 0%nat) by (try lia; reflexivity). reflexivity.
Qed.
Lemma quote_ok x rest : plainName x -> readQuote (34 :: x ++ 34 :: rest) = (x, rest).
Proof.
  intros [Hn Hx]. unfold readQuote, parse_quoted. change ((34 =? 34) || (false && (34 =? 39))) with true. cbv beta iota.
  rewrite q_plain; [reflexivity|lia|exact Hx|contradiction].
Qed.

Lemma blank_stops w r : blank w -> stops r -> stops (w ++ r).
Proof.
  intros [|c w' Hc Hw] Hr; [exact Hr|]. cbn [app stops]. unfold id_continue, id_start.
  destruct Hc as [<-|[<-|[<-|[<-|[]]]]]; intros [[H|[H|[H|[H|[[H _]|[H _]]]]]]|H]; lia.
Qed.
Lemma blank_stops1 w r : blank w -> w <> [] -> stops (w ++ r).
Proof.
  intros [|c w' Hc Hw] Hn; [contradiction|]. cbn [app stops]. unfold id_continue, id_start.
  destruct Hc as [<-|[<-|[<-|[<-|[]]]]]; intros [[H|[H|[H|[H|[[H _]|[H _]]]]]]|H]; lia.
Qed.
Lemma eq_stops r : stops (61 :: r).
Proof. unfold stops, id_continue, id_start. intros [[H|[H|[H|[H|[[H _]|[H _]]]]]]|H]; lia. Qed.

Lemma blank_bytes w : blank w -> bytes_ok w.
Proof.
  intros H. apply (Forall_impl is_byte) with (2 := H). intros c Hc. unfold is_byte. destruct Hc as [<-|[<-|[<-|[<-|[]]]]]; lia.
Qed.
Lemma plain_bytes x : plainName x -> bytes_ok x.
Proof. intros [_ H]. apply (Forall_impl is_byte) with (2 := H). intros c [Hc _]. exact Hc. Qed.
Lemma bytes_app a b : bytes_ok a -> bytes_ok b -> bytes_ok (a ++ b).
Proof. intros Ha Hb. apply Forall_app. split; assumption. Qed.
Lemma bytes_cons c b : 0 <= c < 256 -> bytes_ok b -> bytes_ok (c :: b).
Proof. intros Hc Hb. apply Forall_cons; assumption. Qed.
Ltac bytes := repeat first [match goal with |- bytes_ok (txt ?x) => let t := eval vm_compute in (txt x) in change (txt x) with t end | apply bytes_app | apply bytes_cons; [lia|] | apply blank_bytes; assumption | apply plain_bytes; assumption | apply Forall_nil].

Ltac word := cbn; unfold id_continue, id_start; split; [lia|]; repeat (apply Forall_cons; [lia|]); apply Forall_nil.
Lemma ident_ply : ident 0 (txt "ply"). Proof. word. Qed.
Lemma ident_module : ident 0 (txt "module"). Proof. word. Qed.
Lemma ident_extern : ident 0 (txt "extern"). Proof. word. Qed.
Lemma ident_provider : ident 0 (txt "provider"). Proof. word. Qed.

Lemma white_blank c : In c [32; 9; 10; 13] -> isWhite c = true.
Proof. intros [<-|[<-|[<-|[<-|[]]]]]; reflexivity. Qed.
Lemma trim_skip w c r : blank w -> isWhite c = false -> trim_left isWhite (w ++ c :: r) = c :: r.
Proof.
  intros Hw Hc. induction Hw as [|b w Hb Hw IH]; cbn [app trim_left]; [rewrite Hc; reflexivity|]. rewrite (white_blank b Hb). exact IH.
Qed.
Lemma blank_rev w : blank w -> blank (rev w).
Proof. intros H. apply Forall_forall. intros c Hc. apply in_rev in Hc. revert c Hc. apply Forall_forall. exact H. Qed.
Lemma trim_brackets a body f : blank a -> blank f -> sv_trim isWhite true true (a ++ 91 :: body ++ 93 :: f) = 91 :: body ++ [93].
Proof.
  intros Ha Hf. unfold sv_trim. rewrite (trim_skip a 91 _ Ha eq_refl).
  replace (rev (91 :: body ++ 93 :: f)) with (rev f ++ 93 :: rev (91 :: body)).
  - rewrite (trim_skip (rev f) 93 _ (blank_rev f Hf) eq_refl). cbn [rev]. rewrite rev_app_distr, rev_involutive. reflexivity.
  - change (91 :: body ++ 93 :: f) with ((91 :: body) ++ 93 :: f). rewrite (rev_app_distr (91 :: body)).
    cbn [rev]. rewrite <- app_assoc. reflexivity.
Qed.
Lemma brackets_inside body :
  sv_startsWith (91 :: body ++ [93]) (txt "[") = true /\ sv_endsWith (91 :: body ++ [93]) (txt "]") = true /\
  firstn (length (91 :: body ++ [93]) - 2) (skipn 1 (91 :: body ++ [93])) = body.
Proof.
  assert (L : length (91 :: body ++ [93]) = (length body + 2)%nat) by (cbn [length]; rewrite app_length; cbn; lia). split; [|split].
  - unfold sv_startsWith. rewrite L. cbn. destruct (length body + 2)%nat eqn:E; [lia|]. reflexivity.
  - unfold sv_endsWith. rewrite L. cbn [length txt]. change (length (txt "]")) with 1%nat.
    replace (length body + 2 <? 1)%nat with false by (symmetry; apply Nat.ltb_ge; lia).
    replace (length body + 2 - 1)%nat with (length (91 :: body)) by (cbn [length]; lia).
    change (91 :: body ++ [93]) with ((91 :: body) ++ [93]). rewrite skipn_app, skipn_all, Nat.sub_diag. reflexivity.
  - rewrite L. replace (length body + 2 - 2)%nat with (length body) by lia. cbn [skipn].
    rewrite firstn_app, Nat.sub_diag, firstn_all. cbn. apply app_nil_r.
Qed.

Lemma comment_brackets depth a body f : blank a -> blank f ->
  comment depth (txt "//" ++ a ++ 91 :: body ++ 93 :: f) =
  (let '(first, r) := readIdentifier body in
   if negb (sameText first (txt "ply")) then Nothing
   else let '(second, r) := readIdentifier (white r) in
        if sameText second (txt "module") then Bracket (readModule depth r)
        else if sameText second (txt "extern") then Bracket (readExtern depth r)
        else Bracket (inr UnrecognizedCommand)).
Proof.
  intros Ha Hf. unfold comment. change (skipn 2 (txt "//" ++ a ++ 91 :: body ++ 93 :: f)) with (a ++ 91 :: body ++ 93 :: f).
  rewrite (trim_brackets a body f Ha Hf). destruct (brackets_inside body) as (E1 & E2 & E3). rewrite E1, E2, E3. reflexivity.
Qed.

Lemma comment_word depth a b w r f : blank a -> blank b -> b <> [] -> blank f -> ident 0 w -> mask_match (hd 0 w) WhitespaceMask = false ->
  bytes_ok (w ++ r) -> stops r ->
  comment depth (txt "//" ++ a ++ txt "[ply" ++ b ++ w ++ r ++ txt "]" ++ f) =
  if sameText w (txt "module") then Bracket (readModule depth r)
  else if sameText w (txt "extern") then Bracket (readExtern depth r) else Bracket (inr UnrecognizedCommand).
Proof.
  intros Ha Hb Hb1 Hf Hw Hm Hbytes Hs.
  replace (txt "[ply" ++ b ++ w ++ r ++ txt "]" ++ f) with (91 :: (txt "ply" ++ b ++ w ++ r) ++ 93 :: f).
  2:{ change (txt "[ply") with (91 :: txt "ply"). change (txt "]") with [93]. cbn [app]. rewrite <- !app_assoc. reflexivity. }
  rewrite (comment_brackets depth a _ f Ha Hf).
  rewrite (read_ident (txt "ply") (b ++ w ++ r) ident_ply); [|apply bytes_app; [bytes|apply bytes_app; [bytes|exact Hbytes]]|apply blank_stops1; assumption].
  change (negb (sameText (txt "ply") (txt "ply"))) with false. cbv beta iota.
  rewrite (white_skip b _ Hb). assert (Ew : white (w ++ r) = w ++ r). { destruct w as [|c w]; [destruct Hw|]. apply white_stop. exact Hm. }
  rewrite Ew, (read_ident w r Hw Hbytes Hs). reflexivity.
Qed.

Lemma written_read tok c : written tok c -> comment 1 tok = Bracket (inl c).
Proof.
  intros [a b c0 d e f x Ha Hb Hb1 Hc Hd He Hf Hx|a b c0 d e f g h i x y Ha Hb Hb1 Hc Hd He Hf Hg Hh Hi Hx Hy].
  - replace (txt "//" ++ a ++ txt "[ply" ++ b ++ txt "module" ++ c0 ++ txt "=" ++ d ++ quote ++ x ++ quote ++ e ++ txt "]" ++ f)
      with (txt "//" ++ a ++ txt "[ply" ++ b ++ txt "module" ++ (c0 ++ 61 :: d ++ 34 :: x ++ 34 :: e) ++ txt "]" ++ f).
    2:{ unfold quote. change (txt "=") with [61]. cbn [app]. rewrite <- !app_assoc. cbn [app]. rewrite <- !app_assoc. cbn [app]. rewrite <- !app_assoc. reflexivity. }
    rewrite (comment_word 1 a b (txt "module")); try assumption; [|exact ident_module|reflexivity|bytes|apply blank_stops; [assumption|apply eq_stops]].
    change (sameText (txt "module") (txt "module")) with true. cbv beta iota. unfold readModule. cbn [Nat.eqb negb].
    rewrite (eq_ok c0 d x (34 :: e) Hc Hd), (quote_ok x e Hx), (white_all e He). destruct x; [destruct Hx as [H _]; contradiction|reflexivity].
  - replace (txt "//" ++ a ++ txt "[ply" ++ b ++ txt "extern" ++ c0 ++ txt "=" ++ d ++ quote ++ x ++ quote ++ e ++ txt "provider" ++ f ++ txt "=" ++ g ++ quote ++ y ++ quote ++ h ++ txt "]" ++ i)
      with (txt "//" ++ a ++ txt "[ply" ++ b ++ txt "extern" ++ (c0 ++ 61 :: d ++ 34 :: x ++ 34 :: e ++ txt "provider" ++ f ++ 61 :: g ++ 34 :: y ++ 34 :: h) ++ txt "]" ++ i).
    2:{ unfold quote. change (txt "=") with [61]. repeat (cbn [app]; rewrite <- ?app_assoc). reflexivity. }
    rewrite (comment_word 1 a b (txt "extern")); try assumption; [|exact ident_extern|reflexivity| |apply blank_stops; [assumption|apply eq_stops]].
    2:{ change (txt "provider") with [112;114;111;118;105;100;101;114]. bytes. }
    change (sameText (txt "extern") (txt "module")) with false. change (sameText (txt "extern") (txt "extern")) with true. cbv beta iota.
    unfold readExtern. cbn [Nat.eqb negb]. rewrite (eq_ok c0 d x _ Hc Hd), (quote_ok x _ Hx).
    rewrite (white_skip e _ He). assert (Ew : forall r, white (txt "provider" ++ r) = txt "provider" ++ r) by (intros r; apply white_stop; reflexivity).
    rewrite Ew, (read_ident (txt "provider") _ ident_provider); [| |apply blank_stops; [assumption|apply eq_stops]].
    2:{ change (txt "provider") with [112;114;111;118;105;100;101;114]. bytes. }
    change (negb (sameText (txt "provider") (txt "provider"))) with false. cbv beta iota.
    rewrite (eq_ok f g y (34 :: h) Hf Hg), (quote_ok y h Hy), (white_all h Hh).
    destruct x; [destruct Hx as [H _]; contradiction|]. destruct y; [destruct Hy as [H _]; contradiction|reflexivity].
Qed.

Lemma written_scope depth tok c : written tok c -> depth <> 1%nat -> comment depth tok = Bracket (inr MustBeAtFileScope).
Proof.
  intros [a b c0 d e f x Ha Hb Hb1 Hc Hd He Hf Hx|a b c0 d e f g h i x y Ha Hb Hb1 Hc Hd He Hf Hg Hh Hi Hx Hy] Hdep.
  - replace (txt "//" ++ a ++ txt "[ply" ++ b ++ txt "module" ++ c0 ++ txt "=" ++ d ++ quote ++ x ++ quote ++ e ++ txt "]" ++ f)
      with (txt "//" ++ a ++ txt "[ply" ++ b ++ txt "module" ++ (c0 ++ 61 :: d ++ 34 :: x ++ 34 :: e) ++ txt "]" ++ f).
    2:{ unfold quote. change (txt "=") with [61]. repeat (cbn [app]; rewrite <- ?app_assoc). reflexivity. }
    rewrite (comment_word depth a b (txt "module")); try assumption; [|exact ident_module|reflexivity|bytes|apply blank_stops; [assumption|apply eq_stops]].
    change (sameText (txt "module") (txt "module")) with true. cbv beta iota. unfold readModule.
    apply Nat.eqb_neq in Hdep. rewrite Hdep. reflexivity.
  - replace (txt "//" ++ a ++ txt "[ply" ++ b ++ txt "extern" ++ c0 ++ txt "=" ++ d ++ quote ++ x ++ quote ++ e ++ txt "provider" ++ f ++ txt "=" ++ g ++ quote ++ y ++ quote ++ h ++ txt "]" ++ i)
      with (txt "//" ++ a ++ txt "[ply" ++ b ++ txt "extern" ++ (c0 ++ 61 :: d ++ 34 :: x ++ 34 :: e ++ txt "provider" ++ f ++ 61 :: g ++ 34 :: y ++ 34 :: h) ++ txt "]" ++ i).
    2:{ unfold quote. change (txt "=") with [61]. repeat (cbn [app]; rewrite <- ?app_assoc). reflexivity. }
    rewrite (comment_word depth a b (txt "extern")); try assumption; [|exact ident_extern|reflexivity| |apply blank_stops; [assumption|apply eq_stops]].
    2:{ change (txt "provider") with [112;114;111;118;105;100;101;114]. bytes. }
    change (sameText (txt "extern") (txt "module")) with false. change (sameText (txt "extern") (txt "extern")) with true. cbv beta iota.
    unfold readExtern. apply Nat.eqb_neq in Hdep. rewrite Hdep. reflexivity.
Qed.

(** ** Comments that have nothing to do with commands *)
Lemma infix_trans x y z : infix x y -> infix y z -> infix x z.
Proof. intros (a & b & ->) (c & d & ->). exists (c ++ a), (b ++ d). rewrite <- !app_assoc. reflexivity. Qed.
Lemma trim_left_infix f s : exists a, s = a ++ trim_left f s.
Proof. induction s as [|c s [a IH]]; [exists []; reflexivity|]. cbn [trim_left]. destruct (f c); [exists (c :: a); cbn; congruence|exists []; reflexivity]. Qed.
Lemma trim_infix s : infix (sv_trim isWhite true true s) s.
Proof.
  unfold sv_trim. destruct (trim_left_infix isWhite s) as [a E]. set (t := trim_left isWhite s) in *.
  destruct (trim_left_infix isWhite (rev t)) as [b E']. apply (f_equal (@rev Z)) in E'. rewrite rev_involutive, rev_app_distr in E'.
  exists a, (rev b). rewrite <- E'. exact E.
Qed.
Lemma remark depth tok : ~ infix (txt "ply") tok -> comment depth tok = Nothing.
Proof.
  intros Hn. unfold comment. set (text := sv_trim isWhite true true (skipn 2 tok)).
  assert (Ht : infix text tok).
  { apply (infix_trans _ (skipn 2 tok)); [apply trim_infix|]. exists (firstn 2 tok), []. rewrite app_nil_r. symmetry. apply firstn_skipn. }
  destruct (sv_startsWith text (txt "[") && sv_endsWith text (txt "]")).
  - destruct (readIdentifier (firstn (length text - 2) (skipn 1 text))) as [w r] eqn:E. apply read_split in E.
    destruct (sameText w (txt "ply")) eqn:Ew; [|reflexivity]. exfalso. apply sameText_true in Ew. subst w. apply Hn.
    apply (infix_trans _ text); [|exact Ht]. exists (firstn 1 text), (r ++ skipn (length text - 2) (skipn 1 text)).
    rewrite app_assoc, <- (app_assoc _ (txt "ply")), (app_assoc (txt "ply")), <- E, firstn_skipn, firstn_skipn. reflexivity.
  - destruct (sameText (nonWhite text) (txt "ply")) eqn:Ew; [|reflexivity]. exfalso. apply sameText_true in Ew. apply Hn.
    apply (infix_trans _ text); [|exact Ht]. unfold nonWhite in Ew. set (k := Nat.sub _ _) in Ew. exists [], (skipn k text). cbn [app]. rewrite <- Ew, firstn_skipn. reflexivity.
Qed.

(** ** Histories *)
Definition followed (es : list event) (e : event) : Prop := exists mid post, es = mid ++ e :: post /\ Forall quiet mid.
Lemma leads_cons e0 es c e : leads (e0 :: es) c e <->
  leads es c e \/ (exists d tok, e0 = Comment true d tok /\ comment d tok = Bracket (inl c) /\ followed es e).
Proof.
  split.
  - intros (pre & d & tok & mid & post & E & Hc & Hq). destruct pre as [|e1 pre]; cbn [app] in E; injection E as -> E.
    + right. exists d, tok. split; [reflexivity|]. split; [exact Hc|]. exists mid, post. split; assumption.
    + left. exists pre, d, tok, mid, post. split; [exact E|]. split; assumption.
  - intros [(pre & d & tok & mid & post & -> & Hc & Hq)|(d & tok & -> & Hc & mid & post & -> & Hq)].
    + exists (e0 :: pre), d, tok, mid, post. split; [reflexivity|]. split; assumption.
    + exists [], d, tok, mid, post. split; [reflexivity|]. split; assumption.
Qed.
Lemma followed_cons e0 es e : followed (e0 :: es) e <-> e0 = e \/ (quiet e0 /\ followed es e).
Proof.
  split.
  - intros ([|e1 mid] & post & E & Hq); cbn [app] in E; injection E as -> E; [left; reflexivity|]. right. inversion Hq; subst.
    split; [assumption|]. exists mid, post. split; [reflexivity|assumption].
  - intros [->|(Hq & mid & post & -> & Hm)]; [exists [], es; split; [reflexivity|constructor]|].
    exists (e0 :: mid), post. split; [reflexivity|]. constructor; assumption.
Qed.
Lemma not_leads_nil c e : ~ leads [] c e.
Proof. intros (pre & d & tok & mid & post & E & _). destruct pre; discriminate. Qed.
Lemma not_followed_nil e : ~ followed [] e.
Proof. intros (mid & post & E & _). destruct mid; discriminate. Qed.

Lemma registered_ok c f : forall es h, In (c, f) (registered (fold_left step es h)) <->
  In (c, f) (registered h) \/ (pending h = Some c /\ followed es (Declared (Some f))) \/ leads es c (Declared (Some f)).
Proof.
  induction es as [|e es IH]; intros h; cbn [fold_left].
  - split; [auto|]. intros [H|[[_ H]|H]]; [exact H|destruct (not_followed_nil _ H)|destruct (not_leads_nil _ _ H)].
  - rewrite IH, leads_cons, followed_cons. destruct e as [at_ d tok|fo].
    + destruct at_; cbn [step quiet].
      * destruct (comment d tok) as [| |[c0|x]] eqn:E; cbn [registered pending].
        -- split.
           ++ intros [H|[[H1 H2]|H]]; [left; exact H|right; left; split; [exact H1|right; split; [discriminate|exact H2]]|right; right; left; exact H].
           ++ intros [H|[[H1 [H2|[_ H2]]]|[H|(d' & tok' & [= <- <-] & Hc & _)]]]; [auto|discriminate|auto|auto|congruence].
        -- split.
           ++ intros [H|[[H1 H2]|H]]; [left; exact H|right; left; split; [exact H1|right; split; [discriminate|exact H2]]|right; right; left; exact H].
           ++ intros [H|[[H1 [H2|[_ H2]]]|[H|(d' & tok' & [= <- <-] & Hc & _)]]]; [auto|discriminate|auto|auto|congruence].
        -- split.
           ++ intros [H|[[H1 H2]|H]]; [left; exact H| |right; right; left; exact H].
              injection H1 as ->. right. right. right. exists d, tok. auto.
           ++ intros [H|[[H1 [H2|[H2 _]]]|[H|(d' & tok' & [= <- <-] & Hc & Hf)]]]; [auto|discriminate|destruct (H2 _ eq_refl)|auto|].
              rewrite E in Hc. injection Hc as ->. auto.
        -- split.
           ++ intros [H|[[H1 H2]|H]]; [left; exact H|discriminate|right; right; left; exact H].
           ++ intros [H|[[H1 [H2|[H2 _]]]|[H|(d' & tok' & [= <- <-] & Hc & Hf)]]]; [auto|discriminate|destruct (H2 _ eq_refl)|auto|congruence].
      * split.
        -- intros [H|[[H1 H2]|H]]; [left; exact H|right; left; split; [exact H1|right; split; [exact I|exact H2]]|right; right; left; exact H].
        -- intros [H|[[H1 [H2|[_ H2]]]|[H|(d' & tok' & H & _)]]]; [auto|discriminate|auto|auto|discriminate].
    + cbn [step quiet]. destruct (pending h) as [c0|] eqn:Ep.
      * destruct fo as [f0|]; cbn [registered pending].
        -- rewrite in_app_iff. cbn [In]. split.
           ++ intros [[H|[H|[]]]|[[H1 _]|H]]; [auto| |discriminate|auto]. injection H as -> ->. right. left. auto.
           ++ intros [H|[[H1 [H2|[[] _]]]|[H|(d' & tok' & H & _)]]]; [auto| |auto|discriminate].
              injection H1 as ->. injection H2 as ->. auto.
        -- split.
           ++ intros [H|[[H1 _]|H]]; [auto|discriminate|auto].
           ++ intros [H|[[H1 [H2|[[] _]]]|[H|(d' & tok' & H & _)]]]; [auto|discriminate|auto|discriminate].
      * rewrite Ep. split.
        -- intros [H|[[H1 _]|H]]; [auto|discriminate|auto].
        -- intros [H|[[H1 _]|[H|(d' & tok' & H & _)]]]; [auto|discriminate|auto|discriminate].
Qed.

Lemma step_errors h e : errors (step h e) = [] <-> errors h = [] /\ ~ wrong e /\ (pending h = None \/ ~ clash e).
Proof.
  assert (A : forall (l : list regError) x, l ++ [x] <> []) by (intros [|y l] x; discriminate).
  destruct e as [[|] d tok|[f|]]; cbn [step wrong clash].
  - destruct (comment d tok) as [| |[c|x]] eqn:E; cbn [errors].
    + split; [intros H|tauto]. split; [exact H|]. split; [intros [H1|[x H1]]; discriminate|]. right. intros [r H1]. discriminate.
    + split; [intros H; destruct (A _ _ H)|]. intros (_ & H & _). destruct H. auto.
    + destruct (pending h) as [c0|] eqn:Ep.
      * split; [intros H; destruct (A _ _ H)|]. intros (_ & _ & [H|H]); [discriminate|]. destruct H. eauto.
      * rewrite app_nil_r. split; [intros H|tauto]. split; [exact H|]. split; [intros [H1|[x H1]]; discriminate|auto].
    + split; [intros H; rewrite app_assoc in H; destruct (A _ _ H)|]. intros (_ & H & _). destruct H. eauto.
  - split; [intros H; split; [exact H|]; split; [intros []|right; intros []]|tauto].
  - destruct (pending h) as [c|]; cbn [errors]; (split; [intros H; split; [exact H|]; split; [intros []|right; intros []]|tauto]).
  - destruct (pending h) as [c|] eqn:Ep; cbn [errors].
    + split; [intros H; destruct (A _ _ H)|]. intros (_ & _ & [H|H]); [discriminate|destruct H; exact I].
    + split; [intros H; split; [exact H|]; split; [intros []|auto]|tauto].
Qed.
Lemma step_pending h e : pending (step h e) = match e with
  | Comment true d tok => match comment d tok with Bracket (inl c) => Some c | Bracket (inr _) => None | _ => pending h end
  | Comment false _ _ => pending h
  | Declared _ => None
  end.
Proof.
  destruct e as [[|] d tok|f]; cbn [step]; [|reflexivity|].
  - destruct (comment d tok) as [| |[c|x]]; reflexivity.
  - destruct (pending h) as [c|] eqn:Ep; [destruct f; reflexivity|exact Ep].
Qed.
Lemma quiet_dec e : quiet e \/ clash e \/ exists f, e = Declared (Some f).
Proof.
  destruct e as [[|] d tok|[f|]]; cbn [quiet clash]; eauto.
  destruct (comment d tok) as [| |r] eqn:E; [left; intros r; discriminate|left; intros r; discriminate|right; left; eauto].
Qed.
Lemma quiet_keeps h e : quiet e -> pending (step h e) = pending h.
Proof.
  rewrite step_pending. destruct e as [[|] d tok|f]; cbn [quiet]; [|reflexivity|intros []].
  intros H. destruct (comment d tok) as [| |r]; [reflexivity|reflexivity|destruct (H r eq_refl)].
Qed.

Lemma success_from : forall es h, errors (fold_left step es h) = [] <->
  errors h = [] /\ (forall e, In e es -> ~ wrong e) /\ (forall e, clash e -> pending h <> None -> ~ followed es e) /\
  (forall c e, clash e -> ~ leads es c e).
Proof.
  induction es as [|e0 es IH]; intros h; cbn [fold_left].
  - split; [|tauto]. intros H. split; [exact H|]. split; [intros e []|]. split; [intros e _ _; apply not_followed_nil|intros c e _; apply not_leads_nil].
  - rewrite IH, step_errors. split.
    + intros ((H1 & H2 & H3) & H4 & H5 & H6). split; [exact H1|]. split; [intros e [<-|H]; [exact H2|exact (H4 e H)]|]. split.
      * intros e He Hp Hf. apply followed_cons in Hf. destruct Hf as [<-|[Hq Hf]].
        -- destruct H3 as [H3|H3]; contradiction.
        -- apply (H5 e He); [rewrite (quiet_keeps h e0 Hq); exact Hp|exact Hf].
      * intros c e He Hl. apply leads_cons in Hl. destruct Hl as [Hl|(d & tok & -> & Hc & Hf)]; [exact (H6 c e He Hl)|].
        apply (H5 e He); [|exact Hf]. rewrite step_pending, Hc. discriminate.
    + intros (H1 & H2 & H3 & H4). split; [split; [exact H1|]; split; [apply H2; left; reflexivity|]|].
      * destruct (pending h) as [c|] eqn:Ep; [|auto]. right. intros He. apply (H3 e0 He); [discriminate|]. apply followed_cons. auto.
      * split; [intros e H; apply H2; right; exact H|]. split.
        -- intros e He Hp Hf. rewrite step_pending in Hp. destruct (quiet_dec e0) as [Hq|[Hcl|[f ->]]].
           ++ rewrite <- step_pending, (quiet_keeps h e0 Hq) in Hp. apply (H3 e He Hp). apply followed_cons. auto.
           ++ destruct e0 as [[|] d tok|[f|]]; cbn [clash] in Hcl; try contradiction. destruct Hcl as [r Er]. rewrite Er in Hp. destruct r as [c|x]; [|contradiction].
              apply (H4 c e He). apply leads_cons. right. exists d, tok. auto.
           ++ contradiction.
        -- intros c e He Hl. apply (H4 c e He). apply leads_cons. auto.
Qed.

Lemma fold_prefix es : forall h, exists more, registered (fold_left step es h) = registered h ++ more.
Proof.
  induction es as [|e es IH]; intros h; cbn [fold_left]; [exists []; symmetry; apply app_nil_r|].
  destruct (IH (step h e)) as [more E]. rewrite E.
  assert (S1 : exists l, registered (step h e) = registered h ++ l).
  { destruct e as [[|] d tok|f]; cbn [step]; [|exists []; symmetry; apply app_nil_r|].
    - destruct (comment d tok) as [| |[c|x]]; exists []; symmetry; apply app_nil_r.
    - destruct (pending h) as [c|]; [|exists []; symmetry; apply app_nil_r]. destruct f as [f|]; [exists [(c, f)]; reflexivity|exists []; symmetry; apply app_nil_r]. }
  destruct S1 as [l ->]. exists (l ++ more). symmetry. apply app_assoc.
Qed.

Lemma declared_once es : (length (registered (extract es)) <= length (filter (fun e => match e with Declared (Some _) => true | _ => false end) es))%nat.
Proof.
  unfold extract. assert (G : forall es h, (length (registered (fold_left step es h)) <= length (registered h) + length (filter (fun e => match e with Declared (Some _) => true | _ => false end) es))%nat).
  { clear es. induction es as [|e es IH]; intros h; cbn [fold_left filter]; [lia|]. specialize (IH (step h e)).
    assert (L : (length (registered (step h e)) <= length (registered h) + (match e with Declared (Some _) => 1 | _ => 0 end))%nat).
    { destruct e as [[|] d tok|f]; cbn [step]; [|lia|].
      - destruct (comment d tok) as [| |[c|x]]; cbn; lia.
      - destruct (pending h) as [c|]; [|lia]. destruct f; cbn [registered]; [rewrite app_length; cbn; lia|lia]. }
    destruct e as [b d tok|[f|]]; cbn [length] in *; lia. }
  specialize (G es (mkHooks None [] [])). cbn in G. exact G.
Qed.

Lemma remarks_nothing mid : Forall (fun e => exists b d tok, e = Comment b d tok /\ ~ infix (txt "ply") tok) mid -> forall h, fold_left step mid h = h.
Proof.
  induction 1 as [|e mid (b & d & tok & -> & Hn) Hm IH]; intros h; [reflexivity|]. cbn [fold_left]. rewrite IH. destruct b; cbn [step]; [|reflexivity].
  rewrite (remark d tok Hn). reflexivity.
Qed.
