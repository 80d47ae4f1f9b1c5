(* Property C78: reading ahead, going back and skipping in the C++ parser. *)
From Coq Require Import Lia ZifyBool ZifyNat.
From Coq Require Import String.
From Verif Require Import Txt CppTokModel CppTokSpec CppTokProofs CppTokLoc CppSkipModel CppSkipSpec CppSkipProofs CppSkipMore.
Local Open Scope string_scope.
Local Open Scope list_scope.
Local Open Scope Z_scope.
Local Notation length := List.length.

(** For the examples: tokens that stand in a list, and the tokenizer of C77 step by step. *)
Definition eof : token := mkToken 99 EndOfFile [].
Definition listed (_ : bool) (s : list token) : option (token * list token) :=
  match s with [] => Some (eof, []) | t :: s => Some (t, s) end.
Definition tk (n : Z) (t : ttype) (x : list Z) : token := mkToken n t x.
Definition step (angles : bool) (s : pp) : token * pp :=
  match tokens angles s with Some x => x | None => (mkToken 0 Invalid [], s) end.
Lemma pull_step angles s : match tokens angles s with Some (t, _) => negb (isAside (tokType t)) | None => false end = true ->
  pull tokens angles ([], s) (fst (step angles s)) ([], snd (step angles s)).
Proof.
  unfold step. destruct (tokens angles s) as [[t q]|] eqn:E; [|discriminate]. intros H. apply pl_token; [now apply pr_next|].
  intros A. apply aside_iff in A. cbn in A. rewrite A in H. discriminate.
Qed.

(** Going back is as if what was read since had not been read, and an error since then had not occurred: any
    client that reads, pushes back what it has just read, marks places, goes back to the last, forgets it and
    reports errors gets the tokens that [asteps] says, over any tokenizer; only errors outside of all marks are
    told. Missing: marks at the place of the first one, forgetting after an error, pushing back over the mark
    and changes of how angles are read (each fails, see below). *)
Theorem C78_going_back_partial (S : Type) (next : bool -> S -> option (token * S)) (s : S) angles cs out a :
  asteps next angles (begin s) cs out a ->
  exists n q, (forall f, (n <= f)%nat -> crun next f cs None [] (setScope acceptNone angles (fresh s)) = Some (out, q)) /\
    pErrors q = aErrs a /\ length (pReported q) = aTold a.
Proof.
  intros H. destruct (restore_points next angles _ _ _ _ H None [] (setScope acceptNone angles (fresh s))) as (n & q & E & last & rs & R).
  - split; [|cbn; repeat split; auto; discriminate].
    split; [split; [reflexivity|cbn; lia]|]. split; [reflexivity|]. split; [exists []; split; [reflexivity|constructor]|].
    split; [reflexivity|]. split; constructor.
  - exists n, q. split; [exact E|]. destruct R as (_ & _ & _ & _ & H1 & H2 & _). split; assumption.
Qed.
Print Assumptions C78_going_back_partial.
Definition exIds : list token :=
  [tk 0 Identifier (txt "a"); tk 2 LineComment (txt "// c"); tk 7 Identifier (txt "b"); tk 9 Identifier (txt "c")].
Example C78_going_back_ex : exists a,
  asteps listed false (begin exIds) [Err; Mark; Read; Mark; Read; Err; Read; PushBack; Read; GoBack; Read; Forget; GoBack; Read; Forget; Read]
    [tk 0 Identifier (txt "a"); tk 7 Identifier (txt "b"); tk 9 Identifier (txt "c"); tk 9 Identifier (txt "c");
     tk 7 Identifier (txt "b"); tk 0 Identifier (txt "a"); tk 7 Identifier (txt "b")] a /\ aErrs a = 1%nat /\ aTold a = 1%nat.
Proof.
  assert (PA : pull listed false ([], exIds) (tk 0 Identifier (txt "a")) ([], tl exIds))
    by (apply pl_token; [apply pr_next; reflexivity|cbn; intuition discriminate]).
  assert (PB : pull listed false ([], tl exIds) (tk 7 Identifier (txt "b")) ([], skipn 3 exIds)).
  { eapply pl_aside; [apply pr_next; reflexivity|cbn; tauto|]. apply pl_token; [apply pr_next; reflexivity|cbn; intuition discriminate]. }
  assert (PC : pull listed false ([], skipn 3 exIds) (tk 9 Identifier (txt "c")) ([], []))
    by (apply pl_token; [apply pr_next; reflexivity|cbn; intuition discriminate]).
  assert (PC' : pull listed false ([tk 9 Identifier (txt "c")], []) (tk 9 Identifier (txt "c")) ([], []))
    by (apply pl_token; [apply pr_pending|cbn; intuition discriminate]).
  eexists. split.
  - eapply (ass_cons _ _ _ _ []); [apply as_error_told|]. eapply (ass_cons _ _ _ _ []); [apply as_mark|].
    eapply (ass_cons _ _ _ _ [_]); [apply as_read; exact PA|]. eapply (ass_cons _ _ _ _ []); [apply as_mark_nested; lia|].
    eapply (ass_cons _ _ _ _ [_]); [apply as_read; exact PB|]. eapply (ass_cons _ _ _ _ []); [apply as_error_marked|].
    eapply (ass_cons _ _ _ _ [_]); [apply as_read; exact PC|]. eapply (ass_cons _ _ _ _ []); [apply as_push|].
    eapply (ass_cons _ _ _ _ [_]); [apply as_read; exact PC'|]. eapply (ass_cons _ _ _ _ []); [apply as_back|].
    eapply (ass_cons _ _ _ _ [_]); [apply as_read; exact PB|]. eapply (ass_cons _ _ _ _ []); [apply as_forget|].
    eapply (ass_cons _ _ _ _ []); [apply as_back|]. eapply (ass_cons _ _ _ _ [_]); [apply as_read; exact PA|].
    eapply (ass_cons _ _ _ _ []); [apply as_forget|]. eapply (ass_cons _ _ _ _ [_]); [apply as_read; exact PB|]. apply ass_nil.
  - split; reflexivity.
Qed.

(** Skipping a scope in curly brackets ends at the curly bracket that closes it, whatever parentheses and square
    brackets are left open or closed too often in between, wherever the parser is (also under a mark). *)
Theorem C78_curly_skipped (S : Type) (next : bool -> S -> option (token * S)) (p : parser S) open k u2 c u3 :
  (pRestore p = false -> pPos p = 0%nat) -> (pPos p <= length (pQueue p))%nat -> tokType open = OpenCurly ->
  curlies next k (skipn (pPos p) (pQueue p), pSrc p) u2 -> pull next false u2 c u3 -> tokType c = CloseCurly ->
  exists n q, (forall f, (n <= f)%nat -> skipAnyScope next f open p = Some (Some c, q)) /\
    (skipn (pPos q) (pQueue q), pSrc q) = u3 /\ pAccept q = pAccept p /\ pAngles q = pAngles p /\ pRestore q = pRestore p.
Proof.
  intros G1 G2 TO CU PC TC. destruct (curly_skipped next k _ u2 c u3 open p CU PC TC TO (conj G1 G2) eq_refl) as (n & q & H1 & H2 & _ & (H3 & H4 & H5)).
  exists n, q. auto.
Qed.
Print Assumptions C78_curly_skipped.
Definition exCurly : pp := snd (step false (start [] (txt "{ a(] { b } [ } z"))).
Example C78_curly_skipped_ex : exists k u2 c u3, tokType (fst (step false (start [] (txt "{ a(] { b } [ } z")))) = OpenCurly /\
  curlies tokens k (skipn (pPos (fresh exCurly)) (pQueue (fresh exCurly)), pSrc (fresh exCurly)) u2 /\
  pull tokens false u2 c u3 /\ tokType c = CloseCurly /\ tokText (fst (step false (snd u3))) = txt "z".
Proof.
  eexists _, _, _, _. split; [vm_compute; reflexivity|]. split.
  - do 3 (eapply cu_tok; [apply pull_step; vm_compute; reflexivity|vm_compute; discriminate..|]).
    eapply cu_nest; [apply pull_step; vm_compute; reflexivity|vm_compute; reflexivity| | | |].
    + eapply cu_tok; [apply pull_step; vm_compute; reflexivity|vm_compute; discriminate..|]. apply cu_nil.
    + apply pull_step. vm_compute. reflexivity.
    + vm_compute. reflexivity.
    + eapply cu_tok; [apply pull_step; vm_compute; reflexivity|vm_compute; discriminate..|]. apply cu_nil.
  - split; [apply pull_step; vm_compute; reflexivity|]. split; vm_compute; reflexivity.
Qed.

(** Skipping a scope of any kind in which the brackets are balanced ends at the bracket that closes it and is no
    error (unless the parser is to stop at an opening curly bracket). *)
Theorem C78_balanced_skipped (S : Type) (next : bool -> S -> option (token * S)) (p : parser S) open u2 c u3 :
  (pRestore p = false -> pPos p = 0%nat) -> (pPos p <= length (pQueue p))%nat -> aOpenCurly (pAccept p) = false ->
  balanced next (inAngles (tokType open)) (skipn (pPos p) (pQueue p), pSrc p) u2 ->
  pull next (inAngles (tokType open)) u2 c u3 -> pair (tokType open) (tokType c) ->
  exists n q, (forall f, (n <= f)%nat -> skipAnyScope next f open p = Some (Some c, q)) /\
    (skipn (pPos q) (pQueue q), pSrc q) = u3 /\ pAccept q = pAccept p /\ pAngles q = pAngles p /\ pRestore q = pRestore p /\
    pErrors q = pErrors p /\ pMute q = pMute p /\ pReported q = pReported p.
Proof.
  intros G1 G2 F B PC PR. destruct (balanced_skipped next _ u2 c u3 open p B PC PR F (conj G1 G2) eq_refl)
    as (n & q & H1 & H2 & _ & (H3 & H4 & H5) & (H6 & H7 & H8)).
  exists n, q. repeat split; auto.
Qed.
Print Assumptions C78_balanced_skipped.
Definition exAngles : pp := snd (step true (start [] (txt "<A<(b > c)>>z"))).
Example C78_balanced_skipped_ex : exists u2 c u3, tokType (fst (step true (start [] (txt "<A<(b > c)>>z")))) = OpenAngle /\
  balanced tokens true (skipn (pPos (fresh exAngles)) (pQueue (fresh exAngles)), pSrc (fresh exAngles)) u2 /\
  pull tokens true u2 c u3 /\ pair OpenAngle (tokType c) /\ tokText (fst (step false (snd u3))) = txt "z".
Proof.
  eexists _, _, _. split; [vm_compute; reflexivity|]. split.
  - eapply ba_tok; [apply pull_step; vm_compute; reflexivity|vm_compute; intuition discriminate|vm_compute; discriminate|].
    eapply ba_nest; [apply pull_step; vm_compute; reflexivity| |vm_compute; tauto| | |apply ba_nil].
    2:{ eapply ba_nest; [apply pull_step; vm_compute; reflexivity| |vm_compute; tauto| | |apply ba_nil].
        2:{ eapply ba_tok; [apply pull_step; vm_compute; reflexivity|vm_compute; intuition discriminate|vm_compute; discriminate|].
            eapply ba_tok; [apply pull_step; vm_compute; reflexivity|vm_compute; intuition discriminate|vm_compute; discriminate|].
            eapply ba_tok; [apply pull_step; vm_compute; reflexivity|vm_compute; intuition discriminate|vm_compute; discriminate|].
            apply ba_nil. }
        2:{ apply pull_step. vm_compute. reflexivity. }
        vm_compute. tauto. }
    2:{ apply pull_step. vm_compute. reflexivity. }
    vm_compute. tauto.
  - split; [apply pull_step; vm_compute; reflexivity|]. split; vm_compute; tauto.
Qed.

(** Skipping always ends where tokens end: with the closing bracket, or before a token at which an outer scope
    goes on, or at the end of the file. *)
Theorem C78_skipping_ends (S : Type) (next : bool -> S -> option (token * S)) (p : parser S) open c k :
  (pRestore p = false -> pPos p = 0%nat) -> (pPos p <= length (pQueue p))%nat -> pair (tokType open) c ->
  ends next k (skipn (pPos p) (pQueue p), pSrc p) ->
  exists n r q, (forall f, (n <= f)%nat -> skipAnyScope next f open p = Some (r, q)) /\
    (exists k', (k' <= k)%nat /\ ends next k' (skipn (pPos q) (pQueue q), pSrc q)) /\ (forall t, r = Some t -> tokType t = c) /\
    (r = None -> forall angles, exists t u, pull next angles (skipn (pPos q) (pQueue q), pSrc q) t u /\
       (tokType t = EndOfFile \/ (accepts (pAccept p) (tokType t) = true /\ tokType t <> c))).
Proof.
  intros G1 G2 PR E. destruct (skipping_ends next k open c p E (conj G1 G2) PR) as (n & r & q & H1 & _ & _ & H2 & H3 & H4).
  exists n, r, q. auto.
Qed.
Print Assumptions C78_skipping_ends.
(** The tokens of a C++ source end (under the conditions of C77_reading_ends_partial), however angles are read. *)
Theorem C78_sources_end_partial ms file :
  (forall m m', In m ms -> In m' ms -> mName m' <> [] /\ ~ occurs (mName m') (mText m)) ->
  (forall m, In m ms -> ~ occurs (txt "R""") (mText m)) -> ~ occurs (txt "R""") file ->
  exists k, ends tokens k ([], start ms file).
Proof. exact (file_ends ms file). Qed.
Print Assumptions C78_sources_end_partial.
Example C78_skipping_ends_ex : (exists k, ends tokens k (skipn (pPos (fresh (start [] (txt "a [b { c")))) (pQueue (fresh (start [] (txt "a [b { c")))),
    pSrc (fresh (start [] (txt "a [b { c"))))) /\
  exists q, skipAnyScope tokens 12 (tk 0 OpenParen (txt "(")) (fresh (start [] (txt "a [b { c"))) = Some (None, q) /\ length (pReported q) = 1%nat.
Proof.
  split.
  - apply C78_sources_end_partial; [contradiction|contradiction|]. intros (a & b & E).
    assert (H : In 34 (txt "a [b { c")) by (rewrite E; apply in_or_app; right; right; left; reflexivity).
    cbn in H. intuition discriminate.
  - eexists. split; [vm_compute; reflexivity|]. reflexivity.
Qed.

(** Closing a parenthesis or a square bracket outside of marks always ends: with the scope closed, or with the
    errors muted before a token at which an outer scope goes on. Missing: under a mark (see below). *)
Theorem C78_closing_ends_partial (S : Type) (next : bool -> S -> option (token * S)) (p : parser S) open c k :
  pRestore p = false -> pPos p = 0%nat -> In (tokType open, c) [(OpenParen, CloseParen); (OpenSquare, CloseSquare)] ->
  ends next k (pQueue p, pSrc p) ->
  exists n b x q, (forall f, (n <= f)%nat -> closeScope next f open p = Some (b, x, q)) /\
    pAccept q = pAccept p /\ pAngles q = pAngles p /\ pRestore q = false /\ (forall t, x = Some t -> tokType t = c) /\
    (b = false -> pMute q = true /\ forall angles, exists t u, pull next angles (pQueue q, pSrc q) t u /\
       (tokType t = EndOfFile \/ (accepts (pAccept p) (tokType t) = true /\ tokType t <> c))).
Proof.
  intros R P PR E. destruct (closing_ends next k open c p) as (n & b & x & q & H1 & (G1 & G2) & (S1 & S2 & S3) & H2 & H3); [|split|exact R| | |].
  - unfold up. rewrite P. exact E.
  - auto.
  - rewrite P. lia.
  - revert PR. unfold pair. cbn [In]. tauto.
  - cbn [In] in PR. destruct PR as [X|[X|[]]]; injection X as <- _; auto.
  - exists n, b, x, q. split; [exact H1|]. repeat (split; [congruence|]). split; [exact H2|].
    intros B. specialize (H3 B). unfold up in H3. rewrite (G1 ltac:(congruence)) in H3. exact H3.
Qed.
Print Assumptions C78_closing_ends_partial.
Example C78_closing_ends_ex : exists q, closeScope tokens 12 (tk 0 OpenParen (txt "(")) (fresh (start [] (txt "a, b[0] ) z"))) = Some (true, None, q) /\
  map (fun e => match e with Expected t => tokLoc t | _ => -1 end) (pReported q) = [0] /\ tokText (fst (step false (pSrc q))) = txt "z".
Proof. eexists. split; [vm_compute; reflexivity|]. split; vm_compute; reflexivity. Qed.

(** Going back does not undo how angles were read: two closing angles that were read as a shift stay one when
    template arguments are tried next. *)
Theorem C78_angles_refuted :
  let s := start [] (txt ">> x") in
  exists r p1 t p2, makeRestore (fresh s) = Some (r, p1) /\ read tokens 2 p1 = Some (t, p2) /\
    (exists q, read tokens 2 (setScope acceptNone true (backtrack r p2)) = Some (tk 0 RightShift (txt ">>"), q)) /\
    (exists q, read tokens 2 (setScope acceptNone true p1) = Some (tk 0 CloseAngle (txt ">"), q)).
Proof.
  cbv zeta. eexists _, _, _, _. split; [reflexivity|]. split; [vm_compute; reflexivity|]. split; eexists; vm_compute; reflexivity.
Qed.
Print Assumptions C78_angles_refuted.

(** Comments, directives and macros are handed to the client once for each time they are read: going back
    gives them a second time. *)
Theorem C78_comments_refuted : exists q,
  crun listed 5 [Mark; Read; Read; GoBack; Read; Read; Forget] None [] (fresh exIds) =
    Some ([tk 0 Identifier (txt "a"); tk 7 Identifier (txt "b"); tk 0 Identifier (txt "a"); tk 7 Identifier (txt "b")], q) /\
  pSeen q = [tk 2 LineComment (txt "// c"); tk 2 LineComment (txt "// c")].
Proof. eexists. split; [vm_compute; reflexivity|reflexivity]. Qed.
Print Assumptions C78_comments_refuted.

(** A mark that is set where the first mark is can never be forgotten: the assertion fails, whatever happens in
    between. *)
Theorem C78_same_place_refuted (S : Type) (p : parser S) r1 p1 r2 p2 (q : parser S) : pRestore p = false ->
  makeRestore p = Some (r1, p1) -> makeRestore p1 = Some (r2, p2) -> cancel r2 q = None.
Proof.
  unfold makeRestore. intros R. rewrite R. destruct (pPos p =? 0)%nat eqn:P; [|discriminate]. cbn. intros X. injection X as <- <-.
  cbn. intros X. injection X as <- <-. unfold cancel. cbn. rewrite P. destruct (errorOccurred _ q); reflexivity.
Qed.
Print Assumptions C78_same_place_refuted.
Example C78_same_place_ex : exists r1 p1 r2 p2, makeRestore (fresh exIds) = Some (r1, p1) /\ makeRestore p1 = Some (r2, p2).
Proof. eexists _, _, _, _. split; reflexivity. Qed.

(** An error after a mark is not told, and from then on the mark cannot be forgotten without going back. *)
Theorem C78_error_lost_refuted (S : Type) (p : parser S) r p1 b e : makeRestore p = Some (r, p1) ->
  pReported (report b e p1) = pReported p /\ cancel r (report b e p1) = None.
Proof.
  unfold makeRestore. destruct (pRestore p || _); [|discriminate]. intros X. injection X as <- <-. unfold report, cancel, errorOccurred. cbn.
  split; [reflexivity|]. replace (match pErrors p with O => false | Datatypes.S m => _ end) with false; [reflexivity|].
  symmetry. destruct (pErrors p) as [|m]; [reflexivity|]. apply Nat.eqb_neq. lia.
Qed.
Print Assumptions C78_error_lost_refuted.

(** Under a mark a parenthesis that is not closed is never given back as not closed; where it should be, the
    assertion fails. *)
Theorem C78_closing_marked_refuted (S : Type) (next : bool -> S -> option (token * S)) (p : parser S) f open x q :
  pRestore p = true -> pMute p = false -> closeScope next f open p <> Some (false, x, q).
Proof. exact (never_unclosed next f open p x q). Qed.
Print Assumptions C78_closing_marked_refuted.
Example C78_closing_marked_ex : exists r p1, makeRestore (fresh exIds) = Some (r, p1) /\
  (forall f, closeScope listed f (tk 0 OpenParen (txt "(")) p1 = None) /\
  exists x q, closeScope listed 9 (tk 0 OpenParen (txt "(")) (fresh exIds) = Some (false, x, q).
Proof.
  eexists _, _. split; [reflexivity|]. split.
  - intros f. destruct f as [|[|[|[|[|[|[|f]]]]]]]; vm_compute; reflexivity.
  - eexists _, _. vm_compute. reflexivity.
Qed.

(** A token from before the mark that is pushed back is read again after going back to the mark. *)
Theorem C78_push_before_refuted : exists t p0 r p p1 q q',
  read listed 5 (fresh exIds) = Some (t, p0) /\ makeRestore p0 = Some (r, p) /\
  read listed 5 (backtrack r p) = Some (tk 7 Identifier (txt "b"), q) /\
  pushBack t p = Some p1 /\ read listed 5 (backtrack r p1) = Some (t, q') /\ t = tk 0 Identifier (txt "a").
Proof. eexists _, _, _, _, _, _, _. repeat (split; [vm_compute; reflexivity|]). vm_compute. reflexivity. Qed.
Print Assumptions C78_push_before_refuted.

(** Two tokens with a comment between them can be pushed back one after the other outside of marks; under a
    mark the assertion fails. *)
Theorem C78_push_twice_refuted :
  (exists t1 p1 t2 p2 p3 p4, read listed 5 (fresh exIds) = Some (t1, p1) /\ read listed 5 p1 = Some (t2, p2) /\
     pushBack t2 p2 = Some p3 /\ pushBack t1 p3 = Some p4) /\
  (exists r p0 t1 p1 t2 p2 p3, makeRestore (fresh exIds) = Some (r, p0) /\ read listed 5 p0 = Some (t1, p1) /\ read listed 5 p1 = Some (t2, p2) /\
     pushBack t2 p2 = Some p3 /\ pushBack t1 p3 = None).
Proof.
  split.
  - eexists _, _, _, _, _, _. repeat (split; [vm_compute; reflexivity|]). vm_compute. reflexivity.
  - eexists _, _, _, _, _, _, _. repeat (split; [vm_compute; reflexivity|]). vm_compute. reflexivity.
Qed.
Print Assumptions C78_push_twice_refuted.

(** Errors outside of all marks are told in their order up to the first one that mutes the parser, and no more; they are
    all counted. *)
Theorem C78_told (S : Type) (p : parser S) (es : list (bool * perror)) (n : nat) : pRestore p = false -> pMute p = false ->
  (forall i b e, nth_error es i = Some (b, e) -> (i < n)%nat -> b = false) ->
  (forall b e, nth_error es n = Some (b, e) -> b = true) ->
  let q := fold_left (fun q x => report (fst x) (snd x) q) es p in
  pReported q = pReported p ++ map snd (firstn (Datatypes.S n) es) /\ pErrors q = (pErrors p + length es)%nat /\
  (pMute q = true <-> (n < length es)%nat).
Proof.
  assert (M : forall es (p : parser S), pRestore p = false -> pMute p = true ->
    let q := fold_left (fun q x => report (fst x) (snd x) q) es p in
    pReported q = pReported p /\ pErrors q = (pErrors p + length es)%nat /\ pMute q = true).
  { clear. induction es as [|[b e] es IH]; intros p R U; [cbn; split; [reflexivity|]; split; [lia|exact U]|].
    cbn [fold_left fst snd length]. destruct (IH (report b e p)) as (A & B & C).
    - unfold report. rewrite R. reflexivity.
    - unfold report. rewrite R. cbn. rewrite U. reflexivity.
    - split; [rewrite A; unfold report; rewrite R; cbn; rewrite U; reflexivity|]. split; [|exact C].
      rewrite B. unfold report. rewrite R. cbn. lia. }
  revert p es. induction n as [|n IH]; intros p es R U H1 H2; cbv zeta.
  - destruct es as [|[b e] es]; [cbn; split; [symmetry; apply app_nil_r|]; split; [lia|]; rewrite U; split; [discriminate|lia]|].
    pose proof (H2 b e eq_refl) as ->. cbn [fold_left fst snd length firstn map].
    destruct (M es (report true e p)) as (A & B & C).
    + unfold report. rewrite R. reflexivity.
    + unfold report. rewrite R. cbn. apply orb_true_r.
    + rewrite A, B, C. unfold report. rewrite R. cbn. rewrite U. split; [reflexivity|]. split; [lia|]. split; [lia|reflexivity].
  - destruct es as [|[b e] es]; [cbn; split; [symmetry; apply app_nil_r|]; split; [lia|]; rewrite U; split; [discriminate|lia]|].
    pose proof (H1 O b e eq_refl ltac:(lia)) as ->. cbn [fold_left fst snd length].
    destruct (IH (report false e p) es) as (A & B & C).
    + unfold report. rewrite R. reflexivity.
    + unfold report. rewrite R. cbn. rewrite U. reflexivity.
    + intros i b' e' N L. apply (H1 (Datatypes.S i) b' e' N). lia.
    + intros b' e' N. apply (H2 b' e' N).
    + rewrite A, B. split; [|split; [unfold report; rewrite R; cbn; lia|rewrite C; lia]].
      unfold report. rewrite R. cbn [pReported]. rewrite U. rewrite <- app_assoc. reflexivity.
Qed.
Print Assumptions C78_told.
Example C78_told_ex : let q := fold_left (fun q x => report (fst x) (snd x) q) [(false, Expected eof); (true, UnclosedToken eof eof); (true, Expected eof)] (fresh exIds) in
  pReported q = [Expected eof; UnclosedToken eof eof] /\ pErrors q = 3%nat.
Proof. split; reflexivity. Qed.
