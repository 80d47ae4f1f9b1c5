(* Proofs about names in the registry. *)
From Verif Require Import Base ScanModel ScanSpec ScanProofs StringViewModel NumTextModel NumTextSpec NumTextProofs
  NamesModel NamesSpec.

Lemma name_eqb_eq : forall a b, name_eqb a b = true <-> a = b.
Proof.
  induction a as [|x a IH]; intros [|y b]; cbn [name_eqb]; try (split; congruence).
  rewrite andb_true_iff, Z.eqb_eq, IH. split; [intros [-> ->]; reflexivity|]. intros H. injection H as -> ->. auto.
Qed.
Lemma name_eqb_refl a : name_eqb a a = true.
Proof. now apply name_eqb_eq. Qed.
Lemma name_eqb_neq a b : name_eqb a b = false <-> a <> b.
Proof.
  rewrite <- name_eqb_eq. destruct (name_eqb a b); split; congruence.
Qed.
Lemma ext_eqb_eq a b : ext_eqb a b = true <-> a = b.
Proof.
  destruct a as [a i], b as [b j]. unfold ext_eqb. cbn [fst snd].
  rewrite andb_true_iff, name_eqb_eq, Nat.eqb_eq. split; [intros [-> ->]; reflexivity|].
  intros H. injection H as -> ->. auto.
Qed.

Lemma find_at_some {A} (f : A -> bool) l : forall k i,
  find_at f l k = Some i <-> exists j, i = (k + j)%nat /\ first_at (fun x => f x = true) l j.
Proof.
  induction l as [|x l IH]; intros k i; cbn [find_at].
  - split; [discriminate|]. intros (j & _ & (y & H & _) & _). destruct j; discriminate.
  - destruct (f x) eqn:E.
    + split.
      * intros H. injection H as <-. exists 0%nat. split; [lia|]. split; [exists x; auto|]. intros j y Hj. lia.
      * intros (j & -> & _ & Hn). destruct j as [|j]; [f_equal; lia|].
        exfalso. apply (Hn 0%nat x); [lia|reflexivity|exact E].
    + rewrite IH. split; intros (j & -> & (y & Hy & Py) & Hn).
      * exists (S j). split; [lia|]. split; [exists y; auto|].
        intros [|m] z Hm Hz; cbn in Hz; [congruence|]. apply (Hn m z); [lia|exact Hz].
      * destruct j as [|j]; cbn in Hy; [congruence|].
        exists j. split; [lia|]. split; [exists y; auto|]. intros m z Hm Hz. apply (Hn (S m) z); [lia|exact Hz].
Qed.
Lemma find_at_none {A} (f : A -> bool) l : forall k, find_at f l k = None <-> forall x, In x l -> f x = false.
Proof.
  induction l as [|x l IH]; intros k; cbn [find_at].
  - split; [intros _ x []|reflexivity].
  - destruct (f x) eqn:E.
    + split; [discriminate|]. intros H. specialize (H x (or_introl eq_refl)). congruence.
    + rewrite IH. split; intros H; [intros y [<-|Hy]; auto|intros y Hy; apply H; now right].
Qed.
Lemma find_at_0 {A} (f : A -> bool) (P : A -> Prop) l i : (forall x, f x = true <-> P x) ->
  (find_at f l 0 = Some i <-> first_at P l i).
Proof.
  intros Hf. rewrite find_at_some. unfold first_at. split.
  - intros (j & -> & (x & Hx & Px) & Hn). cbn [Nat.add]. split.
    + exists x. split; [exact Hx|now apply Hf].
    + intros m y Hm Hy HP. apply (Hn m y Hm Hy). now apply Hf.
  - intros ((x & Hx & Px) & Hn). exists i. split; [reflexivity|]. split.
    + exists x. split; [exact Hx|now apply Hf].
    + intros m y Hm Hy HP. apply (Hn m y Hm Hy). now apply Hf.
Qed.

Lemma find_repo_some reg n r : find_repo reg n = Some r -> In r reg /\ rname r = n.
Proof. intros H. apply find_some in H. destruct H as [H1 H2]. apply name_eqb_eq in H2. auto. Qed.
Lemma find_repo_none reg n : find_repo reg n = None <-> ~ is_repo reg n.
Proof.
  unfold find_repo. split.
  - intros H (r & Hr & E). pose proof (find_none _ _ H r Hr) as F. cbn beta in F. rewrite E, name_eqb_refl in F. discriminate.
  - intros H. destruct (find _ reg) as [r|] eqn:E; [|reflexivity]. exfalso. apply H.
    apply find_some in E. destruct E as [H1 H2]. apply name_eqb_eq in H2. exists r. auto.
Qed.
Lemma unique_eq reg r r' : unique_repos reg -> In r reg -> In r' reg -> rname r = rname r' -> r = r'.
Proof.
  unfold unique_repos. induction reg as [|x reg IH]; intros Hu; [intros []|]. cbn [map] in Hu.
  inversion Hu as [|? ? Hni Hd]; subst. intros [<-|Hr] [<-|Hr'] E; auto.
  - exfalso. apply Hni. rewrite E. now apply in_map.
  - exfalso. apply Hni. rewrite <- E. now apply in_map.
Qed.
Lemma find_repo_in reg r : unique_repos reg -> In r reg -> find_repo reg (rname r) = Some r.
Proof.
  intros Hu Hr. destruct (find_repo reg (rname r)) as [r'|] eqn:E.
  - apply find_repo_some in E. destruct E as [E1 E2]. f_equal. now apply (unique_eq reg).
  - apply find_repo_none in E. exfalso. apply E. exists r. auto.
Qed.

(** The hits of a scan. *)
Fixpoint hits {A} (look : repo -> option A) (reg : registry) : list A :=
  match reg with [] => [] | r :: g => match look r with Some x => x :: hits look g | None => hits look g end end.
Lemma scan_hit {A} (look : repo -> option A) reg : forall x c,
  scan_repos look reg (Some x) c = (Some x, c || match hits look reg with [] => false | _ => true end).
Proof.
  induction reg as [|r reg IH]; intros x c; cbn [scan_repos hits]; [now rewrite orb_false_r|].
  destruct (look r) eqn:E; rewrite IH; [now rewrite orb_true_r|reflexivity].
Qed.
Lemma scan_none {A} (look : repo -> option A) reg :
  scan_repos look reg None false =
  match hits look reg with [] => (None, false) | x :: l => (Some x, match l with [] => false | _ => true end) end.
Proof.
  induction reg as [|r reg IH]; cbn [scan_repos hits]; [reflexivity|].
  destruct (look r) eqn:E; [|exact IH]. rewrite scan_hit. reflexivity.
Qed.
Lemma hits_nil {A} (look : repo -> option A) reg : hits look reg = [] <-> forall r, In r reg -> look r = None.
Proof.
  induction reg as [|r reg IH]; cbn [hits]; [split; [intros _ r []|reflexivity]|].
  destruct (look r) eqn:E.
  - split; [discriminate|]. intros H. specialize (H r (or_introl eq_refl)). congruence.
  - rewrite IH. split; [intros H y [<-|Hy]; auto|intros H y Hy; apply H; now right].
Qed.
Lemma hits_one {A} (look : repo -> option A) reg x : NoDup reg ->
  (hits look reg = [x] <-> exists r, only_in (fun r => look r <> None) reg r /\ look r = Some x).
Proof.
  induction reg as [|r reg IH]; intros Hd; cbn [hits].
  - split; [discriminate|]. intros (r & ([] & _) & _).
  - inversion Hd as [|? ? Hni Hd']; subst. destruct (look r) as [y|] eqn:E.
    + split.
      * intros H. injection H as <- H. exists r. split; [|exact E]. split; [now left|]. split; [congruence|].
        intros r' [<-|Hr'] Ho; [reflexivity|]. exfalso. apply Ho. now apply (proj1 (hits_nil look reg)).
      * intros (r0 & (Hin & Ho & Hon) & El). pose proof (Hon r (or_introl eq_refl) ltac:(congruence)) as <-.
        rewrite E in El. injection El as <-. f_equal. apply hits_nil. intros r' Hr'.
        destruct (look r') eqn:E'; [|reflexivity]. exfalso.
        pose proof (Hon r' (or_intror Hr') ltac:(congruence)) as ->. contradiction.
    + rewrite (IH Hd'). split; intros (r0 & (Hin & Ho & Hon) & El); exists r0; (split; [|exact El]).
      * split; [now right|]. split; [exact Ho|]. intros r' [<-|Hr'] Ho'; [congruence|auto].
      * destruct Hin as [<-|Hin]; [congruence|]. split; [exact Hin|]. split; [exact Ho|].
        intros r' Hr'. apply Hon. now right.
Qed.
Lemma unique_nodup reg : unique_repos reg -> NoDup reg.
Proof. apply NoDup_map_inv. Qed.
Lemma only_in_iff (P Q : repo -> Prop) reg r : (forall x, P x <-> Q x) -> (only_in P reg r <-> only_in Q reg r).
Proof.
  intros H. unfold only_in. rewrite (H r). split; intros (A & B & C); (split; [exact A|]); (split; [exact B|]); intros r' Hr' HP; apply C; auto; now apply H.
Qed.

(** Splitting. *)
Lemma id_start_dot : ~ id_continue 2 46.
Proof. unfold id_continue, id_start. cbn. intros [H|H]; [|lia]. repeat destruct H as [H|H]; try lia; destruct H; lia. Qed.
Lemma id_start_byte c : id_start 2 c -> is_byte c.
Proof. unfold id_start, is_byte. cbn. intros H. repeat destruct H as [H|H]; try lia; destruct H; lia. Qed.
Lemma id_continue_byte c : id_continue 2 c -> is_byte c.
Proof. intros [H|H]; [now apply id_start_byte|]. unfold is_byte. lia. Qed.
Lemma ident_bytes w : ident 2 w -> bytes_ok w.
Proof.
  destruct w as [|c w]; [intros []|]. intros [H1 H2]. constructor; [now apply id_start_byte|].
  eapply Forall_impl; [|exact H2]. apply id_continue_byte.
Qed.
Lemma ident_continue w : ident 2 w -> Forall (id_continue 2) w.
Proof. destruct w as [|c w]; [intros []|]. intros [H1 H2]. constructor; [now left|exact H2]. Qed.
Lemma join_bytes comps : Forall (ident 2) comps -> bytes_ok (join comps).
Proof.
  induction comps as [|c comps IH]; intros H; [constructor|]. inversion H; subst.
  destruct comps as [|d comps]; cbn [join]; [now apply ident_bytes|].
  apply bytes_ok_app. split; [now apply ident_bytes|]. constructor; [unfold is_byte; lia|]. now apply IH.
Qed.

(** A prefix of continuing bytes followed by a stop is determined. *)
Definition stop_at (rest : name) : Prop := match rest with [] => True | c :: _ => ~ id_continue 2 c end.
Lemma prefix_unique : forall w rest w' rest', Forall (id_continue 2) w -> Forall (id_continue 2) w' ->
  stop_at rest -> stop_at rest' -> w ++ rest = w' ++ rest' -> w = w' /\ rest = rest'.
Proof.
  induction w as [|c w IH]; intros rest [|c' w'] rest' H H' S1 S2 E; cbn [app] in E.
  - auto.
  - subst rest. inversion H'; subst. contradiction.
  - subst rest'. inversion H; subst. contradiction.
  - injection E as -> E. inversion H; inversion H'; subst. destruct (IH rest w' rest') as [-> ->]; auto.
Qed.

Lemma parse_ident_ok w rest : ident 2 w -> bytes_ok rest -> stop_at rest ->
  snd (parse_identifier (w ++ rest) WithDash) = rest.
Proof.
  intros Hw Hb Hs. pose proof (identifier_spec (w ++ rest) WithDash) as H.
  destruct (parse_identifier (w ++ rest) WithDash) as [ok rest'] eqn:E. cbn [snd].
  destruct H as (w' & E' & D). { apply bytes_ok_app. split; [now apply ident_bytes|exact Hb]. }
  change WithDash with 2 in D. destruct D as [(Hw' & _ & Hs')|(-> & Hn & _)].
  - symmetry. apply (prefix_unique w rest w' rest'); auto using ident_continue.
  - destruct w as [|c w]; [destruct Hw|]. cbn [app] in E'. subst rest'. destruct Hw as [Hc _]. contradiction.
Qed.

Lemma join_stop comps : stop_at (match comps with [] => [] | _ => 46 :: join comps end).
Proof. destruct comps; cbn; [exact I|]. apply id_start_dot. Qed.

Lemma firstn_sub {A} (w rest : list A) : firstn (length (w ++ rest) - length rest) (w ++ rest) = w.
Proof. rewrite app_length, Nat.add_sub. rewrite firstn_app, firstn_all, Nat.sub_diag. cbn. apply app_nil_r. Qed.

Lemma split_join_more : forall comps fuel acc, Forall (ident 2) comps ->
  let s := match comps with [] => [] | _ => 46 :: join comps end in
  (length s < fuel)%nat -> split_loop fuel s false acc = Some (acc ++ comps).
Proof.
  induction comps as [|c comps IH]; intros fuel acc H s Hf; subst s.
  - destruct fuel; [cbn in Hf; lia|]. cbn. now rewrite app_nil_r.
  - destruct fuel as [|fuel]; [cbn in Hf; lia|]. inversion H; subst.
    set (tl := match comps with [] => [] | _ => 46 :: join comps end) in *.
    assert (Ej : join (c :: comps) = c ++ tl). { subst tl. destruct comps; cbn [join]; [now rewrite app_nil_r|reflexivity]. }
    rewrite Ej in *. cbn [split_loop]. change (46 =? 46) with true. cbn iota.
    rewrite parse_ident_ok; [|assumption| |].
    + rewrite firstn_sub. destruct c as [|x c]; [contradiction|]. cbn iota beta.
      specialize (IH fuel (acc ++ [x :: c]) H3). cbn zeta in IH. fold tl in IH. rewrite IH.
      * now rewrite <- app_assoc.
      * cbn [length] in Hf. rewrite app_length in Hf. lia.
    + subst tl. destruct comps as [|d comps]; [constructor|]. constructor; [unfold is_byte; lia|]. now apply join_bytes.
    + apply join_stop.
Qed.
Lemma split_of_spells s comps : spells s comps -> splitName s = comps.
Proof.
  intros (Hn & Hi & ->). destruct comps as [|c comps]; [congruence|]. clear Hn. inversion Hi; subst.
  unfold splitName. set (tl := match comps with [] => [] | _ => 46 :: join comps end).
  assert (Ej : join (c :: comps) = c ++ tl). { subst tl. destruct comps; cbn [join]; [now rewrite app_nil_r|reflexivity]. }
  rewrite Ej. destruct c as [|x c]; [contradiction|]. cbn [split_loop app].
  change (x :: c ++ tl) with ((x :: c) ++ tl). rewrite parse_ident_ok; [|assumption| |].
  - rewrite firstn_sub. cbn iota beta.
    assert (P : split_loop (length ((x :: c) ++ tl)) tl false [x :: c] = Some ([x :: c] ++ comps)).
    { apply (split_join_more comps); [assumption|]. change (length tl < length ((x :: c) ++ tl))%nat. rewrite app_length. cbn [length]. lia. }
    change (match split_loop (length ((x :: c) ++ tl)) tl false [x :: c] with Some l => l | None => [] end = (x :: c) :: comps).
    rewrite P. reflexivity.
  - subst tl. destruct comps as [|d comps]; [constructor|]. constructor; [unfold is_byte; lia|]. now apply join_bytes.
  - apply join_stop.
Qed.

Lemma parse_ident_inv ins : bytes_ok ins -> exists w, ins = w ++ snd (parse_identifier ins WithDash) /\ (w = [] \/ ident 2 w).
Proof.
  intros Hb. pose proof (identifier_spec ins WithDash Hb) as H. destruct (parse_identifier ins WithDash) as [ok rest]. cbn [snd].
  destruct H as (w & E & [(Hw & _)|(-> & _)]); [exists w; auto|exists []; auto].
Qed.
Lemma split_loop_inv : forall fuel ins start acc l, bytes_ok ins -> split_loop fuel ins start acc = Some l ->
  exists comps, l = acc ++ comps /\ Forall (ident 2) comps /\
    ins = if start then join comps else match comps with [] => [] | _ => 46 :: join comps end.
Proof.
  induction fuel as [|fuel IH]; intros ins start acc l Hb E.
  - destruct ins; [|discriminate]. injection E as <-. exists []. rewrite app_nil_r. split; [reflexivity|]. split; [constructor|]. now destruct start.
  - destruct ins as [|c r]. { injection E as <-. exists []. rewrite app_nil_r. split; [reflexivity|]. split; [constructor|]. now destruct start. }
    cbn [split_loop] in E.
    destruct (if start then Some (c :: r) else if c =? 46 then Some r else None) as [ins1|] eqn:Ei; [|discriminate].
    assert (Hb1 : bytes_ok ins1 /\ c :: r = if start then ins1 else 46 :: ins1).
    { destruct start; [injection Ei as <-; auto|]. destruct (c =? 46) eqn:Ec; [|discriminate]. injection Ei as <-.
      apply Z.eqb_eq in Ec. subst. inversion Hb; auto. }
    destruct Hb1 as [Hb1 Ecr]. destruct (parse_ident_inv ins1 Hb1) as (w & Ew & Hw).
    set (rest := snd (parse_identifier ins1 WithDash)) in *.
    assert (Ef : firstn (length ins1 - length rest) ins1 = w). { rewrite Ew. apply firstn_sub. }
    rewrite Ef in E. destruct w as [|x w]; [discriminate|]. destruct Hw as [Hw|Hw]; [discriminate|].
    apply IH in E. 2: { rewrite Ew in Hb1. apply bytes_ok_app in Hb1. tauto. }
    destruct E as (comps & -> & Hc & Er). exists ((x :: w) :: comps).
    split; [now rewrite <- app_assoc|]. split; [now constructor|]. rewrite Ecr, Ew, Er.
    destruct comps; cbn [join]; [rewrite app_nil_r|]; now destruct start.
Qed.
Lemma split_spec s comps : bytes_ok s -> comps <> [] -> (splitName s = comps <-> spells s comps).
Proof.
  intros Hb Hn. split; [|apply split_of_spells]. intros E. unfold splitName in E.
  destruct (split_loop (S (length s)) s true []) as [l|] eqn:El; [|congruence]. subst l.
  apply split_loop_inv in El; [|exact Hb]. destruct El as (cs & -> & Hf & Es). split; [exact Hn|]. split; [exact Hf|exact Es].
Qed.
Lemma split_fails s : bytes_ok s -> (splitName s = [] <-> forall comps, ~ spells s comps).
Proof.
  intros Hb. split.
  - intros E comps H. pose proof H as (Hn & _). apply split_of_spells in H. congruence.
  - intros H. destruct (splitName s) as [|c l] eqn:E; [reflexivity|]. exfalso. apply (H (c :: l)).
    apply split_spec; [exact Hb|discriminate|exact E].
Qed.

(** Modules. *)
Lemma findTargetImm_some r n t : findTargetImm r n = Some t <-> t = (rname r, n) /\ In n (rtargets r).
Proof.
  unfold findTargetImm. destruct (existsb (name_eqb n) (rtargets r)) eqn:E.
  - apply existsb_exists in E. destruct E as (x & Hx & Ex). apply name_eqb_eq in Ex. subst x.
    split; [intros H; injection H as <-; auto|intros [-> _]; reflexivity].
  - split; [discriminate|]. intros [_ H]. exfalso. rewrite <- not_true_iff_false in E. apply E.
    apply existsb_exists. exists n. split; [exact H|apply name_eqb_refl].
Qed.
Lemma findTargetImm_no r n : findTargetImm r n <> None <-> In n (rtargets r).
Proof.
  destruct (findTargetImm r n) as [t|] eqn:E.
  - apply findTargetImm_some in E. split; [tauto|congruence].
  - split; [congruence|]. intros H. pose proof (proj2 (findTargetImm_some r n _) (conj eq_refl H)). congruence.
Qed.

(** The three loops over repos, in one statement. *)
Lemma scan_one {A} (look : repo -> option A) (offers : repo -> Prop) reg x : unique_repos reg ->
  (forall r, look r <> None <-> offers r) ->
  (scan_repos look reg None false = (Some x, false) <-> exists r, only_in offers reg r /\ look r = Some x).
Proof.
  intros Hu Ho. rewrite scan_none. pose proof (hits_one look reg x (unique_nodup _ Hu)) as H.
  assert (E : (exists r, only_in offers reg r /\ look r = Some x) <-> (exists r, only_in (fun r => look r <> None) reg r /\ look r = Some x)).
  { split; intros (r & Hr & El); exists r; (split; [|exact El]); eapply only_in_iff; try exact Hr; intros y; cbn beta; rewrite (Ho y); reflexivity. }
  rewrite E, <- H. destruct (hits look reg) as [|y [|z l]]; split; intros Q; try discriminate; injection Q as <-; reflexivity.
Qed.

Lemma target_comps reg comps t : unique_repos reg -> comps <> [] ->
  (match comps with
   | [] => False
   | c0 :: more =>
      match find_repo reg c0 with
      | Some r => match more with [c1] => findTargetImm r c1 = Some t | _ => False end
      | None => match more with [] => scan_repos (fun r => findTargetImm r c0) reg None false = (Some t, false) | _ => False end
      end
   end) <-> target_named reg comps t.
Proof.
  intros Hu Hn. destruct comps as [|c0 more]; [congruence|]. clear Hn.
  destruct (find_repo reg c0) as [r|] eqn:E.
  - apply find_repo_some in E. destruct E as [Hr Er]. split.
    + destruct more as [|c1 [|? ?]]; try tauto. intros H. apply findTargetImm_some in H. destruct H as [-> H].
      left. exists r. cbn. rewrite Er. auto.
    + intros [(r' & Hr' & Ec & Ht & Ef)|(Ec & Hno & _)].
      * injection Ec as -> ->. apply findTargetImm_some.
        assert (r = r') as -> by (apply (unique_eq reg); auto). destruct t as [a b]. cbn in *. subst. auto.
      * injection Ec as -> _. exfalso. apply Hno. exists r. auto.
  - apply find_repo_none in E. split.
    + destruct more as [|? ?]; [|tauto]. intros H. apply (scan_one _ _ _ _ Hu (fun r => findTargetImm_no r c0)) in H.
      destruct H as (r & Ho & El). apply findTargetImm_some in El. destruct El as [-> El]. right. cbn.
      split; [reflexivity|]. split; [exact E|]. exists r. auto.
    + intros [(r' & Hr' & Ec & _)|(Ec & Hno & r & Ho & Ef)].
      * injection Ec as -> _. exfalso. apply E. exists r'. auto.
      * injection Ec as -> ->. apply (scan_one _ _ _ _ Hu (fun r => findTargetImm_no r (snd t))). exists r. split; [exact Ho|].
        apply findTargetImm_some. destruct t as [a b]. cbn in *. subst. split; [reflexivity|]. apply Ho.
Qed.

Theorem findTarget_spec reg s t : unique_repos reg -> bytes_ok s ->
  (findTarget reg s = Ret (Some t) false <-> exists comps, spells s comps /\ target_named reg comps t) /\
  (findTarget reg s = Ret None true <-> forall comps t, spells s comps -> ~ target_named reg comps t).
Proof.
  intros Hu Hb.
  assert (K : (exists t', findTarget reg s = Ret (Some t') false /\ exists comps, spells s comps /\ target_named reg comps t') \/
              findTarget reg s = Ret None true).
  { unfold findTarget. destruct (splitName s) as [|c0 more] eqn:E; [right; reflexivity|].
    apply split_spec in E; [|exact Hb|discriminate]. pose proof (fun t => proj1 (target_comps reg (c0 :: more) t Hu ltac:(discriminate))) as T.
    cbn iota beta in T. destruct (find_repo reg c0) as [r|].
    - destruct more as [|c1 [|? ?]]; try (right; reflexivity).
      destruct (findTargetImm r c1) as [t'|] eqn:Et; [|right; reflexivity]. left. exists t'. split; [reflexivity|]. exists [c0; c1]. auto.
    - destruct more as [|? ?]; [|right; reflexivity].
      destruct (scan_repos (fun r => findTargetImm r c0) reg None false) as [[t'|] [|]] eqn:Es; try (right; reflexivity).
      left. exists t'. split; [reflexivity|]. exists [c0]. auto. }
  assert (L : forall comps t', spells s comps -> target_named reg comps t' -> findTarget reg s = Ret (Some t') false).
  { intros comps t' Hs Ht. pose proof Hs as (Hn & _). apply split_of_spells in Hs. unfold findTarget. rewrite Hs.
    apply (target_comps reg comps t' Hu Hn) in Ht. destruct comps as [|c0 more]; [contradiction|].
    destruct (find_repo reg c0).
    - destruct more as [|c1 [|? ?]]; try contradiction. now rewrite Ht.
    - destruct more as [|? ?]; try contradiction. now rewrite Ht. }
  split; split.
  - intros E. destruct K as [(t' & E' & X)|E']; [|congruence]. rewrite E in E'. injection E' as <-. exact X.
  - intros (comps & A & B). now apply (L comps).
  - intros E comps t' A B. rewrite (L comps t' A B) in E. discriminate.
  - intros H. destruct K as [(t' & _ & comps & A & B)|E']; [|exact E']. exfalso. now apply (H comps t').
Qed.
