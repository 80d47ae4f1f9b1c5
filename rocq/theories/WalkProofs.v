(* Walking a directory tree. *)
From Coq Require Import Lia ZifyBool ZifyNat.
From Verif Require Import Base ListUpd StringViewProofs PathProofs FsModel FsSpec FsProofs FsSaveProofs WalkSpec.

(* ---- joining a name to a path ---- *)
Fixpoint weight (l : list (list Z)) : Z := match l with [] => 0 | x :: l => zlen x + 1 + weight l end.
Lemma weight_app a b : weight (a ++ b) = weight a + weight b.
Proof. induction a as [|x a IH]; cbn [app weight]; lia. Qed.
Lemma weight_rev a : weight (rev a) = weight a.
Proof. induction a as [|x a IH]; cbn [rev weight]; [reflexivity|]. rewrite weight_app, IH. cbn [weight]. lia. Qed.
Lemma weight_nonneg a : 0 <= weight a.
Proof. induction a as [|x a IH]; cbn [weight]; [lia|]. pose proof (zlen_nonneg x). lia. Qed.
Lemma weight_pieces p : weight (pieces posixSep p) = zlen p + 1.
Proof.
  induction p as [|c p IH]; cbn [pieces]; [reflexivity|]. destruct (posixSep c); cbn [weight].
  - rewrite IH. unfold zlen. cbn [length]. lia.
  - pose proof (pieces_nn posixSep p). destruct (pieces posixSep p) as [|x xs]; [congruence|]. cbn [weight] in *. unfold zlen in *. cbn [length]. lia.
Qed.
Lemma weight_filter f a : weight (filter f a) <= weight a.
Proof. induction a as [|x a IH]; cbn [filter weight]; [lia|]. pose proof (zlen_nonneg x). destruct (f x); cbn [weight]; lia. Qed.
Lemma weight_names p : weight (names posixSep p) <= zlen p + 1.
Proof. unfold names. rewrite <- weight_pieces. apply weight_filter. Qed.
Lemma weight_nstep ns : forall st, weight (fold_left nstep ns st) <= weight st + weight ns.
Proof.
  induction ns as [|n ns IH]; intros st; cbn [fold_left weight]; [lia|]. specialize (IH (nstep st n)). enough (weight (nstep st n) <= weight st + zlen n + 1) by lia. pose proof (zlen_nonneg n).
  unfold nstep. destruct (list_eq_dec Z.eq_dec n [dot]); [lia|]. destruct (list_eq_dec Z.eq_dec n dots2) as [->|]; [|cbn [weight]; lia]. destruct st as [|x st]; cbn [weight]; [unfold zlen; cbn; lia|]. pose proof (zlen_nonneg x). lia.
Qed.
Lemma joinLoop_len l : forall b out, l <> [] -> zlen (fst (joinLoop false b out l)) <= zlen out + (if b then 1 else 0) + weight l - 1.
Proof.
  induction l as [|x l IH]; intros b out N; [congruence|]. cbn [joinLoop].
  set (r := if b then (out ++ [sepByte false], b) else (out, match x with [] => b | _ => negb (endsSep false x) end)).
  assert (E : zlen (fst r) = zlen out + (if b then 1 else 0)) by (subst r; destruct b; cbn [fst]; [rewrite zlen_app; reflexivity|lia]). destruct r as (out1 & b1). cbn [fst] in E.
  destruct l as [|y l]; [cbn [joinLoop fst weight]; rewrite zlen_app; lia|]. specialize (IH b1 (out1 ++ x) ltac:(discriminate)). rewrite zlen_app in IH. cbn [weight] in *. destruct b1; lia.
Qed.
Lemma joinLoop_last l n : forall b out, exists out', fst (joinLoop false b out (l ++ [n])) = out' ++ n.
Proof.
  induction l as [|x l IH]; intros b out; cbn [app joinLoop].
  - destruct (if b then _ else _) as (o & b'). exists o. reflexivity.
  - destruct (if b then _ else _) as (o & b'). apply IH.
Qed.
Lemma full_start p : full false p = match p with c :: _ => c =? slash | [] => false end.
Proof. unfold full, anchorOf. destruct p as [|c p]; [reflexivity|]. unfold sepOf. destruct (c =? slash); reflexivity. Qed.
Lemma plain_start p : plain false p = negb (full false p).
Proof. rewrite full_start. unfold plain, anchorOf. destruct p as [|c p]; [reflexivity|]. unfold sepOf. destruct (c =? slash); reflexivity. Qed.
Lemma sound_posix p : zlen p < 2 ^ 31 -> sound false p = true.
Proof. intros H. unfold sound, noDrives. rewrite plain_start. destruct (full false p); cbn; lia. Qed.
Definition there (cw : list name) (p : list Z) : list name := fold_left go (names posixSep p) (startDir cw p).
Lemma resolve_there cw p : snd (resolve false (fun _ => []) (0, cw) p) = there cw p.
Proof.
  unfold there, resolve. pose proof (posix_names p) as E. unfold namesOf in E. unfold namesOf. unfold anchorOf in *. destruct p as [|c p]; [reflexivity|]. unfold startDir, posixSep at 2. unfold sepOf in *. destruct (c =? slash); rewrite <- E; reflexivity.
Qed.
Lemma good_name n : good n -> Forall (fun c => posixSep c = false) n /\ n <> [].
Proof. intros (N & S & _). split; [|exact N]. apply Forall_forall. intros c Hc. unfold posixSep. apply Z.eqb_neq. intros ->. contradiction. Qed.
Lemma good_names (n : list Z) : good n -> names posixSep n = [n].
Proof. intros G. destruct (good_name n G) as (F & N). apply names_file; assumption. Qed.
Lemma good_full n : good n -> full false n = false.
Proof. intros G. destruct (good_name n G) as (F & N). rewrite full_start. inversion F; [reflexivity|assumption]. Qed.
Lemma stays_snoc (n : list Z) (ns : list (list Z)) : good n -> forall d, stays d ns = true -> stays d (ns ++ [n]) = true.
Proof.
  intros (_ & _ & N1 & N2). induction ns as [|m ns IH]; intros d; cbn [app stays].
  - intros _. destruct (list_eq_dec Z.eq_dec n [dot]); [contradiction|]. destruct (list_eq_dec Z.eq_dec n [dot; dot]); [contradiction|reflexivity].
  - destruct (list_eq_dec Z.eq_dec m [dot]); [apply IH|]. destruct (list_eq_dec Z.eq_dec m [dot; dot]); [destruct d; [discriminate|apply IH]|apply IH].
Qed.
Lemma walkable_full p : walkable p <-> p <> [] /\ stays (if full false p then 0 else 1) (names posixSep p) = true.
Proof. unfold walkable. rewrite full_start. destruct p; [split; intros (H & _); congruence|reflexivity]. Qed.
Lemma trailing_ends p : trailing p = endsSep false p.
Proof. unfold trailing, endsSep. destruct (rev p); [reflexivity|]. rewrite sep_posix. reflexivity. Qed.
Lemma join_child p (n : list Z) : walkable p -> good n -> zlen p < 2 ^ 31 -> zlen n < 2 ^ 31 ->
  exists q, joinAndNormalize false [p; n] = Some q /\ q <> [] /\ zlen q <= zlen p + zlen n + 2 /\ trailing q = false /\ tidy false q /\ full false q = full false p /\ forall cw, there cw q = n :: there cw p.
Proof.
  intros W G Hp Hn. apply walkable_full in W. destruct W as (Np & St). assert (Hs : forallb (sound false) [p; n] = true) by (cbn [forallb]; rewrite !sound_posix by assumption; reflexivity).
  pose proof (good_full n G) as Fn. pose proof (good_names n G) as Nn. destruct (good_name n G) as (Fs & Nnn).
  assert (R : route false false [] [p; n] = (full false p, names posixSep p ++ [n])).
  { cbn [route]. rewrite Fn, !posix_names. destruct (full false p); rewrite ?posix_names, Nn; reflexivity. }
  destruct (join_tidy false [p; n] ltac:(discriminate) Hs) as (q & Eq & Ti & _).
  destruct (join_meaning_full false [p; n] ltac:(discriminate) Hs) as (q' & Eq' & Fu & Me).
  { rewrite R. cbn [fst snd]. apply stays_snoc; assumption. }
  assert (q' = q) by congruence. subst q'. exists q. split; [exact Eq|].
  assert (Txt : q <> [] /\ zlen q <= zlen p + zlen n + 2 /\ trailing q = false).
  { assert (Hs2 : Forall (snd2 false) [p; n]) by (constructor; [apply sound_ok, sound_posix, Hp|constructor; [apply sound_ok, sound_posix, Hn|constructor]]).
    destruct (stack_ok false [p; n] Hs2) as (root & Gn & (_ & Rn & Re) & _ & HT & _). rewrite (join_render false [p; n] _ ltac:(discriminate) Gn) in Eq. unfold PathProofs.stack in Eq. rewrite R in Eq, HT. cbn [fst snd] in Eq, HT.
    rewrite fold_left_app in Eq. cbn [fold_left] in Eq. set (st := fold_left nstep (names posixSep p) (if full false p then [root] else [])) in *.
    assert (En : nstep st n = n :: st).
    { destruct G as (_ & _ & N1 & N2). unfold nstep. destruct (list_eq_dec Z.eq_dec n [dot]); [contradiction|]. destruct (list_eq_dec Z.eq_dec n dots2); [contradiction|reflexivity]. }
    rewrite En in Eq. cbn [rev] in Eq. unfold render in Eq. destruct (rev st ++ [n]) as [|y ys] eqn:Er; [apply app_eq_nil in Er; destruct Er; discriminate|]. rewrite <- Er in Eq.
    assert (Ls : lastSep false [p; n] = false).
    { unfold lastSep. cbn [rev app]. destruct n as [|b n']; [congruence|]. rewrite <- trailing_ends, trailing_last by discriminate. rewrite Forall_forall in Fs. apply Fs, last_in. discriminate. }
    rewrite Ls in Eq. destruct (joinLoop false false [] (rev st ++ [n])) as (out & b) eqn:Ej. cbn [andb] in Eq. injection Eq as <-.
    assert (Le : zlen out <= weight (rev st ++ [n]) - 1).
    { pose proof (joinLoop_len (rev st ++ [n]) false [] ltac:(destruct (rev st); discriminate)) as Le. rewrite Ej in Le. cbn [fst] in Le. change (zlen (@nil Z)) with 0 in Le. lia. }
    destruct (joinLoop_last (rev st) n false []) as (o & Eo). rewrite Ej in Eo. cbn [fst] in Eo. split; [rewrite Eo; intros X; apply app_eq_nil in X; tauto|]. split.
    - rewrite weight_app, weight_rev in Le. cbn [weight] in Le. pose proof (weight_nstep (names posixSep p) (if full false p then [root] else [])) as Ws. fold st in Ws.
      destruct (full false p) eqn:Ef.
      + destruct (HT eq_refl) as (_ & c & _ & _ & Fc & _ & -> & _). assert (Ec : rootc false c = [slash]) by (unfold rootc; reflexivity). rewrite Ec in Ws. cbn [weight] in Ws. change (zlen [slash]) with 1 in Ws.
        rewrite full_start in Ef. destruct p as [|c0 p0]; [discriminate|]. rewrite (names_sep posixSep c0 p0 Ef) in Ws. pose proof (weight_names p0). unfold zlen in *. cbn [length]. lia.
      + cbn [weight] in Ws. pose proof (weight_names p). lia.
    - rewrite Eo, trailing_app by exact Nnn. rewrite trailing_last by exact Nnn. rewrite Forall_forall in Fs. apply Fs, last_in, Nnn. }
  destruct Txt as (T1 & T2 & T3). split; [exact T1|]. split; [exact T2|]. split; [exact T3|]. split; [exact Ti|]. split; [rewrite Fu; cbn [existsb]; rewrite Fn, !orb_false_r; reflexivity|].
  intros cw. rewrite <- !resolve_there, Me. cbn [fold_left]. rewrite full_start in Fn.
  assert (E2 : resolve false (fun _ => []) (resolve false (fun _ => []) (0, cw) p) n = (fst (resolve false (fun _ => []) (0, cw) p), fold_left go (names posixSep n) (snd (resolve false (fun _ => []) (0, cw) p)))).
  { unfold resolve at 1. unfold anchorOf at 1. rewrite posix_names. unfold sepOf. destruct n as [|c n']; [reflexivity|]. rewrite Fn. reflexivity. }
  transitivity (snd (fst (resolve false (fun _ => []) (0, cw) p), fold_left go (names posixSep n) (snd (resolve false (fun _ => []) (0, cw) p)))); [f_equal; exact E2|]. cbn [snd]. rewrite Nn. cbn [fold_left]. unfold go. destruct G as (_ & _ & N1 & N2).
  destruct (list_eq_dec Z.eq_dec n [dot]); [contradiction|]. destruct (list_eq_dec Z.eq_dec n [dot; dot]); [contradiction|reflexivity].
Qed.

(* ---- looking the joined path up ---- *)
Lemma follow_go t ns : forall dir l, follow t dir ns = Found l -> l = fold_left go ns dir.
Proof.
  induction ns as [|n ns IH]; intros dir l; cbn [follow fold_left]; [congruence|]. destruct (at_ t dir) as [[]|]; try discriminate. unfold go at 2.
  destruct (bytes_eqb_spec n [dot]) as [->|N1]; [destruct (list_eq_dec Z.eq_dec [dot] [dot]); [apply IH|congruence]|]. destruct (list_eq_dec Z.eq_dec n [dot]); [contradiction|].
  destruct (bytes_eqb_spec n [dot; dot]) as [->|N2]; [destruct (list_eq_dec Z.eq_dec [dot; dot] [dot; dot]); [apply IH|congruence]|]. destruct (list_eq_dec Z.eq_dec n [dot; dot]); [contradiction|].
  destruct (at_ t (@cons name n dir)); [apply IH|destruct ns; discriminate].
Qed.
Lemma lookup_there s p l : named s p l -> l = there (cwd s) p.
Proof.
  unfold named, lookup, there. destruct p as [|c p]; [discriminate|]. destruct (follow _ _ _) as [l0| | |] eqn:F; try discriminate. intros H.
  assert (l0 = l) by (destruct (trailing (c :: p)); [destruct (at_ (disk s) l0) as [[]|]; try discriminate|]; congruence). subst l0. exact (follow_go _ _ _ _ F).
Qed.
Lemma follow_ordinary t (ns : list name) : Forall ordinary ns -> forall dir k, at_ t (rev ns ++ dir) = Some k -> follow t dir ns = Found (rev ns ++ dir).
Proof.
  intros F. induction F as [|n ns (N1 & N2) F IH]; intros dir k A; [reflexivity|]. cbn [rev] in *. rewrite <- app_assoc in *. cbn [app] in *. cbn [follow].
  assert (An : exists k', at_ t (@cons name n dir) = Some k') by (clear IH; destruct ns as [|m ms]; [exists k; exact A|exists KDir; apply (at_above t (rev (m :: ms)) (n :: dir) k A); cbn [rev]; intros X; apply app_eq_nil in X; destruct X; discriminate]). destruct An as (k' & An).
  rewrite (at_up _ _ _ _ An). destruct (bytes_eqb_spec n [dot]); [contradiction|]. destruct (bytes_eqb_spec n [dot; dot]); [contradiction|]. rewrite An. exact (IH _ _ A).
Qed.
Lemma go_ordinary ns : forall st, Forall ordinary ns -> fold_left go ns st = rev ns ++ st.
Proof.
  induction ns as [|n ns IH]; intros st H; [reflexivity|]. inversion H as [|x y (Hn1 & Hn2) Hr]; subst. cbn [fold_left rev]. rewrite IH by exact Hr. unfold go.
  destruct (list_eq_dec Z.eq_dec n [dot]); [contradiction|]. destruct (list_eq_dec Z.eq_dec n [dot; dot]); [contradiction|]. rewrite <- app_assoc. reflexivity.
Qed.
Lemma startDir_dir s p : placed s -> at_ (disk s) (startDir (cwd s) p) = Some KDir.
Proof. intros P. unfold startDir. pose proof (placed_root s P). destruct p as [|c p]; [exact P|]. destruct (posixSep c); [assumption|exact P]. Qed.
Lemma lookup_tidy s q k : placed s -> q <> [] -> tidy false q -> trailing q = false -> at_ (disk s) (there (cwd s) q) = Some k -> named s q (there (cwd s) q).
Proof.
  intros P Nq Ti T A. unfold named, lookup. destruct q as [|c q]; [congruence|]. rewrite T. unfold there in *. pose proof (startDir_dir s (c :: q) P) as Sd. set (d := startDir (cwd s) (c :: q)) in *. clearbody d.
  enough (E : follow (disk s) d (names posixSep (c :: q)) = Found (fold_left go (names posixSep (c :: q)) d)) by (rewrite E; reflexivity).
  unfold tidy in Ti. rewrite posix_names in Ti. destruct Ti as [E|(u & ns & E & F & U)]; rewrite E in *.
  - cbn [follow fold_left]. rewrite Sd. destruct (bytes_eqb_spec [dot] [dot]); [|congruence]. unfold go. destruct (list_eq_dec Z.eq_dec [dot] [dot]); [reflexivity|congruence].
  - destruct U as [->|(-> & _)]; cbn [app] in *.
    + rewrite go_ordinary in * by exact F. apply (follow_ordinary _ ns F _ k A).
    + cbn [follow fold_left] in *. rewrite Sd. destruct (bytes_eqb_spec [dot; dot] [dot]); [discriminate|]. destruct (bytes_eqb_spec [dot; dot] [dot; dot]); [|congruence].
      unfold go at 2. unfold go at 2 in A. destruct (list_eq_dec Z.eq_dec [dot; dot] [dot]); [discriminate|]. destruct (list_eq_dec Z.eq_dec [dot; dot] [dot; dot]); [|congruence].
      rewrite go_ordinary in * by exact F. apply (follow_ordinary _ ns F _ k A).
Qed.
Lemma stays_ordinary ns : Forall ordinary ns -> forall d, stays d ns = true.
Proof. intros F. induction F as [|n ns (N1 & N2) F IH]; intros d; cbn [stays]; [reflexivity|]. destruct (list_eq_dec Z.eq_dec n [dot]); [contradiction|]. destruct (list_eq_dec Z.eq_dec n [dot; dot]); [contradiction|apply IH]. Qed.
Lemma walkable_tidy q : q <> [] -> tidy false q -> walkable q.
Proof.
  intros N T. apply walkable_full. split; [exact N|]. unfold tidy in T. rewrite posix_names in T. destruct T as [->|(u & ns & -> & F & U)].
  - destruct (full false q); reflexivity.
  - destruct U as [->|(-> & ->)]; [cbn [app]; apply stays_ordinary, F|]. cbn [app stays]. destruct (list_eq_dec Z.eq_dec [dot; dot] [dot]); [discriminate|]. destruct (list_eq_dec Z.eq_dec [dot; dot] [dot; dot]); [|congruence]. apply stays_ordinary, F.
Qed.
(** A path to a directory joined with the name of an entry is a path to the entry. *)
Lemma child s p l (n : list Z) k : placed s -> walkable p -> good n -> zlen p < 2 ^ 31 -> zlen n < 2 ^ 31 -> named s p l -> at_ (disk s) (@cons name n l) = Some k ->
  exists q, joinAndNormalize false [p; n] = Some q /\ walkable q /\ zlen q <= zlen p + zlen n + 2 /\ trailing q = false /\ named s q (@cons name n l).
Proof.
  intros P W G Hp Hn Nm A. destruct (join_child p n W G Hp Hn) as (q & Ej & Nq & Le & T & Ti & _ & Th). exists q. split; [exact Ej|]. split; [apply walkable_tidy; assumption|]. split; [exact Le|]. split; [exact T|].
  pose proof (lookup_there s p l Nm) as El. assert (E : there (cwd s) q = @cons name n l) by (rewrite El; apply Th). rewrite <- E in *. eapply lookup_tidy; eassumption.
Qed.

(* ---- listing a directory ---- *)
Lemma assoc_in (es : list (name * tree)) n u : NoDup (map fst es) -> In (n, u) es -> assoc n es = Some u.
Proof.
  induction es as [|(m, v) es IH]; intros N I; [contradiction|]. cbn [assoc]. cbn [map fst] in N. inversion N as [|x y N1 N2]; subst. destruct I as [I|I].
  - injection I as -> ->. destruct (bytes_eqb_spec n n); [reflexivity|congruence].
  - destruct (bytes_eqb_spec m n) as [->|]; [|apply IH; assumption]. exfalso. apply N1. apply in_map_iff. exists (n, u). auto.
Qed.
Lemma get_child t l es n u : get t (rev l) = Some (TDir es) -> NoDup (map fst es) -> In (n, u) es -> get t (rev (n :: l)) = Some u.
Proof. intros G N I. cbn [rev]. rewrite get_app, G. cbn [get]. rewrite (assoc_in _ _ _ N I). reflexivity. Qed.
Lemma reach_in es n u : In (n, u) es -> zlen n + 2 + reach u <= reach (TDir es).
Proof.
  cbn [reach]. induction es as [|e es IH]; intros I; [contradiction|]. cbn [fold_right]. destruct I as [->|I]; [cbn [fst snd]; lia|]. specialize (IH I). lia.
Qed.
Fixpoint tree_ind' (P : tree -> Prop) (HF : forall c, P (TFile c)) (HD : forall es, Forall (fun e => P (snd e)) es -> P (TDir es)) (t : tree) : P t :=
  match t with
  | TFile c => HF c
  | TDir es => HD es ((fix all (es : list (name * tree)) : Forall (fun e => P (snd e)) es := match es with [] => Forall_nil _ | e :: es => Forall_cons _ (tree_ind' P HF HD (snd e)) (all es) end) es)
  end.
Lemma reach_nonneg t : 0 <= reach t.
Proof. destruct t as [c|es]; cbn [reach]; [lia|]. induction es as [|e es IH]; cbn [fold_right]; lia. Qed.

Section Walk.
Context (dbg : bool) (junk : list Z) (s : fsst) (flags : bool).
Hypothesis P : placed s.
Hypothesis Pr : proper (disk s).
Definition sizeOf (e : name * tree) : Z := match snd e with TFile c => if flags then zlen c else 0 | TDir _ => 0 end.
Definition entOf (e : name * tree) : dirent := mkent (fst e) (isTDir (snd e)) (sizeOf e).
Lemma listAll_ok p l es : walkable p -> named s p l -> get (disk s) (rev l) = Some (TDir es) -> zlen p + reach (TDir es) < 2 ^ 31 ->
  forall es', incl es' es -> listAll dbg junk s flags p es' = Ret s (map entOf es').
Proof.
  intros W Nm G Le. destruct (Pr _ _ G) as (Nd & Go). induction es' as [|(n, u) es' IH]; intros I; cbn [listAll]; [reflexivity|].
  assert (In1 : In (n, u) es) by (apply I; left; reflexivity). pose proof (get_child _ _ _ _ _ G Nd In1) as Gc. pose proof (reach_in _ _ _ In1) as R. pose proof (reach_nonneg u) as Ru. pose proof (zlen_nonneg p). pose proof (zlen_nonneg n).
  assert (Gn : good n) by (rewrite Forall_forall in Go; apply Go; apply in_map_iff; exists (n, u); auto).
  assert (E : listOne dbg junk s flags p (n, u) = Ret s (Some (entOf (n, u)))).
  { unfold listOne, entOf, sizeOf. cbn [fst snd]. destruct flags; [|destruct u; reflexivity].
    assert (A : at_ (disk s) (n :: l) = Some (kindOf u)) by (unfold at_; rewrite Gc; reflexivity).
    destruct (child s p l n (kindOf u) P W Gn ltac:(lia) ltac:(lia) Nm A) as (q & Ej & _ & _ & _ & Nq). match goal with |- context[joinAndNormalize false ?c] => replace (joinAndNormalize false c) with (Some q) by (symmetry; exact Ej) end. unfold named in Nq. rewrite Nq, A. destruct u; reflexivity. }
  rewrite E. rewrite IH by (intros x Hx; apply I; right; exact Hx). reflexivity.
Qed.
Lemma visit_ok p l es : walkable p -> named s p l -> get (disk s) (rev l) = Some (TDir es) -> zlen p + reach (TDir es) < 2 ^ 31 ->
  exists t, visit dbg junk s flags p = Some t /\ dirPath t = p /\ reports s flags l es t.
Proof.
  intros W Nm G Le. unfold visit, listDir, entries. unfold named in Nm. rewrite Nm, G. rewrite (listAll_ok p l es W Nm G Le es (incl_refl _)). eexists. split; [reflexivity|]. cbn [dirPath]. split; [reflexivity|].
  unfold reports. cbn [dirPath dirNames files]. split; [exact Nm|]. clear. split.
  - induction es as [|e es IH]; [reflexivity|]. cbn [map filter]. change (isDir (entOf e)) with (isTDir (snd e)). destruct (isTDir (snd e)); cbn [map]; rewrite IH; reflexivity.
  - induction es as [|e es IH]; [reflexivity|]. cbn [map filter]. change (isDir (entOf e)) with (isTDir (snd e)). destruct (isTDir (snd e)); cbn [negb map]; rewrite IH; reflexivity.
Qed.

Context (edit : triple -> list name).
Hypothesis Ed : forall t, incl (edit t) (dirNames t).
Definition resume (fuel : nat) (st : list item) : option (list triple) :=
  match climb dbg junk s flags st with None => None | Some w => rounds dbg junk fuel s flags edit w end.
Lemma omap_app {A} (a b : list A) o : option_map (app a) (option_map (app b) o) = option_map (app (a ++ b)) o.
Proof. destruct o; [|reflexivity]. cbn. rewrite app_assoc. reflexivity. Qed.
Lemma rounds_step k t st : dirPath t <> [] -> rounds dbg junk (S k) s flags edit (mkwalk t st) = option_map (cons t) (resume k (match edit t with [] => st | ns => mkitem (dirPath t) ns 0 :: st end)).
Proof.
  intros N. cbn [rounds cur]. destruct (dirPath t) eqn:E; [congruence|]. rewrite <- E. unfold next, resume. cbn [cur stack dirNames dirPath]. destruct (climb dbg junk s flags _); reflexivity.
Qed.
Lemma tour_ok u : forall l p, get (disk s) (rev l) = Some u -> isTDir u = true -> named s p l -> walkable p -> zlen p + reach u < 2 ^ 31 ->
  exists t ts k, visit dbg junk s flags p = Some t /\ toured s flags edit l ts /\ forall st fuel, rounds dbg junk (k + fuel) s flags edit (mkwalk t st) = option_map (app ts) (resume fuel st).
Proof.
  induction u as [c|es IH] using tree_ind'; intros l p G D Nm W Le; [discriminate|]. destruct (visit_ok p l es W Nm G Le) as (t & Vt & Ep & Re). exists t.
  destruct (Pr _ _ G) as (Nd & Go). pose proof Re as (_ & Dn & _).
  assert (Items : forall ns' ns i, skipn i ns = ns' -> incl ns' (dirNames t) -> exists tss k, Forall2 (fun n ts => toured s flags edit (n :: l) ts) ns' tss /\ forall st fuel, resume (k + fuel) (mkitem p ns i :: st) = option_map (app (concat tss)) (resume fuel st)).
  { induction ns' as [|n ns' IHn]; intros ns i Sk I.
    - exists [], 0%nat. split; [constructor|]. intros st fuel. unfold resume. cbn [Nat.add climb iidx inames]. assert (Hl : (length ns <= i)%nat) by (apply (f_equal (@length name)) in Sk; rewrite skipn_length in Sk; cbn in Sk; lia).
      destruct (Nat.ltb_spec i (length ns)); [lia|]. cbn [concat]. destruct (climb dbg junk s flags st) as [w|]; [|reflexivity]. destruct (rounds dbg junk fuel s flags edit w); reflexivity.
    - assert (Hi : nth i ns [] = n /\ (i < length ns)%nat /\ skipn (S i) ns = ns').
      { clear -Sk. revert i Sk. induction ns as [|m ns IH]; intros i Sk; [destruct i; discriminate|]. destruct i as [|i]; [cbn in Sk; injection Sk as -> ->; cbn; split; [reflexivity|split; [lia|reflexivity]]|].
        destruct (IH i Sk) as (A & B & C). split; [exact A|]. split; [cbn; lia|exact C]. }
      destruct Hi as (Hn & Hl & Sk'). assert (In0 : In n (dirNames t)) by (apply I; left; reflexivity). rewrite Dn in In0. apply in_map_iff in In0. destruct In0 as ((n0 & u) & E0 & In1). cbn [fst] in E0. subst n0. apply filter_In in In1. destruct In1 as (In1 & Du). cbn [snd] in Du.
      pose proof (get_child _ _ _ _ _ G Nd In1) as Gc. pose proof (reach_in _ _ _ In1) as R. pose proof (reach_nonneg u) as Ru. pose proof (zlen_nonneg p). pose proof (zlen_nonneg n).
      assert (Gn : good n) by (rewrite Forall_forall in Go; apply Go; apply in_map_iff; exists (n, u); auto).
      assert (A : at_ (disk s) (n :: l) = Some (kindOf u)) by (unfold at_; rewrite Gc; reflexivity).
      destruct (child s p l n (kindOf u) P W Gn ltac:(lia) ltac:(lia) Nm A) as (q & Ej & Wq & Lq & _ & Nq).
      rewrite Forall_forall in IH. destruct (IH (n, u) In1 (n :: l) q Gc Du Nq Wq ltac:(cbn [snd]; lia)) as (t1 & ts1 & k1 & V1 & T1 & R1).
      destruct (IHn ns (S i) Sk') as (tss & k2 & F2 & R2); [intros x Hx; apply I; right; exact Hx|].
      exists (ts1 :: tss), (k1 + k2)%nat. split; [constructor; assumption|]. intros st fuel. unfold resume at 1. cbn [climb iidx inames ipath]. destruct (Nat.ltb_spec i (length ns)); [|lia].
      rewrite Hn. match goal with |- context[joinAndNormalize false ?c] => replace (joinAndNormalize false c) with (Some q) by (symmetry; exact Ej) end. rewrite V1. rewrite <- Nat.add_assoc, R1, R2. cbn [concat]. apply omap_app. }
  destruct (edit t) as [|n ns] eqn:Ee.
  - exists [t], 1%nat. split; [exact Vt|]. split; [change [t] with (t :: concat []); econstructor; [exact G|exact Re|rewrite Ee; constructor]|]. intros st fuel. cbn [Nat.add]. rewrite rounds_step by (rewrite Ep; apply W). rewrite Ee. reflexivity.
  - pose proof (Ed t) as Et. rewrite Ee in Et. destruct (Items (n :: ns) (n :: ns) 0%nat eq_refl Et) as (tss & k & F & R). exists (t :: concat tss), (S k). split; [exact Vt|]. split; [econstructor; [exact G|exact Re|rewrite Ee; exact F]|].
    intros st fuel. cbn [Nat.add]. rewrite rounds_step by (rewrite Ep; apply W). rewrite Ep, Ee, R. destruct (resume fuel st); reflexivity.
Qed.
Lemma rounds_none fuel : rounds dbg junk fuel s flags edit (mkwalk noTriple []) = Some [].
Proof. destruct fuel; reflexivity. Qed.
Theorem walk_ok top l es : walkable top -> named s top l -> get (disk s) (rev l) = Some (TDir es) -> zlen top + reach (TDir es) < 2 ^ 31 ->
  exists k ts, (forall fuel, (k <= fuel)%nat -> walkAll dbg junk fuel s flags edit top = Some ts) /\ toured s flags edit l ts.
Proof.
  intros W N G Le. destruct (tour_ok (TDir es) l top G eq_refl N W Le) as (t & ts & k & V & T & R). exists k, ts. split; [|exact T]. intros fuel Hf. unfold walkAll. rewrite V. replace fuel with (k + (fuel - k))%nat by lia.
  rewrite R. unfold resume. cbn [climb]. rewrite rounds_none. cbn [option_map]. rewrite app_nil_r. reflexivity.
Qed.
End Walk.

(* ---- every directory, once ---- *)
(** The directories of a tree, parents first, innermost name first. *)
Fixpoint preorder (t : tree) : list (list name) :=
  match t with
  | TFile _ => []
  | TDir es => [] :: flat_map (fun e => map (fun l => l ++ [fst e]) (preorder (snd e))) es
  end.
Lemma proper_sub t l u : proper t -> get t l = Some u -> proper u.
Proof. intros H G l' es G'. apply (H (l ++ l') es). rewrite get_app, G. exact G'. Qed.
Lemma preorder_in u : proper u -> forall x, In x (preorder u) <-> exists es, get u (rev x) = Some (TDir es).
Proof.
  induction u as [c|es IH] using tree_ind'; intros Pu x; cbn [preorder].
  - split; [intros []|]. intros (es & G). destruct (rev x); discriminate G.
  - destruct (Pu [] es eq_refl) as (Nd & _). rewrite Forall_forall in IH. split.
    + intros [<-|I]; [exists es; reflexivity|]. apply in_flat_map in I. destruct I as ((n, v) & I1 & I2). cbn [fst snd] in I2. apply in_map_iff in I2. destruct I2 as (y & <- & I3). rewrite rev_app_distr. cbn [rev app get]. rewrite (assoc_in _ _ _ Nd I1).
      apply (IH (n, v) I1); [|exact I3]. cbn [snd]. apply (proper_sub (TDir es) [n] v Pu). cbn [get]. rewrite (assoc_in _ _ _ Nd I1). reflexivity.
    + intros (es' & G). destruct x as [|m x] using rev_ind; [left; reflexivity|]. clear IHx. right. rewrite rev_app_distr in G. cbn [rev app get] in G. destruct (assoc m es) as [v|] eqn:A; [|discriminate].
      assert (I1 : In (m, v) es) by (clear -A; induction es as [|(k, w) es IH]; cbn [assoc] in A; [discriminate|]; destruct (bytes_eqb_spec k m) as [->|]; [injection A as ->; left; reflexivity|right; apply IH, A]).
      apply in_flat_map. exists (m, v). split; [exact I1|]. cbn [fst snd]. apply in_map_iff. exists x. split; [reflexivity|]. apply (IH (m, v) I1); [|exists es'; exact G]. cbn [snd]. apply (proper_sub (TDir es) [m] v Pu). cbn [get]. rewrite A. reflexivity.
Qed.
Lemma nodup_app {A} (a b : list A) : NoDup a -> NoDup b -> (forall x, In x a -> ~ In x b) -> NoDup (a ++ b).
Proof. induction a as [|x a IH]; intros Na Nb D; [exact Nb|]. inversion Na; subst. cbn [app]. constructor; [|apply IH; auto; intros y Hy; apply D; right; exact Hy]. intros I. apply in_app_or in I. destruct I as [I|I]; [contradiction|]. exact (D x (or_introl eq_refl) I). Qed.
Lemma preorder_nodup u : proper u -> NoDup (preorder u).
Proof.
  induction u as [c|es IH] using tree_ind'; intros Pu; cbn [preorder]; [constructor|]. destruct (Pu [] es eq_refl) as (Nd & _). constructor.
  - intros I. apply in_flat_map in I. destruct I as (e & _ & I). apply in_map_iff in I. destruct I as (y & E & _). destruct y; discriminate.
  - assert (Sub : Forall (fun e => proper (snd e)) es).
    { apply Forall_forall. intros (n, v) I. cbn [snd]. apply (proper_sub (TDir es) [n] v Pu). cbn [get]. rewrite (assoc_in _ _ _ Nd I). reflexivity. }
    clear Pu. induction es as [|(n, v) es IHes]; [constructor|]. cbn [flat_map fst snd]. cbn [map fst] in Nd. inversion Nd as [|x y N1 N2]; subst. inversion IH as [|x y H1 H2]; subst. inversion Sub as [|x y S1 S2]; subst. apply nodup_app.
    + specialize (H1 S1). cbn [snd] in H1. clear -H1. induction H1 as [|x l N H IH]; cbn [map]; constructor; [|exact IH]. intros I. apply in_map_iff in I. destruct I as (y & E & I). apply app_inj_tail in E. destruct E as (-> & _). contradiction.
    + apply IHes; assumption.
    + intros x I1 I2. apply in_map_iff in I1. destruct I1 as (y & <- & _). apply in_flat_map in I2. destruct I2 as ((m, w) & I3 & I4). apply in_map_iff in I4. destruct I4 as (z & E & _). cbn [fst] in E. apply app_inj_tail in E. destruct E as (_ & ->). apply N1. apply in_map_iff. exists (n, w). auto.
Qed.
Fixpoint ordered (pre ls : list (list name)) : Prop :=
  match ls with [] => True | y :: ls => (y = [] \/ In (tl y) pre) /\ ordered (pre ++ [y]) ls end.
Lemma ordered_app a : forall pre b, ordered pre a -> ordered (pre ++ a) b -> ordered pre (a ++ b).
Proof. induction a as [|x a IH]; intros pre b A B; cbn [app]; [rewrite app_nil_r in B; exact B|]. destruct A as (A1 & A2). split; [exact A1|]. apply IH; [exact A2|]. rewrite <- app_assoc. exact B. Qed.
Lemma ordered_more ls : forall pre pre', incl pre pre' -> ordered pre ls -> ordered pre' ls.
Proof.
  induction ls as [|y ls IH]; intros pre pre' I H; [exact H|]. destruct H as (H1 & H2). split; [destruct H1 as [H1|H1]; auto|]. eapply IH; [|exact H2]. apply incl_app; [apply incl_appl, I|apply incl_appr, incl_refl].
Qed.
Lemma ordered_map m ls : forall pre pre', In [] pre' -> (forall x, In x pre -> In (x ++ [m]) pre') -> ordered pre ls -> ordered pre' (map (fun l => l ++ [m]) ls).
Proof.
  induction ls as [|y ls IH]; intros pre pre' I0 I H; [exact Logic.I|]. destruct H as (H1 & H2). cbn [map ordered]. split.
  - right. destruct y as [|a y]; [exact I0|]. cbn [app tl]. destruct H1 as [H1|H1]; [discriminate|]. apply I, H1.
  - apply (IH (pre ++ [y])); [apply in_or_app; auto| |exact H2]. intros x Hx. apply in_app_or in Hx. apply in_or_app. destruct Hx as [Hx|[<-|[]]]; [left; apply I, Hx|right; left; reflexivity].
Qed.
Lemma preorder_ordered u : ordered [] (preorder u).
Proof.
  induction u as [c|es IH] using tree_ind'; cbn [preorder ordered]; [exact I|]. split; [auto|]. assert (G : forall pre, In [] pre -> ordered pre (flat_map (fun e => map (fun l => l ++ [fst e]) (preorder (snd e))) es)).
  { induction IH as [|e es He IH2 IHes]; intros pre Hp; [exact Logic.I|]. cbn [flat_map]. apply ordered_app; [|apply IHes, in_or_app; auto]. apply (ordered_map (fst e) _ []); [exact Hp|intros x []|exact He]. }
  apply G. left. reflexivity.
Qed.
Lemma ordered_split ls : forall pre a y b, ordered pre ls -> ls = a ++ y :: b -> y = [] \/ In (tl y) (pre ++ a).
Proof.
  induction ls as [|z ls IH]; intros pre a y b H E; [destruct a; discriminate|]. destruct H as (H1 & H2). destruct a as [|x a].
  - injection E as -> ->. rewrite app_nil_r. exact H1.
  - injection E as -> E. specialize (IH (pre ++ [x]) a y b H2 E). rewrite <- app_assoc in IH. exact IH.
Qed.
Lemma map_eq_app' {A B} (f : A -> B) l : forall a y b, map f l = a ++ y :: b -> exists a' y' b', l = a' ++ y' :: b' /\ map f a' = a /\ f y' = y.
Proof.
  induction l as [|x l IH]; intros a y b E; [destruct a; discriminate|]. cbn [map] in E. destruct a as [|z a].
  - injection E as <- <-. exists [], x, l. auto.
  - injection E as <- E. destruct (IH a y b E) as (a' & y' & b' & -> & <- & <-). exists (x :: a'), y', b'. auto.
Qed.
Lemma toured_all s flags u : proper (disk s) -> forall l ts, get (disk s) (rev l) = Some u -> isTDir u = true -> toured s flags dirNames l ts -> Forall2 (about s flags) ts (map (fun x => x ++ l) (preorder u)).
Proof.
  intros Pr. induction u as [c|es IH] using tree_ind'; intros l ts G D T; [discriminate|]. inversion T as [l0 es0 t tss G0 Re F E1 E2]; subst. assert (es0 = es) by congruence. subst es0. cbn [preorder map app].
  constructor; [exists es; auto|]. destruct (Pr _ _ G) as (Nd & _). destruct Re as (_ & Dn & _). rewrite Dn in F. clear Dn T t D.
  assert (Hc : forall n v, In (n, v) es -> get (disk s) (rev (n :: l)) = Some v) by (intros n v I; eapply get_child; eassumption). clear G G0 Nd.
  revert tss F. induction es as [|(n, v) es IHes]; intros tss F; cbn [filter map] in F; [inversion F; constructor|]. inversion IH as [|x y H1 H2]; subst. cbn [snd] in H1, F. cbn [flat_map fst snd]. rewrite map_app.
  assert (Hc2 : forall m w, In (m, w) es -> get (disk s) (rev (m :: l)) = Some w) by (intros m w I; apply Hc; right; exact I). destruct v as [c|es1]; cbn [isTDir] in F.
  - cbn [preorder map app]. apply IHes; assumption.
  - cbn [map fst] in F. inversion F as [|x ts1 y tss1 F1 F2]; subst. cbn [concat]. apply Forall2_app; [|apply IHes; assumption].
    specialize (H1 (n :: l) ts1 (Hc n (TDir es1) (or_introl eq_refl)) eq_refl F1). rewrite map_map.
    assert (E : map (fun x => x ++ n :: l) (preorder (TDir es1)) = map (fun x => (x ++ [n]) ++ l) (preorder (TDir es1))) by (apply map_ext; intros x; rewrite <- app_assoc; reflexivity). rewrite <- E. exact H1.
Qed.
Theorem walk_all dbg junk s flags top l es : placed s -> proper (disk s) -> walkable top -> named s top l -> get (disk s) (rev l) = Some (TDir es) -> zlen top + reach (TDir es) < 2 ^ 31 ->
  exists k ts ls, (forall fuel, (k <= fuel)%nat -> walkAll dbg junk fuel s flags dirNames top = Some ts) /\ Forall2 (about s flags) ts ls /\ NoDup ls /\
    (forall l', In l' ls <-> (exists x, l' = x ++ l) /\ at_ (disk s) l' = Some KDir) /\
    (forall a n r b, ls = a ++ (n :: r) :: b -> n :: r = l \/ In r a).
Proof.
  intros P Pr W N G Le. destruct (walk_ok dbg junk s flags P Pr dirNames (fun t => incl_refl _) top l es W N G Le) as (k & ts & R & T). exists k, ts, (map (fun x => x ++ l) (preorder (TDir es))). split; [exact R|].
  split; [apply toured_all; auto|]. pose proof (proper_sub _ _ _ Pr G) as Pu. split; [|split].
  - pose proof (preorder_nodup _ Pu) as Nd. induction Nd as [|x ls Nx Nd IH]; cbn [map]; constructor; [|exact IH]. intros I. apply in_map_iff in I. destruct I as (y & E & I). apply app_inv_tail in E. subst y. contradiction.
  - intros l'. split.
    + intros I. apply in_map_iff in I. destruct I as (x & <- & I). split; [eauto|]. apply (preorder_in _ Pu) in I. destruct I as (es' & Ge). unfold at_. rewrite rev_app_distr, get_app, G, Ge. reflexivity.
    + intros ((x & ->) & A). apply in_map_iff. exists x. split; [reflexivity|]. apply (preorder_in _ Pu). unfold at_ in A. rewrite rev_app_distr, get_app, G in A. destruct (get (TDir es) (rev x)) as [[c|es']|]; try discriminate. eauto.
  - intros a n r b E. destruct (map_eq_app' _ _ _ _ _ E) as (a' & y & b' & E1 & E2 & E3). destruct (ordered_split _ _ _ _ _ (preorder_ordered (TDir es)) E1) as [->|I]; [left; symmetry; exact E3|].
    destruct y as [|m y]; [left; symmetry; exact E3|]. right. cbn [tl app] in *. injection E3 as -> <-. rewrite <- E2. apply in_map_iff. exists y. auto.
Qed.
(** A directory that is not there. *)
Theorem walk_missing dbg junk fuel s flags top : top <> [] -> (exists dir n, lookup (disk s) (cwd s) top = Missing dir n) \/ lookup (disk s) (cwd s) top = NoEnt ->
  walkAll dbg junk (S fuel) s flags dirNames top = Some [mktriple top [] []].
Proof.
  intros N H. assert (V : visit dbg junk s flags top = Some (mktriple top [] [])) by (unfold visit, listDir, entries; destruct H as [(dir & n & ->)| ->]; reflexivity).
  unfold walkAll. rewrite V. cbn [rounds dirPath cur]. destruct top as [|c top]; [congruence|]. unfold next. cbn [dirNames cur stack climb]. destruct fuel; reflexivity.
Qed.
