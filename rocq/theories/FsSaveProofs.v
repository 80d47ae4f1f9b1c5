(* What saving a file does, step by step. *)
From Coq Require Import Lia ZifyBool ZifyNat.
From Verif Require Import Base ListUpd StringViewProofs PathProofs FsModel FsSpec FsProofs.

Lemma mod_len {A} (c : list A) : zlen c < 2 ^ 32 -> firstn (Z.to_nat (zlen c mod 2 ^ 32)) c = c.
Proof. intros H. rewrite Z.mod_small by (split; [apply zlen_nonneg|exact H]). unfold zlen. rewrite Nat2Z.id. apply firstn_all. Qed.
Lemma load_file dbg junk s p c : is_file s p c -> zlen c < 2 ^ 32 -> failing s = None -> loadBinary dbg junk s p = Ret (pop s) (OK, c).
Proof.
  intros (l & N & A) H F. unfold loadBinary. rewrite F. cbn zeta. cbn [pop disk cwd]. unfold named in N. rewrite N, A.
  destruct (2 ^ 32 <=? zlen c) eqn:G; [lia|]. rewrite Bool.andb_false_r. rewrite mod_len by exact H. reflexivity.
Qed.
Theorem save_same dbg junk s p v : is_file s p v -> zlen v < 2 ^ 32 -> failing s = None -> save dbg junk s p v = Ret (pop s) Unchanged.
Proof. intros F H N. unfold save. rewrite (load_file _ _ _ _ _ F H N). destruct (bytes_eqb_spec v v); [reflexivity|contradiction]. Qed.

Lemma split_name p dir seps file : p = dir ++ seps ++ file -> trailing p = false -> p <> [] -> Forall (fun c => posixSep c = true) seps ->
  (dir = [] /\ p = file \/ dir <> [] /\ Forall (fun c => posixSep c = true) dir \/ dir <> [] /\ seps <> [] /\ trailing dir = false) -> file <> [].
Proof.
  intros Ep T Np Fs C ->. rewrite app_nil_r in Ep. destruct seps as [|x xs].
  - rewrite app_nil_r in Ep. destruct C as [(-> & E)|[(N1 & F1)|(N1 & N2 & N3)]]; try congruence.
    rewrite Forall_forall in F1. rewrite Ep, trailing_last in T by exact N1. rewrite F1 in T; [discriminate|]. apply last_in, N1.
  - rewrite Ep, trailing_app, trailing_last in T by discriminate. rewrite Forall_forall in Fs. rewrite Fs in T; [discriminate|]. apply last_in. discriminate.
Qed.
(** The directory of a file that is there is there. *)
Lemma dir_of_file s p c : is_file s p c -> zlen p < 2 ^ 31 -> exists dir file, split false p = Some (dir, file) /\ (dir = [] \/ is_dir s dir).
Proof.
  intros F Hp. pose proof (file_not_trailing _ _ _ F) as T. destruct (posix_split p Hp) as (dir & seps & file & Sp & Ep & Ff & Nm & Fs & C).
  exists dir, file. split; [exact Sp|]. destruct F as (l & N & A). unfold named in N. assert (Np : p <> []) by (intros ->; discriminate N). pose proof (split_name _ _ _ _ Ep T Np Fs C) as Nf.
  destruct dir as [|b dir]; [left; reflexivity|]. right. unfold lookup in N. destruct p as [|b0 p]; [congruence|].
  rewrite T in N. destruct (follow _ _ _) as [l0| | |] eqn:Fo; try discriminate. injection N as ->.
  assert (Sd : startDir (cwd s) (b0 :: p) = startDir (cwd s) (b :: dir)) by (rewrite Ep; reflexivity).
  rewrite Nm, (names_file file Ff Nf), Sd, follow_app in Fo. unfold is_dir, named, lookup.
  assert (G : exists d, follow (disk s) (startDir (cwd s) (b :: dir)) (names posixSep (b :: dir)) = Found d /\ at_ (disk s) d = Some KDir).
  { destruct (names posixSep (b :: dir)) as [|n ns] eqn:En.
    - exists (startDir (cwd s) (b :: dir)). split; [reflexivity|]. cbn [follow] in Fo. destruct (at_ (disk s) (startDir (cwd s) (b :: dir))) as [[]|]; try discriminate. reflexivity.
    - destruct (follow (disk s) (startDir (cwd s) (b :: dir)) (n :: ns)) as [d| | |]; try discriminate. exists d. split; [reflexivity|]. cbn [follow] in Fo. destruct (at_ (disk s) d) as [[]|]; try discriminate. reflexivity. }
  destruct G as (d & -> & Ad). exists d. rewrite Ad. destruct (trailing (b :: dir)); auto.
Qed.
Lemma exists_dir dbg s p : is_dir s p -> exists_ dbg s p = Ret s EDirectory.
Proof. intros (l & N & A). unfold exists_. unfold named in N. rewrite N, A. reflexivity. Qed.
Lemma makeDirs_there dbg s dir : dir = [] \/ is_dir s dir -> makeDirs_ dbg s dir = Ret s OK \/ makeDirs_ dbg s dir = Ret s AlreadyExists.
Proof.
  unfold makeDirs_. cbn [makeDirs]. rewrite drive_nil. destruct (bytes_eqb_spec dir []) as [->|N]; [auto|]. intros [->|D]; [congruence|]. rewrite (exists_dir _ _ _ D). auto.
Qed.
Lemma open_file dbg s p l c : named s p l -> at_ (disk s) l = Some (KFile c) -> failing s = None ->
  openForWrite dbg s p = Ret (change (pop s) (put (disk s) (rev l) (TFile []))) (OK, l).
Proof. intros N A F. unfold openForWrite. rewrite F. cbv zeta. cbn [pop disk cwd]. unfold named in N. rewrite N, A. reflexivity. Qed.

(** Saving over a file is: read, truncate, write. *)
Lemma save_over dbg junk s p l c v : placed s -> zlen p < 2 ^ 31 -> named s p l -> at_ (disk s) l = Some (KFile c) -> zlen c < 2 ^ 32 -> c <> v ->
  failing s = None -> failing (pop s) = None ->
  let s1 := change (pop (pop s)) (put (disk s) (rev l) (TFile [])) in
  save dbg junk s p v = Ret (fst (writeAll (faults s1) s1 l [] v)) OK.
Proof.
  intros P Hp N A Hc Ne F1 F2 s1. assert (F : is_file s p c) by (exists l; auto). unfold save. rewrite (load_file dbg junk s p c F Hc F1).
  destruct (bytes_eqb_spec c v); [contradiction|]. destruct (dir_of_file s p c F Hp) as (dir & file & -> & D).
  assert (D' : dir = [] \/ is_dir (pop s) dir) by (destruct D as [D|D]; [left; exact D|right; exact D]).
  pose proof (open_file dbg (pop s) p l c N A F2) as O.
  destruct (makeDirs_there dbg (pop s) dir D') as [->| ->]; cbv beta iota; rewrite O; reflexivity.
Qed.
Lemma file_split s l c : placed s -> at_ (disk s) l = Some (KFile c) -> exists n d, l = n :: d /\ at_ (disk s) d = Some KDir.
Proof. intros P A. destruct l as [|n d]; [pose proof (placed_root s P); congruence|]. exists n, d. split; [reflexivity|exact (at_up _ _ _ _ A)]. Qed.
Theorem save_crash dbg junk s p l c v : placed s -> zlen p < 2 ^ 31 -> named s p l -> at_ (disk s) l = Some (KFile c) -> zlen c < 2 ^ 32 -> c <> v -> v <> [] -> works s ->
  exists s' t1 t2, save dbg junk s p v = Ret s' OK /\ trace s' = trace s ++ [t1; t2] /\ only (disk s) t1 l [] /\ only (disk s) t2 l v /\ disk s' = t2.
Proof.
  intros P Hp N A Hc Ne Nv W. destruct (works_pop s W) as (W1 & F1). destruct (works_pop (pop s) W1) as (W2 & F2). pose proof (save_over dbg junk s p l c v P Hp N A Hc Ne F1 F2) as E. cbv zeta in E.
  destruct (file_split s l c P A) as (n & d & -> & D). set (s1 := change (pop (pop s)) (put (disk s) (rev (n :: d)) (TFile []))) in *.
  pose proof (put_file (disk s) n d [] D ltac:(congruence)) as O1. assert (A1 : at_ (disk s1) (n :: d) = Some (KFile [])) by (subst s1; cbn [change disk]; rewrite (O1 (n :: d)); destruct list_eq_dec; congruence).
  assert (D1 : at_ (disk s1) d = Some KDir) by exact (at_up _ _ _ _ A1).
  pose proof (put_file (disk s1) n d v D1 ltac:(congruence)) as O2.
  assert (Wr : writeAll (faults s1) s1 (n :: d) [] v = (mkfs (put (disk s1) (rev (n :: d)) (TFile v)) (cwd s1) (tl (faults s1)) (trace s1 ++ [put (disk s1) (rev (n :: d)) (TFile v)]), true)).
  { assert (W3 : faults s1 = [] \/ exists fs, faults s1 = Fine :: fs).
    { change (faults s1) with (faults (pop (pop s))). unfold works in W2. destruct (faults (pop (pop s))) as [|x xs]; [auto|right]. inversion W2; subst. eauto. }
    destruct v as [|b v]; [congruence|]. destruct W3 as [->|(fs & ->)]; reflexivity. }
  rewrite Wr in E. cbn [fst] in E. eexists _, (put (disk s) (rev (n :: d)) (TFile [])), (put (disk s1) (rev (n :: d)) (TFile v)). split; [exact E|]. cbn [trace disk].
  split; [subst s1; cbn [change trace pop disk]; rewrite <- app_assoc; reflexivity|]. split; [exact O1|]. split; [|reflexivity]. eapply only_trans; [exact O1|exact O2].
Qed.
Theorem save_lost dbg junk s p l c v : placed s -> zlen p < 2 ^ 31 -> named s p l -> at_ (disk s) l = Some (KFile c) -> zlen c < 2 ^ 32 -> c <> v -> v <> [] ->
  faults s = [Fine; Fine; Broken] -> exists s', save dbg junk s p v = Ret s' OK /\ only (disk s) (disk s') l [].
Proof.
  intros P Hp N A Hc Ne Nv W. assert (F1 : failing s = None) by (unfold failing; rewrite W; reflexivity). assert (F2 : failing (pop s) = None) by (unfold failing; cbn [pop faults]; rewrite W; reflexivity).
  pose proof (save_over dbg junk s p l c v P Hp N A Hc Ne F1 F2) as E. cbv zeta in E. destruct (file_split s l c P A) as (n & d & -> & D).
  cbn [change pop faults] in E. rewrite W in E. cbn [tl] in E. destruct v as [|b v]; [congruence|]. cbn [writeAll fst] in E. eexists. split; [exact E|]. cbn [disk]. apply put_file; [exact D|congruence].
Qed.
Theorem save_big dbg junk s p c v : is_file s p (v ++ c) -> zlen c = 2 ^ 32 -> zlen v < 2 ^ 32 -> failing s = None -> dbg = false -> save dbg junk s p v = Ret (pop s) Unchanged.
Proof.
  intros (l & N & A) Hc Hv F ->. unfold save, loadBinary. rewrite F. cbv zeta. cbn [pop disk cwd]. unfold named in N. rewrite N, A. cbn [andb].
  replace (firstn (Z.to_nat (zlen (v ++ c) mod 2 ^ 32)) (v ++ c)) with v; [destruct (bytes_eqb_spec v v); [reflexivity|contradiction]|].
  rewrite zlen_app, Hc. replace (zlen v + 2 ^ 32) with (zlen v + 1 * 2 ^ 32) by ring. rewrite Z.mod_add by lia. rewrite Z.mod_small by (split; [apply zlen_nonneg|exact Hv]). unfold zlen. rewrite Nat2Z.id.
  rewrite firstn_app, Nat.sub_diag, firstn_all, firstn_O, app_nil_r. reflexivity.
Qed.

Lemma last_app' {A} (a : list A) x d : last (a ++ [x]) d = x.
Proof. induction a as [|y a IH]; [reflexivity|]. destruct a; [reflexivity|]. exact IH. Qed.
Lemma names_leads q p : leads q p -> exists ns, names posixSep p = names posixSep q ++ ns.
Proof. intros (r & -> & [->|(r' & ->)]); [exists []; rewrite !app_nil_r; reflexivity|]. eexists. apply names_cut'. reflexivity. Qed.
Lemma lookup_file s s' p dir seps file : placed s -> placed s' -> grew s s' dir -> downward p -> trailing p = false ->
  p = dir ++ seps ++ file -> Forall (fun c => posixSep c = false) file -> file <> [] -> names posixSep p = names posixSep dir ++ names posixSep file ->
  (dir = [] /\ p = file \/ is_dir s' dir) -> file <> [dot] -> ~ is_dir s p ->
  match lookup (disk s') (cwd s') p with Found l => exists c, at_ (disk s') l = Some (KFile c) | Missing _ _ => True | _ => False end.
Proof.
  intros P P' (C & K & U) Dw T Ep Ff Nf Nm D N1 Nd. assert (N2 : file <> [dot; dot]) by (intros ->; apply Dw; rewrite Nm; apply in_or_app; right; left; reflexivity).
  pose proof (lookup_in_dir s' p dir seps file P' Ep Ff Nf Nm D N2) as L. destruct (lookup (disk s') (cwd s') p) as [l| | |] eqn:E; try exact L.
  destruct (at_ (disk s') l) as [[c|]|] eqn:A; [eauto| |destruct (lookup_at s' p l P' E A)]. exfalso. rewrite C in E.
  assert (Np : p <> []) by (intros ->; discriminate E).
  assert (Fo : follow (disk s') (startDir (cwd s) p) (names posixSep p) = Found l).
  { unfold lookup in E. destruct p; [congruence|]. rewrite T in E. destruct (follow _ _ _); try discriminate. congruence. }
  destruct (at_ (disk s) l) as [k|] eqn:A0.
  - pose proof (K _ _ A0) as A1. assert (k = KDir) by congruence. subst k. apply Nd. exists l. split; [|exact A0]. unfold named, lookup. destruct p; [congruence|].
    rewrite (follow_back _ _ _ K Dw _ _ Fo) by congruence. rewrite T. reflexivity.
  - destruct (U l A0 ltac:(congruence)) as (_ & q & Le & Nq). unfold named in Nq. rewrite C in Nq. rewrite Nm, (names_file file Ff Nf) in Fo.
    assert (Fl : exists d, follow (disk s') (startDir (cwd s) p) (names posixSep dir) = Found d /\ l = @cons name file d).
    { assert (Sg : forall d, follow (disk s') d [file] = Found l -> l = @cons name file d).
      { intros d. cbn [follow]. destruct (at_ (disk s') d) as [[]|]; try discriminate. destruct (bytes_eqb_spec file [dot]); [contradiction|]. destruct (bytes_eqb_spec file [dot; dot]); [contradiction|]. destruct (at_ (disk s') (@cons name file d)); [congruence|discriminate]. }
      rewrite follow_app in Fo. destruct (names posixSep dir) as [|n ns]; [exists (startDir (cwd s) p); split; [reflexivity|apply Sg, Fo]|]. destruct (follow (disk s') (startDir (cwd s) p) (n :: ns)) as [d| | |]; try discriminate. exists d. split; [reflexivity|apply Sg, Fo]. }
    destruct Fl as (d & Fd & ->). destruct q as [|z q]; [discriminate|]. destruct (names_leads _ _ Le) as (ns & En).
    assert (Fq : follow (disk s') (startDir (cwd s) p) (names posixSep (z :: q)) = Found (@cons name file d)).
    { clear Fo. unfold lookup in Nq. destruct Le as (r & Ed & _). replace (startDir (cwd s) p) with (startDir (cwd s) (z :: q)) by (rewrite Ep, Ed; reflexivity). destruct (follow _ _ _) as [l0| | |]; try discriminate.
      destruct (trailing (z :: q)); [destruct (at_ (disk s') l0) as [[]|]; try discriminate|]; congruence. }
    assert (Dn : ~ In [dot; dot] ns) by (intros H; apply Dw; rewrite Nm, En; apply in_or_app; left; apply in_or_app; right; exact H).
    rewrite En, follow_app in Fd.
    assert (X : exists x, d = x ++ @cons name file d).
    { destruct (names posixSep (z :: q)) as [|n qs]; [cbn [follow] in Fq; replace (startDir (cwd s) p) with (@cons name file d) in Fd by congruence; exact (follow_below _ _ Dn _ _ Fd)|].
      destruct ns as [|m ns]; [exists []; cbn; congruence|]. rewrite Fq in Fd. exact (follow_below _ _ Dn _ _ Fd). }
    destruct X as (x & Ex). apply (f_equal (@length name)) in Ex. rewrite app_length in Ex. cbn [length] in Ex. lia.
Qed.
Theorem save_succeeds dbg junk s p v : placed s -> works s -> zlen p < 2 ^ 31 -> p <> [] -> downward p -> trailing p = false -> last (names posixSep p) [] <> [dot] ->
  (forall q r c, p = q ++ slash :: r -> ~ is_file s q c) -> ~ is_dir s p -> (forall c, is_file s p c -> zlen c < 2 ^ 32) ->
  exists s' r, save dbg junk s p v = Ret s' r /\ (r = OK \/ r = Unchanged).
Proof.
  intros P W Hp Np Dw T Nd U Ndir Sm. destruct (posix_split p Hp) as (dir & seps & file & Sp & Ep & Ff & Nm & Fs & C). pose proof (split_name _ _ _ _ Ep T Np Fs C) as Nf.
  destruct (works_pop s W) as (W1 & F1). pose proof (names_file file Ff Nf) as Nmf.
  assert (Nn : lookup (disk s) (cwd s) p <> NotDir).
  { intros L. destruct (notdir_file s p P L) as (q & r & c & E & R & F). destruct R as [->|(r' & ->)]; [|exact (U q r' c E F)]. rewrite app_nil_r in E. subst q. destruct F as (l & N & _). unfold named in N. congruence. }
  assert (Nfd : file <> [dot]) by (rewrite Nm, Nmf, last_app' in Nd; exact Nd).
  assert (Hd : zlen dir < 2 ^ 31) by (rewrite Ep in Hp; rewrite zlen_app in Hp; pose proof (zlen_nonneg (seps ++ file)); lia).
  assert (Dd : downward dir) by (intros X; apply Dw; rewrite Nm; apply in_or_app; auto).
  assert (Rest : exists s' r, match split false p with
      | None => Dead
      | Some (first, _) =>
        match makeDirs_ dbg (pop s) first with
        | Dead => Dead
        | Ret s OK | Ret s AlreadyExists => match openForWrite dbg s p with Dead => Dead | Ret s (OK, l) => Ret (fst (writeAll (faults s) s l [] v)) OK | Ret s (r, _) => Ret s r end
        | Ret s r => Ret s r
        end
      end = Ret s' r /\ (r = OK \/ r = Unchanged)).
  { rewrite Sp. destruct (makeDirs_succeeds dbg (S (length dir)) (pop s) dir P W1 Hd ltac:(lia) Dd) as (s2 & r2 & M & R2).
    - destruct C as [(-> & _)|[(_ & F)|(_ & _ & F)]]; [left; reflexivity|right; exact F|left; exact F].
    - intros q c Le Fq. destruct C as [(-> & E)|[(_ & F)|(_ & Ns & _)]].
      + destruct Le as (r & E0 & _). symmetry in E0. apply app_eq_nil in E0. destruct E0 as (-> & _). destruct Fq as (l & N & _). discriminate N.
      + destruct Fq as (l & Nl & Al). unfold named in Nl. destruct Le as (r0 & -> & _). apply Forall_app in F. destruct F as (F & _). destruct q as [|z q]; [discriminate|]. cbn [pop disk cwd] in Nl, Al. rewrite (lookup_slashes _ _ _ F ltac:(discriminate) (placed_root s P)) in Nl. injection Nl as <-. pose proof (placed_root s P). congruence.
      + destruct (leads_trans q dir p Le) as (r & E & R); [rewrite Ep; apply leads_dir; assumption|]. destruct R as [->|(r' & ->)]; [|exact (U q r' c E Fq)]. rewrite app_nil_r in E. subst q.
        destruct Le as (r & E & _). apply (f_equal (@length Z)) in E. rewrite app_length in E. rewrite Ep, !app_length in E. destruct file; [congruence|]. cbn [length] in E. lia.
    - fold (makeDirs_ dbg (pop s) dir) in M. rewrite M. destruct (makeDirs_ok dbg _ (pop s) dir s2 r2 P Hd M) as (G & O & A). pose proof (grew_placed _ _ _ G P) as P2.
      assert (W2 : works s2) by (eapply makeDirs_works; eassumption).
      assert (D2 : dir = [] /\ p = file \/ is_dir s2 dir).
      { destruct R2 as [->| ->]; [|right; apply A; [reflexivity|exact Dd]]. destruct (O eq_refl) as [->|I]; [left; split; [reflexivity|]|right; exact I]. destruct C as [(_ & E)|[(E & _)|(E & _)]]; congruence. }
      pose proof (lookup_file (pop s) s2 p dir seps file P P2 G Dw T Ep Ff Nf Nm D2 Nfd Ndir) as L.
      assert (Op : exists s3 l, openForWrite dbg s2 p = Ret s3 (OK, l)).
      { destruct (works_pop s2 W2) as (_ & F2). unfold openForWrite. rewrite F2. cbv zeta. cbn [pop disk cwd]. destruct (lookup (disk s2) (cwd s2) p) as [l|d n| |]; try contradiction; [destruct L as (c & ->)|rewrite T]; eauto. }
      destruct Op as (s3 & l & Op). destruct R2 as [->| ->]; cbv beta iota; rewrite Op; eauto. }
  unfold save. unfold loadBinary. rewrite F1. cbv zeta. cbn [pop disk cwd]. destruct (lookup (disk s) (cwd s) p) as [l|d n| |] eqn:L; [|exact Rest|exact Rest|congruence].
  destruct (at_ (disk s) l) as [[c|]|] eqn:A.
  - pose proof (Sm c ltac:(exists l; auto)) as Hc. destruct (2 ^ 32 <=? zlen c) eqn:G; [lia|]. rewrite Bool.andb_false_r. destruct (bytes_eqb _ v); [eauto|exact Rest].
  - destruct Ndir. exists l. auto.
  - destruct (lookup_at s p l P L A).
Qed.

(** The leading parts of a directory's path are directories. *)
Lemma dir_leads s q p : is_dir s p -> leads q p -> q <> [] -> is_dir s q.
Proof.
  intros (l & N & A) Le Nq. destruct (names_leads _ _ Le) as (ns & En). destruct Le as (r & E & R). unfold named, lookup in N. destruct p as [|b p]; [discriminate|]. destruct q as [|z q]; [congruence|].
  assert (Sd : startDir (cwd s) (b :: p) = startDir (cwd s) (z :: q)) by (rewrite E; reflexivity). rewrite Sd in N.
  assert (Fo : follow (disk s) (startDir (cwd s) (z :: q)) (names posixSep (b :: p)) = Found l) by (destruct (follow _ _ _) as [l0| | |]; try discriminate; destruct (trailing (b :: p)); [destruct (at_ (disk s) l0) as [[]|]; try discriminate|]; congruence).
  clear N. rewrite En, follow_app in Fo.
  assert (G : exists d, follow (disk s) (startDir (cwd s) (z :: q)) (names posixSep (z :: q)) = Found d /\ at_ (disk s) d = Some KDir).
  { assert (Dr : forall d ms, follow (disk s) d ms = Found l -> at_ (disk s) d = Some KDir).
    { intros d [|m ms]; cbn [follow]; [congruence|]. destruct (at_ (disk s) d) as [[]|]; try discriminate. reflexivity. }
    destruct (names posixSep (z :: q)) as [|n qs]; [exists (startDir (cwd s) (z :: q)); split; [reflexivity|exact (Dr _ _ Fo)]|]. destruct ns as [|m ns]; [exists l; auto|].
    destruct (follow (disk s) (startDir (cwd s) (z :: q)) (n :: qs)) as [d| | |]; try discriminate. exists d. split; [reflexivity|exact (Dr _ _ Fo)]. }
  destruct G as (d & Fd & Ad). exists d. split; [|exact Ad]. unfold named, lookup. rewrite Fd, Ad. destruct (trailing (z :: q)); reflexivity.
Qed.
Theorem makeDirs_all dbg s p s' r : placed s -> zlen p < 2 ^ 31 -> makeDirs_ dbg s p = Ret s' r ->
  (r = OK \/ r = AlreadyExists /\ downward p -> forall q, leads q p -> q <> [] -> is_dir s' q) /\
  (forall l k, at_ (disk s) l = Some k -> at_ (disk s') l = Some k) /\
  (forall l, at_ (disk s) l = None -> at_ (disk s') l <> None -> at_ (disk s') l = Some KDir /\ exists q, leads q p /\ named s' q l) /\ cwd s' = cwd s.
Proof.
  intros P H M. destruct (makeDirs_ok dbg _ _ _ _ _ P H M) as ((C & K & U) & O & A). split; [|split; [exact K|split; [exact U|exact C]]].
  intros Hr q Le Nq. destruct Hr as [->|(-> & Dw)].
  - destruct (O eq_refl) as [->|I]; [|exact (dir_leads _ _ _ I Le Nq)]. destruct Le as (r & E & _). destruct q; [congruence|discriminate].
  - exact (dir_leads _ _ _ (A eq_refl Dw) Le Nq).
Qed.
Theorem makeDirs_notdir s p : p <> [] -> lookup (disk s) (cwd s) p = NotDir -> makeDirs_ true s p = Dead.
Proof. intros N L. unfold makeDirs_. cbn [makeDirs]. rewrite drive_nil. destruct (bytes_eqb_spec p []); [contradiction|]. unfold exists_. rewrite L. reflexivity. Qed.
Theorem save_unchanged dbg junk s p v s' r : placed s -> zlen p < 2 ^ 31 -> failing s = None -> ~ is_dir s p -> (forall c, is_file s p c -> zlen c < 2 ^ 32) ->
  save dbg junk s p v = Ret s' r -> (r = Unchanged <-> is_file s p v).
Proof.
  intros P Hp F Nd Sm S. split.
  - intros E. destruct (save_ok dbg junk s p v s' r P Hp S) as (_ & U & _). destruct (U E) as (_ & _ & [(c & Fc & ->)|(D & _)]); [|contradiction]. rewrite mod_len by (apply Sm, Fc). exact Fc.
  - intros Fv. rewrite (save_same dbg junk s p v Fv (Sm v Fv) F) in S. congruence.
Qed.
