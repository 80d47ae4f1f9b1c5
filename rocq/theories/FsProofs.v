(* Proofs about FsModel: trees, paths, makeDirs and saving (C41, C42). *)
From Coq Require Import Lia ZifyBool ZifyNat.
From Verif Require Import StringViewProofs PathProofs FsModel FsSpec.

(* ---- trees ---- *)
Lemma assoc_set n m u es : assoc n (setEntry m u es) = if bytes_eqb m n then Some u else assoc n es.
Proof.
  induction es as [|[x t] es IH]; cbn [setEntry assoc]; [reflexivity|]. destruct (bytes_eqb_spec x m) as [->|Nx]; cbn [assoc].
  - destruct (bytes_eqb m n); reflexivity.
  - rewrite IH. destruct (bytes_eqb_spec x n) as [->|Nn]; [|reflexivity]. destruct (bytes_eqb_spec m n); [congruence|reflexivity].
Qed.
Lemma get_app a : forall t b, get t (a ++ b) = match get t a with Some u => get u b | None => None end.
Proof.
  induction a as [|n a IH]; intros t b; cbn [app get]; [reflexivity|]. destruct t as [c|es]; [reflexivity|]. destruct (assoc n es); [apply IH|reflexivity].
Qed.
Definition leaf (t : tree) : Prop := match t with TFile _ => True | TDir es => es = [] end.
Lemma get_leaf t q : leaf t -> q <> [] -> get t q = None.
Proof. destruct t as [c|es]; cbn; intros L N; destruct q as [|n q]; try congruence; cbn; [reflexivity|]. subst es. reflexivity. Qed.
Lemma get_put l : forall t n u es q, get t l = Some (TDir es) -> leaf u -> (match assoc n es with Some v => leaf v | None => True end) ->
  option_map kindOf (get (put t (l ++ [n]) u) q) = if list_eq_dec (list_eq_dec Z.eq_dec) q (l ++ [n]) then Some (kindOf u) else option_map kindOf (get t q).
Proof.
  induction l as [|m l IH]; intros t n u es q G Lu Lv; cbn [app put get] in *.
  - injection G as ->. replace (match assoc n es with Some v => u | None => u end) with u by (destruct (assoc n es); reflexivity).
    destruct q as [|x q]; cbn [get]; [destruct list_eq_dec; [discriminate|reflexivity]|]. rewrite assoc_set. destruct (bytes_eqb_spec n x) as [->|Nx].
    + destruct q as [|y q]; [destruct list_eq_dec; [reflexivity|congruence]|]. destruct list_eq_dec as [E|_]; [discriminate E|]. rewrite get_leaf by (try assumption; discriminate). destruct (assoc x es); [rewrite get_leaf by (try assumption; discriminate)|]; reflexivity.
    + destruct list_eq_dec as [E|_]; [congruence|reflexivity].
  - destruct t as [c|es0]; [discriminate|]. destruct (assoc m es0) as [v|] eqn:Am; [|discriminate].
    destruct q as [|x q]; cbn [get]; [destruct list_eq_dec; [discriminate|reflexivity]|]. rewrite assoc_set. destruct (bytes_eqb_spec m x) as [<-|Nx].
    + rewrite (IH v n u es q G Lu Lv), Am. destruct (list_eq_dec (list_eq_dec Z.eq_dec) q (l ++ [n])) as [->|N]; destruct list_eq_dec as [E|E]; try reflexivity; congruence.
    + destruct list_eq_dec as [E|_]; [congruence|reflexivity].
Qed.

Lemma rev_eq {A} (a b : list A) : rev a = rev b -> a = b.
Proof. intros H. rewrite <- (rev_involutive a), <- (rev_involutive b), H. reflexivity. Qed.
(** Locations: what is above something is a directory. *)
Lemma at_up t n l k : at_ t (n :: l) = Some k -> at_ t l = Some KDir.
Proof.
  unfold at_. cbn [rev]. rewrite get_app. destruct (get t (rev l)) as [u|]; [|discriminate]. destruct u as [c|es]; [discriminate|]. intros _. reflexivity.
Qed.
Lemma at_above t x l k : at_ t (x ++ l) = Some k -> x <> [] -> at_ t l = Some KDir.
Proof. revert k. induction x as [|n x IH]; intros k H N; [congruence|]. apply at_up in H. destruct x as [|m x]; [exact H|]. apply (IH KDir H). discriminate. Qed.
Lemma at_root t l k : at_ t l = Some k -> l <> [] -> at_ t [] = Some KDir.
Proof. intros H N. rewrite <- (app_nil_r l) in H. exact (at_above t l [] k H N). Qed.
Lemma at_put t n dir u q : at_ t dir = Some KDir -> at_ t (n :: dir) <> Some KDir -> leaf u ->
  at_ (put t (rev (n :: dir)) u) q = if list_eq_dec (list_eq_dec Z.eq_dec) q (n :: dir) then Some (kindOf u) else at_ t q.
Proof.
  unfold at_. cbn [rev]. intros D N L. destruct (get t (rev dir)) as [[c|es]|] eqn:G; try discriminate.
  rewrite (get_put (rev dir) t n u es (rev q) G L).
  - destruct (list_eq_dec (list_eq_dec Z.eq_dec) (rev q) (rev dir ++ [n])) as [E|E]; destruct (list_eq_dec (list_eq_dec Z.eq_dec) q (n :: dir)) as [E'|E']; try reflexivity.
    + destruct E'. apply rev_eq. exact E.
    + destruct E. rewrite E'. reflexivity.
  - rewrite get_app, G in N. cbn [get] in N. destruct (assoc n es) as [[c|es']|]; [exact I|destruct N; reflexivity|exact I].
Qed.

(* ---- following names ---- *)
Definition keeps (t t' : tree) : Prop := forall l k, at_ t l = Some k -> at_ t' l = Some k.
Lemma keeps_refl t : keeps t t. Proof. intros l k H. exact H. Qed.
Lemma keeps_trans a b c : keeps a b -> keeps b c -> keeps a c. Proof. intros H1 H2 l k H. apply H2, H1, H. Qed.
Lemma follow_app t a : forall dir b, follow t dir (a ++ b) = match a, b with [], _ => follow t dir b | _, [] => follow t dir a | _, _ => match follow t dir a with Found l => follow t l b | Missing _ _ => NoEnt | r => r end end.
Proof.
  induction a as [|n a IH]; intros dir b; [reflexivity|]. destruct b as [|m b]; [rewrite app_nil_r; reflexivity|]. cbn [app follow].
  assert (IH' : forall d, follow t d (a ++ m :: b) = match follow t d a with Found l => follow t l (m :: b) | Missing _ _ => NoEnt | r => r end).
  { intros d. rewrite IH. destruct a; [reflexivity|reflexivity]. }
  destruct (at_ t dir) as [[c|]|]; try reflexivity. destruct (bytes_eqb n [dot]); [apply IH'|]. destruct (bytes_eqb n [dot; dot]); [apply IH'|].
  destruct (at_ t (n :: dir)); [apply IH'|]. destruct a; reflexivity.
Qed.
Lemma follow_mono t t' ns : keeps t t' -> forall dir l, follow t dir ns = Found l -> follow t' dir ns = Found l.
Proof.
  intros K. induction ns as [|n ns IH]; intros dir l; cbn [follow]; [auto|]. destruct (at_ t dir) as [[c|]|] eqn:A; try discriminate. rewrite (K _ _ A).
  destruct (bytes_eqb n [dot]); [apply IH|]. destruct (bytes_eqb n [dot; dot]); [apply IH|]. destruct (at_ t (n :: dir)) as [k|] eqn:B; [|destruct ns; discriminate]. rewrite (K _ _ B). apply IH.
Qed.
Lemma follow_missing t t' ns : keeps t t' -> forall dir d n, follow t dir ns = Missing d n -> at_ t' (n :: d) <> None -> follow t' dir ns = Found (n :: d).
Proof.
  intros K. induction ns as [|m ns IH]; intros dir d n; cbn [follow]; [discriminate|]. destruct (at_ t dir) as [[c|]|] eqn:A; try discriminate. rewrite (K _ _ A).
  destruct (bytes_eqb m [dot]); [apply IH|]. destruct (bytes_eqb m [dot; dot]); [apply IH|]. destruct (at_ t (m :: dir)) as [k|] eqn:B; [rewrite (K _ _ B); apply IH|].
  destruct ns; [|discriminate]. intros H N. injection H as <- <-. destruct (at_ t' (m :: dir)); [reflexivity|congruence].
Qed.
Lemma follow_missing_at t ns : forall dir d n, follow t dir ns = Missing d n -> at_ t d = Some KDir /\ at_ t (n :: d) = None.
Proof.
  induction ns as [|m ns IH]; intros dir d n; cbn [follow]; [discriminate|]. destruct (at_ t dir) as [[c|]|] eqn:A; try discriminate.
  destruct (bytes_eqb m [dot]); [apply IH|]. destruct (bytes_eqb m [dot; dot]); [apply IH|]. destruct (at_ t (m :: dir)) as [k|] eqn:B; [apply IH|].
  destruct ns; [|discriminate]. intros H. injection H as <- <-. auto.
Qed.
Lemma at_tl t d : at_ t d = Some KDir -> at_ t (tl d) = Some KDir.
Proof. destruct d; [auto|]. intros H. cbn. exact (at_up _ _ _ _ H). Qed.
Lemma follow_found_at t ns : forall dir l, at_ t dir <> None -> follow t dir ns = Found l -> at_ t l <> None.
Proof.
  induction ns as [|m ns IH]; intros dir l N; cbn [follow]; [intros H; injection H as <-; exact N|]. destruct (at_ t dir) as [[c|]|] eqn:A; try discriminate.
  destruct (bytes_eqb m [dot]); [apply IH; congruence|]. destruct (bytes_eqb m [dot; dot]); [apply IH; rewrite (at_tl _ _ A); discriminate|]. destruct (at_ t (m :: dir)) as [k|] eqn:B; [apply IH; congruence|destruct ns; discriminate].
Qed.
Lemma follow_noent t ns : forall dir, at_ t dir <> None -> follow t dir ns = NoEnt -> exists a n b d, ns = a ++ n :: b /\ b <> [] /\ follow t dir (a ++ [n]) = Missing d n.
Proof.
  induction ns as [|m ns IH]; intros dir N; cbn [follow]; [discriminate|]. destruct (at_ t dir) as [[c|]|] eqn:A; try discriminate; [|congruence].
  assert (Step : forall d', at_ t d' <> None -> follow t d' ns = NoEnt -> (forall x, x <> [] -> follow t dir (m :: x) = follow t d' x) -> exists a n b d, m :: ns = a ++ n :: b /\ b <> [] /\ follow t dir (a ++ [n]) = Missing d n).
  { intros d' N' H E. destruct (IH d' N' H) as (a & n & b & d & -> & Hb & F). exists (m :: a), n, b, d. split; [reflexivity|]. split; [exact Hb|]. cbn [app]. rewrite E by (destruct a; discriminate). exact F. }
  destruct (bytes_eqb m [dot]) eqn:E1; [intros H; apply (Step dir); [congruence|exact H|intros x _; cbn [follow]; rewrite A, E1; reflexivity]|].
  destruct (bytes_eqb m [dot; dot]) eqn:E2; [intros H; apply (Step (tl dir)); [rewrite (at_tl _ _ A); discriminate|exact H|intros x _; cbn [follow]; rewrite A, E1, E2; reflexivity]|].
  destruct (at_ t (m :: dir)) as [k|] eqn:B; [intros H; apply (Step (m :: dir)); [congruence|exact H|intros x _; cbn [follow]; rewrite A, E1, E2, B; reflexivity]|].
  destruct ns as [|n ns]; [discriminate|]. intros _. exists [], m, (n :: ns), dir. split; [reflexivity|]. split; [discriminate|]. cbn [app follow]. rewrite A, E1, E2, B. reflexivity.
Qed.
(** Without "..", a path to something that was there already was a path to it before. *)
Lemma follow_below t (ns : list name) : ~ In [dot; dot] ns -> forall dir l, follow t dir ns = Found l -> exists x, l = x ++ dir.
Proof.
  induction ns as [|m ns IH]; intros N dir l; cbn [follow]; [intros H; injection H as <-; exists []; reflexivity|].
  assert (N' : ~ In [dot; dot] ns) by (intros H; apply N; right; exact H). destruct (at_ t dir) as [[c|]|]; try discriminate.
  destruct (bytes_eqb m [dot]); [apply IH, N'|]. destruct (bytes_eqb_spec m [dot; dot]) as [->|_]; [destruct N; left; reflexivity|]. destruct (at_ t (m :: dir)); [|destruct ns; intros H; discriminate H].
  intros H. destruct (IH N' _ _ H) as (x & ->). exists (x ++ [m]). rewrite <- app_assoc. reflexivity.
Qed.
Lemma follow_back t t' (ns : list name) : keeps t t' -> ~ In [dot; dot] ns -> forall dir l, follow t' dir ns = Found l -> at_ t l <> None -> follow t dir ns = Found l.
Proof.
  intros K. induction ns as [|m ns IH]; intros N dir l; [cbn [follow]; auto|]. intros H A. pose proof H as H0.
  assert (N' : ~ In [dot; dot] ns) by (intros X; apply N; right; exact X). cbn [follow] in H |- *. destruct (at_ t' dir) as [[c|]|] eqn:D'; try discriminate.
  assert (D : at_ t dir = Some KDir).
  { destruct (follow_below t' (m :: ns) N dir l H0) as (x & ->). destruct x as [|y x].
    - cbn [app] in A. destruct (at_ t dir) as [k|] eqn:E; [|congruence]. rewrite (K _ _ E) in D'. congruence.
    - destruct (at_ t ((y :: x) ++ dir)) as [k|] eqn:E; [|congruence]. apply (at_above _ _ _ _ E). discriminate. }
  rewrite D. destruct (bytes_eqb m [dot]); [apply IH; assumption|]. destruct (bytes_eqb_spec m [dot; dot]) as [->|_]; [destruct N; left; reflexivity|].
  destruct (at_ t' (m :: dir)) as [k|] eqn:B'; [|destruct ns; discriminate].
  assert (B : at_ t (m :: dir) <> None).
  { destruct (follow_below t' ns N' _ l H) as (x & ->). destruct x as [|y x]; [exact A|]. destruct (at_ t ((y :: x) ++ m :: dir)) as [k'|] eqn:E; [|congruence]. rewrite (at_above _ _ _ _ E) by discriminate. discriminate. }
  destruct (at_ t (m :: dir)); [|congruence]. apply IH; assumption.
Qed.

(* ---- lookups ---- *)
Lemma startDir_at s p : placed s -> at_ (disk s) (startDir (cwd s) p) <> None.
Proof.
  unfold placed, startDir. intros P. assert (R : at_ (disk s) [] = Some KDir) by (destruct (cwd s) as [|n d] eqn:E; [exact P|apply (at_root _ _ _ P); discriminate]).
  destruct p as [|c p]; [congruence|]. destruct (posixSep c); congruence.
Qed.
Lemma lookup_mono t t' cw p l : keeps t t' -> lookup t cw p = Found l -> at_ t l <> None -> lookup t' cw p = Found l.
Proof.
  intros K. unfold lookup. destruct p as [|c p]; [discriminate|]. destruct (follow t _ _) as [l0| | |] eqn:F; try discriminate. rewrite (follow_mono _ _ _ K _ _ F).
  destruct (trailing (c :: p)); [|auto]. destruct (at_ t l0) as [[x|]|] eqn:A; try discriminate. rewrite (K _ _ A). auto.
Qed.
Lemma lookup_at s p l : placed s -> lookup (disk s) (cwd s) p = Found l -> at_ (disk s) l <> None.
Proof.
  intros P. unfold lookup. destruct p as [|c p]; [discriminate|]. pose proof (startDir_at s (c :: p) P) as S. set (d0 := startDir (cwd s) (c :: p)) in *. clearbody d0.
  destruct (follow _ d0 _) as [l0| | |] eqn:F; try discriminate. pose proof (follow_found_at _ _ _ _ S F) as A.
  destruct (trailing (c :: p)); [|intros H; injection H as <-; exact A]. destruct (at_ (disk s) l0) as [[x|]|] eqn:A0; try discriminate. intros H. injection H as <-. congruence.
Qed.
Lemma lookup_missing t cw p d n : lookup t cw p = Missing d n -> at_ t d = Some KDir /\ at_ t (n :: d) = None.
Proof.
  unfold lookup. destruct p as [|c p]; [discriminate|]. destruct (follow t _ _) as [l0|d0 n0| |] eqn:F; try discriminate.
  - destruct (trailing (c :: p)); [|discriminate]. destruct (at_ t l0) as [[]|]; discriminate.
  - intros H. injection H as <- <-. exact (follow_missing_at _ _ _ _ _ F).
Qed.
Lemma lookup_made t t' cw p d n : keeps t t' -> lookup t cw p = Missing d n -> at_ t' (n :: d) <> None -> (trailing p = true -> at_ t' (n :: d) = Some KDir) -> lookup t' cw p = Found (n :: d).
Proof.
  unfold lookup. destruct p as [|c p]; [discriminate|]. intros K H N T. destruct (follow t _ _) as [l0|d0 n0| |] eqn:F; try discriminate.
  - destruct (trailing (c :: p)); [|discriminate]. destruct (at_ t l0) as [[]|]; discriminate.
  - injection H as -> ->. rewrite (follow_missing _ _ _ K _ _ _ F N). destruct (trailing (c :: p)); [rewrite (T eq_refl)|]; reflexivity.
Qed.
(** A new entry keeps all others. *)
Lemma put_new t n d u : at_ t d = Some KDir -> at_ t (n :: d) = None -> leaf u -> keeps t (put t (rev (n :: d)) u) /\ at_ (put t (rev (n :: d)) u) (n :: d) = Some (kindOf u) /\
  forall l, at_ t l = None -> at_ (put t (rev (n :: d)) u) l <> None -> l = n :: d.
Proof.
  intros D N L. assert (E : forall q, at_ (put t (rev (n :: d)) u) q = if list_eq_dec (list_eq_dec Z.eq_dec) q (n :: d) then Some (kindOf u) else at_ t q) by (intros q; apply at_put; [exact D|rewrite N; discriminate|exact L]).
  split; [|split].
  - intros l k H. rewrite E. destruct list_eq_dec as [->|_]; [congruence|exact H].
  - rewrite E. destruct list_eq_dec; [reflexivity|congruence].
  - intros l H H'. rewrite E in H'. destruct list_eq_dec as [->|_]; [reflexivity|congruence].
Qed.

(* ---- splitting POSIX paths ---- *)
Lemma posix_names p : namesOf false p = names posixSep p.
Proof. unfold namesOf, anchorOf. destruct p as [|c p]; [reflexivity|]. destruct (sepOf false c); reflexivity. Qed.
Lemma trailing_app a b : b <> [] -> trailing (a ++ b) = trailing b.
Proof. intros N. unfold trailing. rewrite rev_app_distr. destruct (rev b) as [|x r] eqn:E; [|reflexivity]. apply (f_equal (@rev Z)) in E. rewrite rev_involutive in E. cbn in E. congruence. Qed.
Lemma trailing_last p : p <> [] -> trailing p = posixSep (last p 0).
Proof. intros N. destruct (exists_last N) as (a & c & ->). rewrite last_last, trailing_app by discriminate. reflexivity. Qed.
Lemma startDir_app cw a b : a <> [] -> startDir cw (a ++ b) = startDir cw a.
Proof. destruct a; [congruence|reflexivity]. Qed.
Lemma sep_posix c : isSepByte false c = posixSep c.
Proof. unfold isSepByte, posixSep. cbn [andb]. apply orb_false_r. Qed.
Lemma names_cut' a s b : posixSep s = true -> names posixSep (a ++ s :: b) = names posixSep a ++ names posixSep b.
Proof. intros H. rewrite <- !(names_ext (isSepByte false) posixSep _ sep_posix). apply names_cut. rewrite sep_posix. exact H. Qed.
Lemma names_seps' a p : Forall (fun c => posixSep c = true) a -> names posixSep (a ++ p) = names posixSep p.
Proof. apply names_seps. Qed.
Lemma posix_split p : zlen p < 2 ^ 31 -> exists dir seps file, split false p = Some (dir, file) /\ p = dir ++ seps ++ file /\
  Forall (fun c => posixSep c = false) file /\ names posixSep p = names posixSep dir ++ names posixSep file /\ Forall (fun c => posixSep c = true) seps /\
  (dir = [] /\ p = file \/ dir <> [] /\ Forall (fun c => posixSep c = true) dir \/ dir <> [] /\ seps <> [] /\ trailing dir = false).
Proof.
  intros H. destruct (split_ok false p H) as (dir & seps & file & Hs & Ep & Fs & Ff & C & _). exists dir, seps, file. split; [exact Hs|]. split; [exact Ep|]. split; [exact Ff|].
  assert (Nd : dir <> [] -> namesOf false dir = [] -> Forall (fun c => posixSep c = true) dir).
  { intros _ E. rewrite posix_names in E. clear -E. induction dir as [|c d IH]; [constructor|]. unfold names in E. cbn [pieces] in E. destruct (posixSep c) eqn:Ec.
    - constructor; [exact Ec|]. apply IH. exact E.
    - exfalso. pose proof (pieces_nn posixSep d). destruct (pieces posixSep d); [congruence|discriminate E]. }
  split.
  - destruct C as [(-> & ->)|[(N1 & N2)|(N1 & N2 & _)]].
    + subst p. reflexivity.
    + subst p. rewrite (names_all_seps posixSep dir (Nd N1 N2)). cbn [app]. rewrite (names_seps posixSep dir _ (Nd N1 N2)), (names_seps posixSep seps) by exact Fs. reflexivity.
    + subst p. destruct seps as [|s seps]; [congruence|]. inversion Fs; subst. cbn [app]. rewrite names_cut' by assumption. f_equal. apply names_seps. assumption.
  - split; [exact Fs|]. destruct C as [(-> & ->)|[(N1 & N2)|(N1 & N2 & N3)]].
    + left. split; [reflexivity|]. subst p. reflexivity.
    + right; left. split; [exact N1|auto].
    + right; right. split; [exact N1|]. split; [exact N2|]. inversion N3; subst. rewrite trailing_last by exact N1. assumption.
Qed.
Lemma names_file file : Forall (fun c => posixSep c = false) file -> file <> [] -> names posixSep file = [file].
Proof. intros F N. apply names_one; assumption. Qed.

(* ---- makeDirs ---- *)
Lemma placed_root s : placed s -> at_ (disk s) [] = Some KDir.
Proof. unfold placed. intros P. destruct (cwd s) as [|n d]; [exact P|apply (at_root _ _ _ P); discriminate]. Qed.
Lemma leads_refl p : leads p p. Proof. exists []. rewrite app_nil_r. auto. Qed.
Lemma leads_trans a b c : leads a b -> leads b c -> leads a c.
Proof.
  intros (r & -> & R) (r' & -> & R'). exists (r ++ r'). rewrite app_assoc. split; [reflexivity|]. destruct R as [->|(x & ->)]; [exact R'|]. right. exists (x ++ r'). reflexivity.
Qed.
Lemma leads_dir dir seps file : seps <> [] -> Forall (fun c => posixSep c = true) seps -> leads dir (dir ++ seps ++ file).
Proof. intros N F. exists (seps ++ file). split; [reflexivity|]. right. destruct F as [|x xs H]; [congruence|]. unfold posixSep in H. apply Z.eqb_eq in H. subst x. eexists. reflexivity. Qed.
Lemma lookup_slashes t cw p : Forall (fun c => posixSep c = true) p -> p <> [] -> at_ t [] = Some KDir -> lookup t cw p = Found [].
Proof.
  intros F N A. unfold lookup. destruct p as [|c p]; [congruence|]. rewrite names_all_seps by exact F. cbn [follow]. inversion F; subst. unfold startDir. rewrite H1. destruct (trailing (c :: p)); [rewrite A|]; reflexivity.
Qed.
Definition grew (s s' : fsst) (p : list Z) : Prop :=
  cwd s' = cwd s /\ keeps (disk s) (disk s') /\
  forall l, at_ (disk s) l = None -> at_ (disk s') l <> None -> at_ (disk s') l = Some KDir /\ exists q, leads q p /\ named s' q l.
Lemma grew_same s s' p : cwd s' = cwd s -> disk s' = disk s -> grew s s' p.
Proof. intros C D. split; [exact C|]. rewrite D. split; [apply keeps_refl|]. intros l H H'. congruence. Qed.
Lemma grew_placed s s' p : grew s s' p -> placed s -> placed s'.
Proof. intros (C & K & _) P. unfold placed in *. rewrite C. apply K, P. Qed.
Lemma grew_slashes s s' q p : grew s s' q -> Forall (fun c => posixSep c = true) q -> placed s -> grew s s' p.
Proof.
  intros (C & K & N) F P. split; [exact C|]. split; [exact K|]. intros l A B. exfalso. destruct (N l A B) as (D & q0 & (r & -> & _) & Nm). apply Forall_app in F. destruct F as (F & _). unfold named in Nm.
  destruct q0 as [|c q0]; [discriminate|]. pose proof (placed_root s P) as R. rewrite (lookup_slashes _ _ _ F) in Nm; [|discriminate|apply K, R]. injection Nm as <-. congruence.
Qed.
Lemma grew_more s s1 s2 q p : grew s s1 q -> leads q p -> grew s1 s2 p -> placed s1 -> grew s s2 p.
Proof.
  intros (C1 & K1 & N1) Le (C2 & K2 & N2) P. split; [congruence|]. split; [eapply keeps_trans; eassumption|]. intros l A B.
  destruct (at_ (disk s1) l) as [k|] eqn:E; [|apply N2; assumption]. destruct (N1 l A ltac:(congruence)) as (E' & q0 & Eq & Nm).
  rewrite (K2 _ _ E) in *. split; [congruence|]. exists q0. split; [eapply leads_trans; eassumption|]. unfold named in *. rewrite C2. apply (lookup_mono _ _ _ _ _ K2 Nm). congruence.
Qed.
Lemma mkdir_ok s p s' e : placed s -> mkdir s p = (s', e) ->
  cwd s' = cwd s /\ faults s' = tl (faults s) /\ match e with
  | None => grew s s' p /\ is_dir s' p
  | Some e => disk s' = disk s /\ (e = EEXIST -> exists l, named s p l) /\ e <> EISDIR /\ (failing s = None -> e = EEXIST \/ e = ENOENT /\ lookup (disk s) (cwd s) p = NoEnt \/ e = ENOTDIR /\ lookup (disk s) (cwd s) p = NotDir)
  end.
Proof.
  intros P. unfold mkdir. destruct (failing s) as [er|] eqn:F.
  { intros H. injection H as <- <-. split; [reflexivity|]. split; [reflexivity|]. split; [reflexivity|]. unfold failing in F. destruct (faults s) as [|[]]; try discriminate; injection F as <-; (split; [discriminate|split; [discriminate|discriminate]]). }
  cbv zeta. cbn [pop disk cwd]. destruct (lookup (disk s) (cwd s) p) as [l|d n| |] eqn:L; intros H; injection H as <- <-; cbn [pop change disk cwd faults]; split; try reflexivity; split; try reflexivity.
  - split; [reflexivity|]. split; [intros _; exists l; exact L|]. split; [discriminate|auto].
  - destruct (lookup_missing _ _ _ _ _ L) as (D & N). destruct (put_new (disk s) n d (TDir []) D N eq_refl) as (K & A & U). cbn [kindOf] in A.
    assert (Nm : lookup (put (disk s) (rev (n :: d)) (TDir [])) (cwd s) p = Found (n :: d)) by (apply (lookup_made _ _ _ _ _ _ K L); [rewrite A; discriminate|intros _; exact A]).
    split.
    + split; [reflexivity|]. split; [exact K|]. cbn [disk change]. intros l H H'. rewrite (U l H H') in *. split; [exact A|]. exists p. split; [apply leads_refl|exact Nm].
    + exists (n :: d). split; [exact Nm|exact A].
  - split; [reflexivity|]. split; [discriminate|]. split; [discriminate|auto].
  - split; [reflexivity|]. split; [discriminate|]. split; [discriminate|auto].
Qed.

Section Made.
Context (dbg : bool).
Lemma makeDir_ok s p s' r : placed s -> makeDir dbg s p = Ret s' r ->
  grew s s' p /\ (r = OK -> is_dir s' p) /\ (r = AlreadyExists -> disk s' = disk s /\ exists l, named s p l) /\ (r = OK \/ r = AlreadyExists \/ r = Unknown).
Proof.
  intros P. unfold makeDir. destruct (mkdir s p) as (s1 & e) eqn:M. destruct (mkdir_ok s p s1 e P M) as (C & _ & H).
  destruct e as [e|].
  - destruct H as (D & Ex & Ni & _). assert (G : grew s s1 p) by (apply grew_same; assumption). unfold unexpected.
    destruct e; try congruence; (destruct dbg; try discriminate); intros E; injection E as <- <-; (split; [exact G|]); (split; [discriminate|]); (split; [intros; try discriminate|auto]); (split; [exact D|]); apply Ex; reflexivity.
  - destruct H as (G & I). intros E. injection E as <- <-. split; [exact G|]. split; [intros _; exact I|]. split; [discriminate|auto].
Qed.

Lemma drive_nil p : getDriveLetter false p = [].
Proof. reflexivity. Qed.
Lemma exists_ok s p s' x : exists_ dbg s p = Ret s' x -> s' = s /\
  match x with
  | EDirectory => placed s -> is_dir s p
  | EFile => placed s -> exists c, is_file s p c
  | ENotFound => forall l, ~ named s p l
  end.
Proof.
  unfold exists_. destruct (lookup (disk s) (cwd s) p) as [l|d n| |] eqn:L.
  - intros H. injection H as <- <-. split; [reflexivity|]. destruct (at_ (disk s) l) as [[c|]|] eqn:A.
    + intros _. exists c, l. auto.
    + intros _. exists l. auto.
    + intros P. destruct (lookup_at s p l P L A).
  - intros H. injection H as <- <-. split; [reflexivity|]. unfold named. congruence.
  - intros H. injection H as <- <-. split; [reflexivity|]. unfold named. congruence.
  - unfold unexpected. destruct dbg; [discriminate|]. intros H. injection H as <- <-. split; [reflexivity|]. unfold named. congruence.
Qed.

Theorem makeDirs_ok fuel : forall s p s' r, placed s -> zlen p < 2 ^ 31 -> makeDirs dbg fuel s p = Ret s' r ->
  grew s s' p /\ (r = OK -> p = [] \/ is_dir s' p) /\ (r = AlreadyExists -> downward p -> is_dir s' p).
Proof.
  induction fuel as [|fuel IH]; intros s p s' r P Hp; cbn [makeDirs]; [discriminate|]. rewrite drive_nil.
  destruct (bytes_eqb_spec p []) as [->|Np].
  { intros H. injection H as <- <-. split; [apply grew_same; reflexivity|]. split; [auto|discriminate]. }
  destruct (exists_ dbg s p) as [s1 x|] eqn:E; [|discriminate]. destruct (exists_ok s p s1 x E) as (-> & X). clear E.
  destruct x.
  - destruct (posix_split p Hp) as (dir & seps & file & Sp & Ep & Ff & Nm & Fs & C). rewrite Sp.
    assert (Last : forall s1, grew s s1 p -> placed s1 -> makeDir dbg s1 p = Ret s' r -> grew s s' p /\ (r = OK -> p = [] \/ is_dir s' p) /\ (r = AlreadyExists -> downward p -> is_dir s' p)).
    { intros s1 G P1 M. destruct (makeDir_ok s1 p s' r P1 M) as (G2 & O & A & _). split; [eapply grew_more; [exact G|apply leads_refl|exact G2|exact P1]|]. split; [intros Hr; right; apply O, Hr|].
      intros Hr Dn. destruct (A Hr) as (D2 & l & Nl). destruct G2 as (C2 & _ & _). exists l. unfold named in *. rewrite D2, C2. split; [exact Nl|].
      destruct (at_ (disk s1) l) as [k|] eqn:Al; [|destruct (lookup_at s1 p l P1 Nl Al)]. destruct k as [c|]; [|reflexivity]. exfalso.
      destruct G as (C1 & K1 & U1). destruct (at_ (disk s) l) as [k|] eqn:A0; [|destruct (U1 l A0 ltac:(congruence)) as (Q & _); congruence]. pose proof (K1 _ _ A0) as A1. assert (k = KFile c) by congruence. subst k.
      apply (X l). unfold lookup in Nl |- *. destruct p as [|b p]; [discriminate|]. rewrite C1 in Nl. destruct (follow (disk s1) _ _) as [l0| | |] eqn:F; try discriminate.
      assert (El : l0 = l) by (destruct (trailing (b :: p)); [destruct (at_ (disk s1) l0) as [[]|]; try discriminate|]; injection Nl; auto). subst l0.
      rewrite (follow_back _ _ _ K1 Dn _ _ F) by congruence. destruct (trailing (b :: p)); [|reflexivity]. rewrite Al in Nl. discriminate. }
    destruct (nonempty dir && nonempty file) eqn:NN; [|apply Last; [apply grew_same; reflexivity|exact P]].
    apply andb_true_iff in NN. destruct NN as (Nd & Nf).
    destruct (makeDirs dbg fuel s dir) as [s1 r1|] eqn:M; [|discriminate].
    assert (Hd : zlen dir < 2 ^ 31) by (rewrite Ep in Hp; rewrite zlen_app in Hp; pose proof (zlen_nonneg (seps ++ file)); lia).
    destruct (IH s dir s1 r1 P Hd M) as (G1 & _ & _). pose proof (grew_placed _ _ _ G1 P) as P1.
    assert (G1' : grew s s1 p).
    { destruct C as [(E & _)|[(_ & F1)|(_ & Ns & _)]]; [subst dir; discriminate|eapply grew_slashes; eassumption|].
      eapply grew_more; [exact G1| |apply grew_same; reflexivity|exact P1]. rewrite Ep. apply leads_dir; assumption. }
    destruct r1; try (apply Last; assumption); intros H; injection H as <- <-; (split; [exact G1'|]); split; discriminate.
  - intros H. injection H as <- <-. split; [apply grew_same; reflexivity|]. split; discriminate.
  - intros H. injection H as <- <-. split; [apply grew_same; reflexivity|]. split; [discriminate|]. intros _ _. apply X, P.
Qed.
Lemma split_shorter (p dir seps file : list Z) : p = dir ++ seps ++ file -> file <> [] -> (length dir < length p)%nat.
Proof. intros -> N. rewrite !app_length. destruct file; [congruence|cbn; lia]. Qed.
Theorem makeDirs_defined fuel : forall s p, dbg = false -> zlen p < 2 ^ 31 -> (length p < fuel)%nat -> makeDirs dbg fuel s p <> Dead.
Proof.
  induction fuel as [|fuel IH]; intros s p Ed Hp Hf; [lia|]. cbn [makeDirs]. rewrite drive_nil. destruct (bytes_eqb_spec p []) as [->|Np]; [discriminate|].
  assert (MD : forall s1, makeDir dbg s1 p <> Dead) by (intros s1; unfold makeDir, unexpected; rewrite Ed; destruct (mkdir s1 p) as (s2 & [[]|]); discriminate).
  unfold exists_, unexpected. rewrite Ed. rewrite Ed in MD.
  assert (Go : match split false p with
    | None => Dead
    | Some (first, second) =>
        if nonempty first && nonempty second then
          match makeDirs false fuel s first with Dead => Dead | Ret s OK | Ret s AlreadyExists => makeDir false s p | Ret s r => Ret s r end
        else makeDir false s p
    end <> Dead).
  { destruct (posix_split p Hp) as (dir & seps & file & -> & Ep & _). destruct (nonempty dir && nonempty file) eqn:NN; [|apply MD]. apply andb_true_iff in NN. destruct NN as (Nd & Nf).
    assert (Nf' : file <> []) by (destruct file; [discriminate|discriminate]). pose proof (split_shorter p dir seps file Ep Nf').
    assert (Hd : zlen dir < 2 ^ 31) by (rewrite Ep in Hp; rewrite zlen_app in Hp; pose proof (zlen_nonneg (seps ++ file)); lia).
    specialize (IH s dir Ed Hd ltac:(lia)). rewrite Ed in IH. destruct (makeDirs false fuel s dir) as [s1 r|]; [|congruence]. destruct r; try discriminate; apply MD. }
  destruct (lookup (disk s) (cwd s) p) as [l|d n| |]; try exact Go. destruct (at_ (disk s) l) as [[]|]; discriminate.
Qed.

(* It succeeds. *)
Lemma works_pop s : works s -> works (pop s) /\ failing s = None.
Proof. unfold works, failing, pop. cbn [faults]. intros H. destruct (faults s) as [|f fs]; cbn [tl]; [auto|]. inversion H; subst. auto. Qed.
Lemma makeDir_works s p s' r : works s -> makeDir dbg s p = Ret s' r -> works s'.
Proof.
  intros W. unfold makeDir, mkdir. destruct (works_pop s W) as (W' & ->). cbv zeta. destruct (lookup _ _ p); unfold unexpected; try destruct dbg; try discriminate; intros H; injection H as <- <-; exact W'.
Qed.
Lemma makeDirs_works fuel : forall s p s' r, works s -> makeDirs dbg fuel s p = Ret s' r -> works s'.
Proof.
  induction fuel as [|fuel IH]; intros s p s' r W; cbn [makeDirs]; [discriminate|]. destruct (bytes_eqb p _); [intros H; injection H as <- <-; exact W|].
  destruct (exists_ dbg s p) as [s1 x|] eqn:E; [|discriminate]. destruct (exists_ok s p s1 x E) as (-> & _). destruct x; try (intros H; injection H as <- <-; exact W).
  destruct (split false p) as [[d f]|]; [|discriminate]. destruct (nonempty d && nonempty f); [|apply makeDir_works, W].
  destruct (makeDirs dbg fuel s d) as [s1 r1|] eqn:M; [|discriminate]. pose proof (IH _ _ _ _ W M) as W1. destruct r1; try (apply makeDir_works, W1); intros H; injection H as <- <-; exact W1.
Qed.
(** The last name of a path whose directory is there. *)
Lemma lookup_in_dir s p dir seps file : placed s -> p = dir ++ seps ++ file -> Forall (fun c => posixSep c = false) file -> file <> [] -> names posixSep p = names posixSep dir ++ names posixSep file ->
  (dir = [] /\ p = file \/ is_dir s dir) -> file <> [dot; dot] ->
  match lookup (disk s) (cwd s) p with Found _ | Missing _ _ => True | _ => False end.
Proof.
  intros P Ep Ff Nf Nm C Nd. assert (Tp : trailing p = false).
  { rewrite Ep, app_assoc, trailing_app by exact Nf. rewrite trailing_last by exact Nf. rewrite Forall_forall in Ff. apply Ff, last_in, Nf. }
  assert (Np : p <> []) by (rewrite Ep; destruct dir; [destruct seps; [exact Nf|discriminate]|discriminate]).
  assert (One : forall d, at_ (disk s) d = Some KDir -> match follow (disk s) d [file] with Found _ | Missing _ _ => True | _ => False end).
  { intros d A. cbn [follow]. rewrite A. destruct (bytes_eqb file [dot]); [exact I|]. destruct (bytes_eqb file [dot; dot]); [exact I|]. destruct (at_ (disk s) (@cons name file d)); exact I. }
  unfold lookup. destruct p as [|c p]; [congruence|]. rewrite Tp, Nm, (names_file file Ff Nf). destruct C as [(-> & Epf)|(l & Nl & A)].
  - cbn [names pieces filter nonempty app]. change (names posixSep [] ++ [file]) with [file]. assert (E : startDir (cwd s) (c :: p) = cwd s) by (rewrite Epf; destruct file; [congruence|]; inversion Ff; subst; unfold startDir; rewrite H1; reflexivity).
    rewrite E. specialize (One (cwd s) P). destruct (follow (disk s) (cwd s) [file]); auto.
  - unfold named, lookup in Nl. destruct dir as [|b dir]; [discriminate|]. assert (Es : startDir (cwd s) (c :: p) = startDir (cwd s) (b :: dir)) by (rewrite Ep; reflexivity). rewrite Es.
    destruct (follow (disk s) (startDir (cwd s) (b :: dir)) (names posixSep (b :: dir))) as [l0| | |] eqn:F; try discriminate.
    assert (l0 = l) by (destruct (trailing (b :: dir)); [destruct (at_ (disk s) l0) as [[]|]; try discriminate|]; injection Nl; auto). subst l0. specialize (One l A). rewrite follow_app.
    destruct (names posixSep (b :: dir)) as [|x xs] eqn:En; [cbn [follow] in F; assert (E0 : startDir (cwd s) (b :: dir) = l) by congruence; rewrite E0|rewrite F]; destruct (follow (disk s) l [file]); auto.
Qed.
Lemma in_names_dir p dir file : names posixSep p = names posixSep dir ++ names posixSep file -> downward p -> downward dir.
Proof. intros E D H. apply D. rewrite E. apply in_or_app. auto. Qed.
Lemma starts_trans a b c : starts a b -> starts b c -> starts a c.
Proof. intros (r & ->) (r' & ->). exists (r ++ r'). rewrite app_assoc. reflexivity. Qed.
Lemma word_split p : exists seps w r, p = seps ++ w ++ r /\ Forall (fun c => posixSep c = true) seps /\ Forall (fun c => posixSep c = false) w /\ (w = [] -> r = []) /\ (r = [] \/ exists r', r = slash :: r').
Proof.
  induction p as [|c p (seps & w & r & -> & Fs & Fw & N & R)]; [exists [], [], []; repeat split; auto|]. destruct (posixSep c) eqn:E.
  - exists (c :: seps), w, r. repeat split; auto.
  - destruct seps as [|x xs].
    + exists [], (c :: w), r. repeat split; auto. discriminate.
    + exists [], [c], (x :: xs ++ w ++ r). inversion Fs; subst. repeat split; auto; [discriminate|]. right. unfold posixSep in H1. apply Z.eqb_eq in H1. subst x. eauto.
Qed.
Lemma names_prefix k : forall p (a b : list name), (length p < k)%nat -> names posixSep p = a ++ b -> a <> [] -> exists q r, p = q ++ r /\ names posixSep q = a /\ trailing q = false /\ q <> [] /\ (r = [] \/ exists r', r = slash :: r').
Proof.
  induction k as [|k IH]; intros p a b Hk Nm Na; [lia|]. destruct (word_split p) as (seps & w & r & -> & Fs & Fw & Nw & R). rewrite names_seps' in Nm by exact Fs.
  destruct (list_eq_dec Z.eq_dec w []) as [->|Wn]; [rewrite (Nw eq_refl) in Nm; destruct a; [congruence|discriminate]|].
  assert (Tw : trailing w = false) by (rewrite trailing_last by exact Wn; rewrite Forall_forall in Fw; apply Fw, last_in, Wn).
  assert (E : names posixSep (w ++ r) = w :: names posixSep r) by (destruct R as [->|(r' & ->)]; [rewrite app_nil_r; apply names_one; assumption|rewrite (names_sep posixSep slash r' eq_refl); apply names_word; auto]).
  rewrite E in Nm. destruct a as [|x a]; [congruence|]. injection Nm as <- Nm. destruct a as [|y a].
  - exists (seps ++ w), r. rewrite <- app_assoc. split; [reflexivity|]. split; [rewrite names_seps' by exact Fs; apply names_one; assumption|]. split; [rewrite trailing_app by exact Wn; exact Tw|]. split; [|exact R]. intros X. apply app_eq_nil in X. tauto.
  - destruct (IH r (y :: a) b) as (q & r2 & -> & Nq & Tq & Qn & R2); [rewrite !app_length in Hk; destruct w; [congruence|cbn in Hk; lia]|exact Nm|discriminate|].
    exists (seps ++ w ++ q), r2. rewrite <- !app_assoc. split; [reflexivity|]. split.
    + rewrite names_seps' by exact Fs. destruct q as [|z q]; [congruence|]. destruct R as [R|(r' & R)]; [discriminate|]. injection R as -> _. rewrite names_word by auto. rewrite (names_sep posixSep slash q eq_refl) in Nq. rewrite Nq. reflexivity.
    + split; [rewrite app_assoc, trailing_app by exact Qn; exact Tq|]. split; [|exact R2]. intros X. apply app_eq_nil in X. destruct X as (_ & X). apply app_eq_nil in X. tauto.
Qed.
Lemma follow_notdir t ns : forall dir, follow t dir ns = NotDir -> exists a b l c, ns = a ++ b /\ follow t dir a = Found l /\ at_ t l = Some (KFile c).
Proof.
  induction ns as [|n ns IH]; intros dir; cbn [follow]; [discriminate|]. destruct (at_ t dir) as [[c|]|] eqn:A; try discriminate.
  - intros _. exists [], (n :: ns), dir, c. auto.
  - assert (Step : forall d, (forall m, follow t dir (n :: m) = follow t d m) -> follow t d ns = NotDir -> exists a b l c, n :: ns = a ++ b /\ follow t dir a = Found l /\ at_ t l = Some (KFile c)).
    { intros d E F. destruct (IH d F) as (a & b & l & c & -> & Fa & Al). exists (n :: a), b, l, c. split; [reflexivity|]. split; [rewrite E; exact Fa|exact Al]. }
    destruct (bytes_eqb n [dot]) eqn:E1; [apply Step; intros m; cbn [follow]; rewrite A, E1; reflexivity|].
    destruct (bytes_eqb n [dot; dot]) eqn:E2; [apply Step; intros m; cbn [follow]; rewrite A, E1, E2; reflexivity|].
    destruct (at_ t (n :: dir)) eqn:E3; [|destruct ns; discriminate]. apply Step. intros m. cbn [follow]. rewrite A, E1, E2, E3. reflexivity.
Qed.
(** What goes through a file has a file as a leading part. *)
Lemma notdir_file s p : placed s -> lookup (disk s) (cwd s) p = NotDir -> exists q r c, p = q ++ r /\ (r = [] \/ exists r', r = slash :: r') /\ is_file s q c.
Proof.
  intros P L. unfold lookup in L. destruct p as [|b p]; [discriminate|].
  assert (G : exists a b' l c, names posixSep (b :: p) = a ++ b' /\ follow (disk s) (startDir (cwd s) (b :: p)) a = Found l /\ at_ (disk s) l = Some (KFile c)).
  { destruct (follow _ _ _) as [l| | |] eqn:F; try discriminate.
    - destruct (trailing (b :: p)); [|discriminate]. destruct (at_ (disk s) l) as [[c|]|] eqn:A; try discriminate.
      + exists (names posixSep (b :: p)), [], l, c. rewrite app_nil_r. auto.
      + destruct (follow_found_at _ _ _ _ (startDir_at s (b :: p) P) F A).
    - apply follow_notdir, F. }
  destruct G as (a & b' & l & c & Nm & Fo & A). destruct a as [|n a].
  - cbn [follow] in Fo. exfalso. assert (El : startDir (cwd s) (b :: p) = l) by congruence. unfold startDir in El. pose proof (placed_root s P). unfold placed in P. destruct (posixSep b); subst l; congruence.
  - destruct (names_prefix (S (length (b :: p))) (b :: p) (n :: a) b' ltac:(lia) Nm ltac:(discriminate)) as (q & r & E & Nq & Tq & Qn & R). exists q, r, c. split; [exact E|]. split; [exact R|]. exists l. split; [|exact A].
    unfold named, lookup. destruct q as [|z q]; [congruence|]. rewrite Nq, Tq. replace (startDir (cwd s) (z :: q)) with (startDir (cwd s) (b :: p)) by (rewrite E; reflexivity). rewrite Fo. reflexivity.
Qed.
Lemma unobstructed_notdir s p : placed s -> unobstructed s p -> lookup (disk s) (cwd s) p <> NotDir.
Proof. intros P U L. destruct (notdir_file s p P L) as (q & r & c & E & R & F). refine (U q c _ F). exists r. auto. Qed.
Theorem makeDirs_succeeds fuel : forall s p, placed s -> works s -> zlen p < 2 ^ 31 -> (length p < fuel)%nat -> downward p -> trailing p = false \/ Forall (fun c => posixSep c = true) p -> unobstructed s p ->
  exists s' r, makeDirs dbg fuel s p = Ret s' r /\ (r = OK \/ r = AlreadyExists).
Proof.
  induction fuel as [|fuel IH]; intros s p P W Hp Hf D T U; [lia|]. cbn [makeDirs]. rewrite drive_nil. destruct (bytes_eqb_spec p []) as [->|Np]; [eauto|].
  pose proof (unobstructed_notdir s p P U) as Nn. pose proof (fun c => U p c (leads_refl p)) as Nfile.
  assert (Go : (exists l, lookup (disk s) (cwd s) p = Found l) \/ exists s' r, match split false p with
    | None => Dead
    | Some (first, second) =>
        if nonempty first && nonempty second then
          match makeDirs dbg fuel s first with Dead => Dead | Ret s OK | Ret s AlreadyExists => makeDir dbg s p | Ret s r => Ret s r end
        else makeDir dbg s p
    end = Ret s' r /\ (r = OK \/ r = AlreadyExists)).
  { destruct (posix_split p Hp) as (dir & seps & file & -> & Ep & Ff & Nm & Fs & C).
    destruct T as [T|T]; [|left; exists []; apply lookup_slashes; [exact T|exact Np|apply placed_root, P]].
    assert (Nf : file <> []).
    { intros ->. rewrite app_nil_r in Ep. destruct seps as [|x xs].
      - rewrite app_nil_r in Ep. destruct C as [(-> & E)|[(N1 & F1)|(N1 & N2 & N3)]]; try congruence.
        rewrite Forall_forall in F1. rewrite Ep, trailing_last in T by exact N1. rewrite F1 in T; [discriminate|]. apply last_in, N1.
      - rewrite Ep, trailing_app, trailing_last in T by discriminate. rewrite Forall_forall in Fs. rewrite Fs in T; [discriminate|]. apply last_in. discriminate. }
    assert (Nd : file <> [dot; dot]) by (intros ->; apply D; rewrite Nm; apply in_or_app; right; left; reflexivity).
    assert (MD : forall s1, placed s1 -> works s1 -> (dir = [] /\ p = file \/ is_dir s1 dir) -> exists s' r, makeDir dbg s1 p = Ret s' r /\ (r = OK \/ r = AlreadyExists)).
    { intros s1 P1 W1 H. pose proof (lookup_in_dir s1 p dir seps file P1 Ep Ff Nf Nm H Nd) as L. destruct (works_pop s1 W1) as (_ & Fl). unfold makeDir, mkdir. rewrite Fl. cbv zeta. cbn [pop disk cwd].
      destruct (lookup (disk s1) (cwd s1) p); try contradiction; eauto. }
    right. destruct (nonempty dir) eqn:Ned; cbn [andb].
    - destruct (nonempty file) eqn:Nef; [|destruct file; [congruence|discriminate]].
      assert (Nd0 : dir <> []) by (destruct dir; [discriminate|discriminate]).
      assert (Hd : zlen dir < 2 ^ 31) by (rewrite Ep in Hp; rewrite zlen_app in Hp; pose proof (zlen_nonneg (seps ++ file)); lia).
      assert (St : starts dir p) by (exists (seps ++ file); exact Ep).
      destruct (IH s dir P W Hd) as (s1 & r1 & M & Hr1).
      + pose proof (split_shorter p dir seps file Ep Nf). lia.
      + eapply in_names_dir; eassumption.
      + destruct C as [(E & _)|[(_ & F1)|(_ & _ & T1)]]; [congruence|right; exact F1|left; exact T1].
      + intros q c Le Fq. destruct C as [(E & _)|[(_ & Fd)|(_ & Ns & _)]]; [congruence| |].
        * destruct Fq as (l & Nl & Al). unfold named in Nl. destruct Le as (r0 & -> & _). apply Forall_app in Fd. destruct Fd as (Fd & _). destruct q as [|z q]; [discriminate|]. rewrite (lookup_slashes _ _ _ Fd ltac:(discriminate) (placed_root s P)) in Nl. injection Nl as <-. pose proof (placed_root s P). congruence.
        * refine (U q c _ Fq). eapply leads_trans; [exact Le|]. rewrite Ep. apply leads_dir; assumption.
      + rewrite M. destruct (makeDirs_ok fuel s dir s1 r1 P Hd M) as (G1 & O1 & A1).
        assert (I1 : is_dir s1 dir) by (destruct Hr1 as [-> | ->]; [destruct (O1 eq_refl); [congruence|assumption]|apply A1; [reflexivity|eapply in_names_dir; eassumption]]).
        destruct Hr1 as [-> | ->]; (apply MD; [eapply grew_placed; eassumption|eapply makeDirs_works; eassumption|right; exact I1]).
    - apply MD; [exact P|exact W|]. left. destruct dir; [|discriminate]. split; [reflexivity|]. destruct C as [(_ & E)|[(E & _)|(E & _)]]; [exact E|congruence|congruence]. }
  unfold exists_, unexpected. destruct (lookup (disk s) (cwd s) p) as [l|d n| |] eqn:L.
  - destruct (at_ (disk s) l) as [[c|]|] eqn:A.
    + exfalso. apply (Nfile c). exists l. auto.
    + eauto.
    + destruct (lookup_at s p l P L A).
  - destruct Go as [(l & E)|Go]; [congruence|exact Go].
  - destruct Go as [(l & E)|Go]; [congruence|exact Go].
  - congruence.
Qed.
End Made.

(** A file in the way. *)
Lemma file_not_trailing s p c : is_file s p c -> trailing p = false.
Proof.
  intros (l & N & A). unfold named, lookup in N. destruct p as [|b p]; [discriminate|]. destruct (follow _ _ _) as [l0| | |]; try discriminate. destruct (trailing (b :: p)); [|reflexivity].
  destruct (at_ (disk s) l0) as [[x|]|] eqn:E; try discriminate. injection N as ->. congruence.
Qed.
Lemma through_file s q r c : is_file s q c -> ~ is_dir s (q ++ slash :: r).
Proof.
  intros F (l' & N' & A'). pose proof (file_not_trailing _ _ _ F) as T. destruct F as (l & N & A). unfold named, lookup in N, N'. destruct q as [|b q]; [discriminate|]. cbn [app] in N'.
  change (b :: q ++ slash :: r) with ((b :: q) ++ slash :: r) in N'. rewrite startDir_app in N' by discriminate. rewrite T in N. destruct (follow (disk s) (startDir (cwd s) (b :: q)) (names posixSep (b :: q))) as [l0| | |] eqn:Fo; try discriminate. injection N as ->.
  rewrite names_cut' in N' by reflexivity. rewrite follow_app in N'. destruct (names posixSep (b :: q)) as [|n ns] eqn:En.
  - cbn [follow] in Fo. assert (El : startDir (cwd s) (b :: q) = l) by congruence. rewrite El in N'. destruct (names posixSep r) as [|m ms] eqn:Er; cbn [follow] in N'.
    + destruct (trailing _); [rewrite A in N'; discriminate|injection N' as ->; congruence].
    + rewrite A in N'. discriminate.
  - destruct (names posixSep r) as [|m ms] eqn:Er.
    + rewrite Fo in N'. destruct (trailing _); [rewrite A in N'; discriminate|injection N' as ->; congruence].
    + rewrite Fo in N'. cbn [follow] in N'. rewrite A in N'. discriminate.
Qed.
Lemma is_file_kept s s' q c : keeps (disk s) (disk s') -> cwd s' = cwd s -> is_file s q c -> is_file s' q c.
Proof. intros K C (l & N & A). exists l. unfold named. rewrite C. split; [apply (lookup_mono _ _ _ _ _ K N); congruence|apply K, A]. Qed.
Theorem makeDirs_blocked dbg s q r c s' x : placed s -> zlen (q ++ slash :: r) < 2 ^ 31 -> downward (q ++ slash :: r) -> is_file s q c ->
  makeDirs_ dbg s (q ++ slash :: r) = Ret s' x -> x <> OK /\ x <> AlreadyExists.
Proof.
  intros P H D F M. destruct (makeDirs_ok dbg _ _ _ _ _ P H M) as ((C & K & _) & O & A). pose proof (through_file s' q r c (is_file_kept _ _ _ _ K C F)) as N. split; intros E.
  - destruct (O E) as [X|X]; [destruct q; discriminate|exact (N X)].
  - exact (N (A E D)).
Qed.

(* ---- saving ---- *)
Definition shape (k : option kind) : option bool := match k with Some KDir => Some true | Some (KFile _) => Some false | None => None end.
Lemma follow_shape t t' ns : (forall q, shape (at_ t q) = shape (at_ t' q)) -> forall dir, follow t dir ns = follow t' dir ns.
Proof.
  intros E. induction ns as [|n ns IH]; intros dir; cbn [follow]; [reflexivity|]. pose proof (E dir) as E1. pose proof (E (n :: dir)) as E2.
  destruct (at_ t dir) as [[]|], (at_ t' dir) as [[]|]; try discriminate; try reflexivity. destruct (bytes_eqb n [dot]); [apply IH|]. destruct (bytes_eqb n [dot; dot]); [apply IH|].
  destruct (at_ t (n :: dir)) as [[]|], (at_ t' (n :: dir)) as [[]|]; try discriminate; try reflexivity; apply IH.
Qed.
Lemma lookup_shape t t' cw p : (forall q, shape (at_ t q) = shape (at_ t' q)) -> lookup t cw p = lookup t' cw p.
Proof.
  intros E. unfold lookup. destruct p as [|c p]; [reflexivity|]. rewrite (follow_shape t t' _ E). destruct (follow t' _ _) as [l| | |]; try reflexivity. destruct (trailing (c :: p)); [|reflexivity].
  pose proof (E l) as E1. destruct (at_ t l) as [[]|], (at_ t' l) as [[]|]; try discriminate; reflexivity.
Qed.
Definition only (t t' : tree) (l : list name) (c : list Z) : Prop := forall q, at_ t' q = if list_eq_dec (list_eq_dec Z.eq_dec) q l then Some (KFile c) else at_ t q.
Lemma put_file t n d c : at_ t d = Some KDir -> at_ t (n :: d) <> Some KDir -> only t (put t (rev (n :: d)) (TFile c)) (n :: d) c.
Proof. intros D N q. apply (at_put t n d (TFile c) q D N I). Qed.
Lemma only_trans t t1 t2 l a b : only t t1 l a -> only t1 t2 l b -> only t t2 l b.
Proof. intros A B q. rewrite (B q). destruct list_eq_dec; [reflexivity|]. rewrite (A q). destruct list_eq_dec; [contradiction|reflexivity]. Qed.
Lemma writeAll_ok fs : forall s n d old v s' ok, at_ (disk s) d = Some KDir -> at_ (disk s) (n :: d) = Some (KFile old) -> writeAll fs s (n :: d) old v = (s', ok) ->
  cwd s' = cwd s /\ exists v1 v2, v = v1 ++ v2 /\ only (disk s) (disk s') (n :: d) (old ++ v1) /\ (ok = true -> v2 = []) /\ (Forall (fun f => f = Fine \/ exists n, f = Short (S n)) fs -> ok = true).
Proof.
  induction fs as [|f fs IH]; intros s n d old v s' ok D F; cbn [writeAll].
  - destruct v as [|b v]; intros H; injection H as <- <-; cbn [disk cwd change]; (split; [reflexivity|]).
    + exists [], []. rewrite !app_nil_r. split; [reflexivity|]. split; [intros q; cbn; destruct list_eq_dec as [->|]; [exact F|reflexivity]|]. auto.
    + exists (b :: v), []. rewrite ?app_nil_r. split; [reflexivity|]. split; [apply put_file; [exact D|congruence]|]. auto.
  - assert (Same : exists v1 v2, v = v1 ++ v2 /\ only (disk s) (disk s) (n :: d) (old ++ v1) /\ v2 = v) by (exists [], v; rewrite ?app_nil_r; split; [reflexivity|]; split; [intros q; destruct list_eq_dec as [->|]; [exact F|reflexivity]|reflexivity]).
    destruct v as [|b v].
    { intros H. injection H as <- <-. split; [reflexivity|]. exists [], []. rewrite !app_nil_r. split; [reflexivity|]. split; [intros q; cbn; destruct list_eq_dec as [->|]; [exact F|reflexivity]|]. auto. }
    destruct f as [| | |k].
    + intros H. injection H as <- <-. cbn [disk cwd change]. split; [reflexivity|]. exists (b :: v), []. rewrite ?app_nil_r. split; [reflexivity|]. split; [apply put_file; [exact D|congruence]|]. auto.
    + intros H. injection H as <- <-. split; [reflexivity|]. destruct Same as (v1 & v2 & E1 & E2 & _). exists v1, v2. split; [exact E1|]. split; [exact E2|]. split; [discriminate|]. intros G. inversion G as [|x y [Hx|(z & Hx)]]; discriminate.
    + intros H. injection H as <- <-. split; [reflexivity|]. destruct Same as (v1 & v2 & E1 & E2 & _). exists v1, v2. split; [exact E1|]. split; [exact E2|]. split; [discriminate|]. intros G. inversion G as [|x y [Hx|(z & Hx)]]; discriminate.
    + destruct k as [|k].
      * intros H. injection H as <- <-. split; [reflexivity|]. destruct Same as (v1 & v2 & E1 & E2 & _). exists v1, v2. split; [exact E1|]. split; [exact E2|]. split; [discriminate|]. intros G. inversion G as [|x y [Hx|(z & Hx)]]; discriminate.
      * intros H. pose proof (put_file (disk s) n d (old ++ firstn (S k) (b :: v)) D ltac:(congruence)) as O.
        destruct (IH (change s (put (disk s) (rev (n :: d)) (TFile (old ++ firstn (S k) (b :: v))))) n d (old ++ firstn (S k) (b :: v)) (skipn (S k) (b :: v)) s' ok) as (C & v1 & v2 & E & O2 & E2 & E3).
        -- cbn [change disk]. rewrite (O d). destruct list_eq_dec as [E|_]; [|exact D]. exfalso. apply (f_equal (@length name)) in E. cbn in E. lia.
        -- cbn [change disk]. rewrite (O (n :: d)). destruct list_eq_dec; [reflexivity|congruence].
        -- exact H.
        -- split; [exact C|]. exists (firstn (S k) (b :: v) ++ v1), v2. split; [rewrite <- app_assoc, <- E, firstn_skipn; reflexivity|]. split; [rewrite app_assoc; eapply only_trans; [exact O|exact O2]|]. split; [exact E2|]. intros G. apply E3. inversion G; assumption.
Qed.

Section Save.
Context (dbg : bool) (junk : list Z).
Lemma openForWrite_ok s p s' r l : placed s -> openForWrite dbg s p = Ret s' (r, l) ->
  cwd s' = cwd s /\ match r with
  | OK => only (disk s) (disk s') l [] /\ named s' p l /\ (exists n d, l = n :: d /\ at_ (disk s) d = Some KDir) /\ at_ (disk s) l <> Some KDir
  | Unchanged => False
  | _ => disk s' = disk s
  end.
Proof.
  intros P. unfold openForWrite. destruct (failing s) as [e|] eqn:F.
  { unfold unexpected. destruct e; try destruct dbg; try discriminate; intros H; injection H as <- <- <-; (split; [reflexivity|reflexivity]). }
  cbv zeta. cbn [pop disk cwd]. destruct (lookup (disk s) (cwd s) p) as [l0|d n| |] eqn:L.
  - destruct (at_ (disk s) l0) as [[c|]|] eqn:A.
    + intros H. injection H as <- <- <-. split; [reflexivity|]. cbn [change pop disk].
      destruct l0 as [|n d]; [pose proof (placed_root s P); congruence|]. pose proof (put_file (disk s) n d [] (at_up _ _ _ _ A) ltac:(congruence)) as O. split; [exact O|].
      split; [unfold named; cbn [disk cwd change pop]; rewrite <- L; symmetry; apply lookup_shape; intros q; rewrite (O q); destruct list_eq_dec as [->|]; [rewrite A; reflexivity|reflexivity]|].
      split; [exists n, d; split; [reflexivity|exact (at_up _ _ _ _ A)]|congruence].
    + unfold unexpected. destruct dbg; [discriminate|]. intros H. injection H as <- <- <-. auto.
    + destruct (lookup_at s p l0 P L A).
  - destruct (trailing p) eqn:T.
    + unfold unexpected. destruct dbg; [discriminate|]. intros H. injection H as <- <- <-. auto.
    + intros H. injection H as <- <- <-. destruct (lookup_missing _ _ _ _ _ L) as (D & N). split; [reflexivity|]. cbn [change pop disk].
      split; [apply put_file; [exact D|congruence]|]. destruct (put_new (disk s) n d (TFile []) D N I) as (K & A & _).
      split; [unfold named; cbn [change pop disk cwd]; apply (lookup_made _ _ _ _ _ _ K L); [congruence|congruence]|]. split; [exists n, d; auto|congruence].
  - intros H. injection H as <- <- <-. auto.
  - unfold unexpected. destruct dbg; [discriminate|]. intros H. injection H as <- <- <-. auto.
Qed.
Lemma loadBinary_ok s p s' r c : placed s -> loadBinary dbg junk s p = Ret s' (r, c) ->
  cwd s' = cwd s /\ disk s' = disk s /\ trace s' = trace s /\ faults s' = tl (faults s) /\
  (r = OK -> (exists x, is_file s p x /\ c = firstn (Z.to_nat (zlen x mod 2 ^ 32)) x) \/ is_dir s p /\ c = junk) /\ r <> Unchanged /\ r <> AlreadyExists.
Proof.
  intros P. unfold loadBinary. destruct (failing s) as [e|] eqn:F.
  { unfold unexpected. destruct e; try destruct dbg; try discriminate; intros H; injection H as <- <- <-; cbn [pop cwd disk trace faults]; do 6 (split; [try reflexivity; discriminate|]); discriminate. }
  cbv zeta. cbn [pop disk cwd]. destruct (lookup (disk s) (cwd s) p) as [l0|d n| |] eqn:L.
  - destruct (at_ (disk s) l0) as [[x|]|] eqn:A.
    + destruct (dbg && _); [discriminate|]. intros H. injection H as <- <- <-. do 4 (split; [reflexivity|]). split; [|split; discriminate]. intros _. left. exists x. split; [exists l0; auto|reflexivity].
    + destruct (dbg && _); [discriminate|]. intros H. injection H as <- <- <-. do 4 (split; [reflexivity|]). split; [|split; discriminate]. intros _. right. split; [exists l0; auto|reflexivity].
    + destruct (lookup_at s p l0 P L A).
  - intros H. injection H as <- <- <-. do 4 (split; [reflexivity|]). split; [discriminate|split; discriminate].
  - intros H. injection H as <- <- <-. do 4 (split; [reflexivity|]). split; [discriminate|split; discriminate].
  - unfold unexpected. destruct dbg; [discriminate|]. intros H. injection H as <- <- <-. do 4 (split; [reflexivity|]). split; [discriminate|split; discriminate].
Qed.
Lemma writes_tail s s' : (exists k, faults s' = skipn k (faults s)) -> writes s -> writes s'.
Proof. unfold writes. intros (k & ->) H. rewrite <- (firstn_skipn k (faults s)) in H. apply Forall_app in H. apply H. Qed.
Lemma tl_skipn {A} (l : list A) : tl l = skipn 1 l. Proof. destruct l; reflexivity. Qed.
Lemma skipn_skipn' {A} a b : forall l : list A, skipn a (skipn b l) = skipn (b + a) l.
Proof. induction b as [|b IH]; intros l; [reflexivity|]. destruct l; [destruct a; reflexivity|]. cbn [skipn Nat.add]. apply IH. Qed.
Lemma makeDir_faults s p s' r : makeDir dbg s p = Ret s' r -> faults s' = tl (faults s).
Proof.
  unfold makeDir, mkdir, unexpected. destruct (failing s) as [e|]; [destruct e; try destruct dbg; try discriminate; intros H; injection H as <- <-; reflexivity|]. cbv zeta.
  destruct (lookup _ _ p); try destruct dbg; try discriminate; intros H; injection H as <- <-; reflexivity.
Qed.
Lemma makeDirs_faults fuel : forall s p s' r, makeDirs dbg fuel s p = Ret s' r -> exists k, faults s' = skipn k (faults s).
Proof.
  induction fuel as [|fuel IH]; intros s p s' r; cbn [makeDirs]; [discriminate|]. destruct (bytes_eqb p _); [intros H; injection H as <- <-; exists 0%nat; reflexivity|].
  destruct (exists_ dbg s p) as [s1 x|] eqn:E; [|discriminate]. destruct (exists_ok dbg s p s1 x E) as (-> & _). destruct x; try (intros H; injection H as <- <-; exists 0%nat; reflexivity).
  assert (MD : forall s1, (exists k, faults s1 = skipn k (faults s)) -> makeDir dbg s1 p = Ret s' r -> exists k, faults s' = skipn k (faults s)) by (intros s1 (k & Ek) H; rewrite (makeDir_faults _ _ _ _ H), Ek, tl_skipn, skipn_skipn'; eauto).
  destruct (split false p) as [[d f]|]; [|discriminate]. destruct (nonempty d && nonempty f); [|apply MD; exists 0%nat; reflexivity].
  destruct (makeDirs dbg fuel s d) as [s1 r1|] eqn:M; [|discriminate]. destruct (IH _ _ _ _ M) as (k & Ek). destruct r1; try (apply MD; eauto); intros H; injection H as <- <-; eauto.
Qed.

Theorem save_ok s p v s' r : placed s -> zlen p < 2 ^ 31 -> save dbg junk s p v = Ret s' r ->
  cwd s' = cwd s /\
  (r = Unchanged -> disk s' = disk s /\ trace s' = trace s /\ ((exists c, is_file s p c /\ v = firstn (Z.to_nat (zlen c mod 2 ^ 32)) c) \/ is_dir s p /\ v = junk)) /\
  (r = OK -> exists w, is_file s' p w /\ starts w v /\ (writes s -> w = v)) /\
  (r <> OK -> keeps (disk s) (disk s')) /\
  (forall l k, at_ (disk s) l = Some k -> ~ named s' p l -> at_ (disk s') l = Some k) /\
  (forall l, at_ (disk s) l = None -> at_ (disk s') l <> None -> r = OK /\ named s' p l \/ at_ (disk s') l = Some KDir /\ exists q, leads q p /\ named s' q l).
Proof.
  intros P Hp. unfold save. destruct (loadBinary dbg junk s p) as [s1 [er ex]|] eqn:Ld; [|discriminate].
  destruct (loadBinary_ok s p s1 er ex P Ld) as (C1 & D1 & T1 & F1 & O1 & N1 & N2). assert (P1 : placed s1) by (unfold placed in *; rewrite C1, D1; exact P).
  assert (Early : forall s2, disk s2 = disk s -> cwd s2 = cwd s -> r <> OK -> r <> Unchanged -> s' = s2 ->
    cwd s' = cwd s /\ (r = Unchanged -> disk s' = disk s /\ trace s' = trace s /\ ((exists c, is_file s p c /\ v = firstn (Z.to_nat (zlen c mod 2 ^ 32)) c) \/ is_dir s p /\ v = junk)) /\
  (r = OK -> exists w, is_file s' p w /\ starts w v /\ (writes s -> w = v)) /\ (r <> OK -> keeps (disk s) (disk s')) /\ (forall l k, at_ (disk s) l = Some k -> ~ named s' p l -> at_ (disk s') l = Some k) /\
  (forall l, at_ (disk s) l = None -> at_ (disk s') l <> None -> r = OK /\ named s' p l \/ at_ (disk s') l = Some KDir /\ exists q, leads q p /\ named s' q l)).
  { intros s2 D2 C2 R1 R2 ->. split; [exact C2|]. split; [congruence|]. split; [congruence|]. rewrite D2. split; [intros _; apply keeps_refl|]. split; [auto|]. congruence. }
  assert (Rest : match split false p with
      | None => Dead
      | Some (first, _) =>
        match makeDirs_ dbg s1 first with
        | Dead => Dead
        | Ret s OK | Ret s AlreadyExists =>
          match openForWrite dbg s p with
          | Dead => Dead
          | Ret s (OK, l) => Ret (fst (writeAll (faults s) s l [] v)) OK
          | Ret s (r, _) => Ret s r
          end
        | Ret s r => Ret s r
        end
      end = Ret s' r ->
    cwd s' = cwd s /\ (r = Unchanged -> disk s' = disk s /\ trace s' = trace s /\ ((exists c, is_file s p c /\ v = firstn (Z.to_nat (zlen c mod 2 ^ 32)) c) \/ is_dir s p /\ v = junk)) /\
  (r = OK -> exists w, is_file s' p w /\ starts w v /\ (writes s -> w = v)) /\ (r <> OK -> keeps (disk s) (disk s')) /\ (forall l k, at_ (disk s) l = Some k -> ~ named s' p l -> at_ (disk s') l = Some k) /\
  (forall l, at_ (disk s) l = None -> at_ (disk s') l <> None -> r = OK /\ named s' p l \/ at_ (disk s') l = Some KDir /\ exists q, leads q p /\ named s' q l)).
  { destruct (posix_split p Hp) as (dir & seps & file & -> & Ep & Ff & Nm & Fs & C). destruct (makeDirs_ dbg s1 dir) as [s2 mr|] eqn:Mk; [|discriminate].
    assert (Hd : zlen dir < 2 ^ 31) by (rewrite Ep in Hp; rewrite zlen_app in Hp; pose proof (zlen_nonneg (seps ++ file)); lia).
    destruct (makeDirs_ok dbg _ s1 dir s2 mr P1 Hd Mk) as (G & _ & _). pose proof (grew_placed _ _ _ G P1) as P2. destruct (makeDirs_faults _ _ _ _ _ Mk) as (k & Fk).
    assert (G' : grew s1 s2 p).
    { destruct C as [(-> & E)|[(_ & F)|(_ & Ns & _)]]; [|eapply grew_slashes; eassumption|].
      - assert (E2 : s2 = s1) by (unfold makeDirs_ in Mk; cbn in Mk; congruence). subst s2. apply grew_same; reflexivity.
      - eapply grew_more; [exact G| |apply grew_same; reflexivity|exact P2]. rewrite Ep. apply leads_dir; assumption. }
    clear G. destruct G' as (C2 & K2 & U2). rewrite D1 in K2, U2. rewrite C1 in C2.
    assert (Grown : forall s3 r0, disk s3 = disk s2 -> cwd s3 = cwd s2 -> r0 <> OK -> r0 <> Unchanged -> Ret s3 r0 = Ret s' r ->
      cwd s' = cwd s /\ (r = Unchanged -> disk s' = disk s /\ trace s' = trace s /\ ((exists c, is_file s p c /\ v = firstn (Z.to_nat (zlen c mod 2 ^ 32)) c) \/ is_dir s p /\ v = junk)) /\
      (r = OK -> exists w, is_file s' p w /\ starts w v /\ (writes s -> w = v)) /\ (r <> OK -> keeps (disk s) (disk s')) /\ (forall l k, at_ (disk s) l = Some k -> ~ named s' p l -> at_ (disk s') l = Some k) /\
      (forall l, at_ (disk s) l = None -> at_ (disk s') l <> None -> r = OK /\ named s' p l \/ at_ (disk s') l = Some KDir /\ exists q, leads q p /\ named s' q l)).
    { intros s3 r0 D3 C3 R1 R2 E. injection E as <- <-. split; [congruence|]. split; [congruence|]. split; [congruence|]. rewrite D3. split; [intros _; exact K2|]. split; [intros l k0 A _; apply K2, A|].
      intros l A B. right. destruct (U2 l A B) as (A' & q & Hq & Nq). split; [exact A'|]. exists q. split; [exact Hq|]. unfold named in *. rewrite D3, C3. exact Nq. }
    assert (Op : match openForWrite dbg s2 p with Dead => Dead | Ret s (OK, l) => Ret (fst (writeAll (faults s) s l [] v)) OK | Ret s (r, _) => Ret s r end = Ret s' r ->
      cwd s' = cwd s /\ (r = Unchanged -> disk s' = disk s /\ trace s' = trace s /\ ((exists c, is_file s p c /\ v = firstn (Z.to_nat (zlen c mod 2 ^ 32)) c) \/ is_dir s p /\ v = junk)) /\
      (r = OK -> exists w, is_file s' p w /\ starts w v /\ (writes s -> w = v)) /\ (r <> OK -> keeps (disk s) (disk s')) /\ (forall l k, at_ (disk s) l = Some k -> ~ named s' p l -> at_ (disk s') l = Some k) /\
      (forall l, at_ (disk s) l = None -> at_ (disk s') l <> None -> r = OK /\ named s' p l \/ at_ (disk s') l = Some KDir /\ exists q, leads q p /\ named s' q l)).
    { destruct (openForWrite dbg s2 p) as [s3 [r3 l3]|] eqn:Ow; [|discriminate]. destruct (openForWrite_ok s2 p s3 r3 l3 P2 Ow) as (C3 & H3).
      destruct r3; try contradiction; try (intros E; refine (Grown s3 _ H3 C3 _ _ E); discriminate). clear Grown.
      destruct H3 as (O3 & N3 & (n & d & -> & Ad) & Nk). destruct (writeAll (faults s3) s3 (n :: d) [] v) as (s4 & ok) eqn:Wr. cbn [fst]. intros E. injection E as <- <-.
      assert (A3 : at_ (disk s3) (n :: d) = Some (KFile [])) by (rewrite (O3 (n :: d)); destruct list_eq_dec; [reflexivity|congruence]).
      destruct (writeAll_ok (faults s3) s3 n d [] v s4 ok (at_up _ _ _ _ A3) A3 Wr) as (C4 & v1 & v2 & Ev & O4 & Ok & Okw). cbn [app] in O4.
      assert (N4 : named s4 p (n :: d)).
      { unfold named in *. rewrite C4, <- N3. symmetry. apply lookup_shape. intros q. rewrite (O4 q). destruct list_eq_dec as [->|]; [rewrite A3; reflexivity|reflexivity]. }
      pose proof (only_trans _ _ _ _ _ _ O3 O4) as O.
      split; [congruence|]. split; [discriminate|]. split.
      { intros _. exists v1. split; [exists (n :: d); split; [exact N4|rewrite (O4 (n :: d)); destruct list_eq_dec; [reflexivity|congruence]]|]. split; [exists v2; exact Ev|]. intros Wt. rewrite Ok in Ev; [rewrite app_nil_r in Ev; symmetry; exact Ev|]. apply Okw.
        assert (F3 : exists j, faults s3 = skipn j (faults s)).
        { assert (E3 : faults s3 = tl (faults s2)).
          { clear -Ow. unfold openForWrite in Ow. destruct (failing s2) as [e|]; [unfold unexpected in Ow; destruct e; try destruct dbg; try discriminate; injection Ow as <- _; reflexivity|]. cbv zeta in Ow.
            unfold unexpected in Ow. destruct (lookup _ _ p) as [l| | |]; [destruct (at_ _ l) as [[]|]| | |]; try destruct (trailing p); try destruct dbg; try discriminate; injection Ow as <- _; reflexivity. }
          exists (1 + k + 1)%nat. rewrite E3, Fk, F1, !tl_skipn, !skipn_skipn'. reflexivity. }
        apply (writes_tail s s3 F3 Wt). }
      split; [congruence|]. split.
      - intros l k0 A Hn. rewrite (O l). destruct list_eq_dec as [->|]; [contradiction|apply K2, A].
      - intros l A B. destruct (list_eq_dec (list_eq_dec Z.eq_dec) l (n :: d)) as [->|Nl]; [left; split; [reflexivity|exact N4]|]. right. rewrite (O l) in B |- *. destruct list_eq_dec; [contradiction|].
        destruct (U2 l A B) as (A' & q & Hq & Nq). split; [exact A'|]. exists q. split; [exact Hq|].
        unfold named in *. rewrite C4, C3. destruct (at_ (disk s2) (n :: d)) as [k0|] eqn:A2.
        + rewrite <- Nq. symmetry. apply lookup_shape. intros q0. rewrite (O q0). destruct list_eq_dec as [->|]; [rewrite A2; destruct k0; [reflexivity|congruence]|reflexivity].
        + apply (lookup_mono (disk s2)); [|exact Nq|congruence]. intros q0 k0 H0. rewrite (O q0). destruct list_eq_dec as [->|]; [congruence|exact H0]. }
    destruct mr; try (exact Op); intros E; (eapply Grown; [reflexivity|reflexivity| | |exact E]; try discriminate). exfalso.
    clear -Mk. unfold makeDirs_ in Mk. revert Mk. generalize (S (length dir)). intros fuel. revert s1 dir s2. induction fuel as [|fuel IH]; intros s1 dir s2; cbn [makeDirs]; [discriminate|].
    assert (Nu : forall s p s' , makeDir dbg s p <> Ret s' Unchanged) by (intros s p s' H; unfold makeDir, unexpected in H; destruct (mkdir s p) as (? & [[]|]); try destruct dbg; try discriminate).
    destruct (bytes_eqb dir _); [discriminate|]. destruct (exists_ dbg s1 dir) as [s3 x|]; [|discriminate]. destruct x; try discriminate. destruct (split false dir) as [[a b]|]; [|discriminate].
    destruct (nonempty a && nonempty b); [|intros H; exact (Nu _ _ _ H)]. destruct (makeDirs dbg fuel s3 a) as [s4 r4|] eqn:M4; [|discriminate]. destruct r4; try discriminate; try (intros H; exact (Nu _ _ _ H)). intros _. exact (IH _ _ _ M4). }
  destruct er; try congruence; try (intros E; injection E as <- <-; eapply Early; [exact D1|exact C1|discriminate|discriminate|reflexivity]).
  - exact Rest.
  - destruct (bytes_eqb_spec ex v) as [->|Ne]; [|exact Rest]. intros E. injection E as <- <-. split; [exact C1|]. split; [intros _; split; [exact D1|]; split; [exact T1|]; destruct (O1 eq_refl) as [(x & X1 & X2)|X]; [left; eauto|right; exact X]|].
    split; [discriminate|]. rewrite D1. split; [intros _; apply keeps_refl|]. split; [auto|congruence].
Qed.
End Save.
