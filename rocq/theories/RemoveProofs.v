(* Removing a directory tree. *)
From Coq Require Import Lia ZifyBool ZifyNat.
From Verif Require Import Base ListUpd StringViewProofs PathProofs FsModel FsSpec FsProofs FsSaveProofs WalkSpec WalkProofs.

(* ---- deleting from a tree ---- *)
Lemma assoc_del n m (es : list (name * tree)) : NoDup (map fst es) -> assoc m (delEntry n es) = if list_eq_dec Z.eq_dec m n then None else assoc m es.
Proof.
  induction es as [|(k, t) es IH]; intros N; cbn [delEntry assoc]; [destruct (list_eq_dec Z.eq_dec m n); reflexivity|]. cbn [map fst] in N. inversion N as [|x y N1 N2]; subst. destruct (bytes_eqb_spec k n) as [->|Hk].
  - destruct (list_eq_dec Z.eq_dec m n) as [->|Hm].
    + destruct (assoc n es) as [u|] eqn:A; [|reflexivity]. exfalso. apply N1. clear -A. induction es as [|(k, v) es IH]; cbn [assoc] in A; [discriminate|]. cbn [map fst]. destruct (bytes_eqb_spec k n) as [->|]; [left; reflexivity|right; apply IH, A].
    + destruct (bytes_eqb_spec n m); [congruence|reflexivity].
  - cbn [assoc]. rewrite IH by exact N2. destruct (list_eq_dec Z.eq_dec m n) as [->|Hm]; [destruct (bytes_eqb_spec k n); [contradiction|reflexivity]|reflexivity].
Qed.
Lemma assoc_set n u m (es : list (name * tree)) : assoc n es <> None -> assoc m (setEntry n u es) = if list_eq_dec Z.eq_dec m n then Some u else assoc m es.
Proof.
  induction es as [|(k, t) es IH]; cbn [setEntry assoc]; [congruence|]. intros H. destruct (bytes_eqb_spec k n) as [->|Hk]; cbn [assoc].
  - destruct (bytes_eqb_spec n m) as [E|Hm]; destruct (list_eq_dec Z.eq_dec m n) as [E'|E']; try reflexivity; congruence.
  - rewrite IH by exact H. destruct (bytes_eqb_spec k m) as [->|Hm]; [|reflexivity]. destruct (list_eq_dec Z.eq_dec m n); [contradiction|reflexivity].
Qed.
Lemma set_names n u (es : list (name * tree)) : assoc n es <> None -> map fst (setEntry n u es) = map fst es.
Proof. induction es as [|(k, t) es IH]; cbn [setEntry assoc]; [congruence|]. intros H. destruct (bytes_eqb_spec k n) as [->|Hk]; cbn [map fst]; [reflexivity|]. rewrite IH by exact H. reflexivity. Qed.
Lemma proper_dir es : proper (TDir es) <-> NoDup (map fst es) /\ Forall good (map fst es) /\ forall n u, assoc n es = Some u -> proper u.
Proof.
  split.
  - intros H. destruct (H [] es eq_refl) as (A & B). split; [exact A|]. split; [exact B|]. intros n u E. apply (proper_sub (TDir es) [n] u H). cbn [get]. rewrite E. reflexivity.
  - intros (A & B & C) l es' G. destruct l as [|n l]; cbn [get] in G; [injection G as <-; auto|]. destruct (assoc n es) as [u|] eqn:E; [|discriminate]. exact (C n u E l es' G).
Qed.
Lemma del_names n (es : list (name * tree)) : incl (map fst (delEntry n es)) (map fst es) /\ (NoDup (map fst es) -> NoDup (map fst (delEntry n es))).
Proof.
  induction es as [|(k, t) es (I & N)]; cbn [delEntry]; [split; [apply incl_refl|auto]|]. destruct (bytes_eqb_spec k n) as [->|Hk]; cbn [map fst].
  - split; [intros x Hx; right; exact Hx|]. intros H. inversion H; assumption.
  - split; [intros x [->|Hx]; [left; reflexivity|right; apply I, Hx]|]. intros H. inversion H; subst. constructor; [intros X; apply I in X; contradiction|auto].
Qed.
Lemma del_ok l : forall t n es, proper t -> get t l = Some (TDir es) -> assoc n es <> None ->
  proper (del t (l ++ [n])) /\ get (del t (l ++ [n])) l = Some (TDir (delEntry n es)) /\
  forall q, option_map kindOf (get (del t (l ++ [n])) q) = if list_eq_dec (list_eq_dec Z.eq_dec) (firstn (S (length l)) q) (l ++ [n]) then None else option_map kindOf (get t q).
Proof.
  induction l as [|m l IH]; intros t n es Pt G A.
  - cbn [get] in G. injection G as ->. apply proper_dir in Pt. destruct Pt as (P1 & P2 & P3). destruct (del_names n es) as (I & N). cbn [app del length]. split; [|split; [reflexivity|]].
    + apply proper_dir. split; [apply N, P1|]. split; [rewrite Forall_forall in *; intros x Hx; apply P2, I, Hx|]. intros k u E. rewrite assoc_del in E by exact P1. destruct (list_eq_dec Z.eq_dec k n); [discriminate|]. exact (P3 k u E).
    + intros [|k q]; [cbn [firstn get option_map kindOf]; destruct list_eq_dec; [discriminate|reflexivity]|]. cbn [firstn get]. rewrite assoc_del by exact P1. destruct (list_eq_dec Z.eq_dec k n) as [->|Hk].
      * destruct list_eq_dec; [reflexivity|congruence].
      * destruct list_eq_dec as [E|_]; [injection E as ->; congruence|reflexivity].
  - cbn [get] in G. destruct t as [c|es0]; [discriminate|]. destruct (assoc m es0) as [v|] eqn:Am; [|discriminate]. apply proper_dir in Pt. destruct Pt as (P1 & P2 & P3). destruct (IH v n es (P3 m v Am) G A) as (Q1 & Q2 & Q3).
    cbn [app del]. destruct (l ++ [n]) as [|x xs] eqn:Ex; [destruct l; discriminate|]. rewrite Am, <- Ex. rewrite <- Ex in Q1, Q2, Q3. assert (Nm : assoc m es0 <> None) by congruence. split; [|split].
    + apply proper_dir. rewrite set_names by exact Nm. split; [exact P1|]. split; [exact P2|]. intros k u E. rewrite assoc_set in E by exact Nm. destruct (list_eq_dec Z.eq_dec k m) as [Ek|]; [assert (u = del v (l ++ [n])) as -> by congruence; exact Q1|exact (P3 k u E)].
    + cbn [get]. rewrite assoc_set by exact Nm. destruct (list_eq_dec Z.eq_dec m m); [exact Q2|congruence].
    + intros [|k q]; [cbn [get firstn]; destruct list_eq_dec; [discriminate|reflexivity]|]. change (firstn (S (length (m :: l))) (k :: q)) with (k :: firstn (S (length l)) q). cbn [get]. rewrite assoc_set by exact Nm. destruct (list_eq_dec Z.eq_dec k m) as [->|Hk].
      * rewrite Q3, Am. repeat (match goal with |- context [list_eq_dec ?a ?b ?c] => destruct (list_eq_dec a b c) as [?E|?E] end); try reflexivity; exfalso; congruence.
      * destruct list_eq_dec as [E|_]; [injection E; congruence|reflexivity].
Qed.
(* ---- below ---- *)
Lemma below_dec (l q : list name) : {below l q} + {~ below l q}.
Proof.
  destruct (list_eq_dec (list_eq_dec Z.eq_dec) (skipn (length q - length l) q) l) as [E|E].
  - left. exists (firstn (length q - length l) q). transitivity (firstn (length q - length l) q ++ skipn (length q - length l) q); [symmetry; apply firstn_skipn|f_equal; exact E].
  - right. intros (x & ->). apply E. rewrite app_length, Nat.add_sub, skipn_app, skipn_all, Nat.sub_diag. reflexivity.
Qed.
Lemma below_refl l : below l l. Proof. exists []. reflexivity. Qed.
Lemma below_cons n l q : below (n :: l) q -> below l q.
Proof. intros (x & ->). exists (x ++ [n]). rewrite <- app_assoc. reflexivity. Qed.
Lemma firstn_rev_below (n : name) l q : firstn (S (length (rev l))) (rev q) = rev l ++ [n] <-> below (n :: l) q.
Proof.
  split.
  - intros E. exists (rev (skipn (S (length (rev l))) (rev q))). apply (f_equal (@rev name)) in E. rewrite rev_app_distr, rev_involutive in E. cbn [rev app] in E. rewrite <- E. rewrite <- rev_app_distr, firstn_skipn, rev_involutive. reflexivity.
  - intros (x & ->). rewrite rev_app_distr. cbn [rev]. rewrite firstn_app. replace (S (length (rev l))) with (length (rev l ++ [n])) by (rewrite app_length; cbn; lia). rewrite firstn_all, Nat.sub_diag, firstn_O, app_nil_r. reflexivity.
Qed.
Lemma del_at t n l es : proper t -> get t (rev l) = Some (TDir es) -> assoc n es <> None ->
  proper (del t (rev (n :: l))) /\ get (del t (rev (n :: l))) (rev l) = Some (TDir (delEntry n es)) /\
  (forall q, below (n :: l) q -> at_ (del t (rev (n :: l))) q = None) /\ (forall q, ~ below (n :: l) q -> at_ (del t (rev (n :: l))) q = at_ t q).
Proof.
  intros Pt G A. destruct (del_ok (rev l) t n es Pt G A) as (Q1 & Q2 & Q3). cbn [rev]. split; [exact Q1|]. split; [exact Q2|]. unfold at_. split; intros q B; rewrite Q3.
  - apply firstn_rev_below in B. destruct list_eq_dec; [reflexivity|contradiction].
  - destruct list_eq_dec as [E|_]; [|reflexivity]. apply firstn_rev_below in E. contradiction.
Qed.

(* ---- paths that stay valid while things below are removed ---- *)
Lemma follow_same t t' (ns : list name) : forall d l, ~ In [dot; dot] ns -> follow t d ns = Found l -> (forall q, (exists x, l = x ++ q) -> at_ t' q = at_ t q) -> follow t' d ns = Found l /\ exists x, l = x ++ d.
Proof.
  induction ns as [|n ns IH]; intros d l Nd F S; cbn [follow] in *.
  - injection F as <-. split; [reflexivity|]. exists []. reflexivity.
  - destruct (at_ t d) as [[c|]|] eqn:Ad; try discriminate. destruct (bytes_eqb n [dot]) eqn:E1.
    + destruct (IH d l ltac:(intros X; apply Nd; right; exact X) F S) as (F' & x & El). rewrite S by (exists x; exact El). rewrite Ad. split; [exact F'|]. exists x. exact El.
    + destruct (bytes_eqb_spec n [dot; dot]) as [->|N2]; [exfalso; apply Nd; left; reflexivity|].
      destruct (at_ t (@cons name n d)) as [k|] eqn:An; [|destruct ns; discriminate]. destruct (IH (@cons name n d) l ltac:(intros X; apply Nd; right; exact X) F S) as (F' & x & El).
      assert (Ed : l = (x ++ [n]) ++ d) by (rewrite El, <- app_assoc; reflexivity). rewrite S by (eexists; exact Ed). rewrite Ad. rewrite S by (exists x; exact El). rewrite An. split; [exact F'|]. eexists. exact Ed.
Qed.
Lemma not_strict {A} (l q : list A) x y : l = x ++ q -> q = y ++ l -> y = [].
Proof. intros E1 E2. apply (f_equal (@length A)) in E1, E2. rewrite app_length in *. destruct y; [reflexivity|cbn in *; lia]. Qed.
(** Two states that differ only strictly below a directory. *)
Definition same_above (l : list name) (s s' : fsst) : Prop := forall q, (forall x, q = x ++ l -> x = []) -> at_ (disk s') q = at_ (disk s) q.
Lemma named_same s s' p l : placed s -> direct p -> ~ below l (cwd s) -> cwd s' = cwd s -> named s p l -> same_above l s s' -> named s' p l.
Proof.
  intros Pl (D & _) B Ec Nm S. unfold named, lookup in *. destruct p as [|c p]; [discriminate|]. set (pp := c :: p) in *. rewrite Ec.
  assert (Sl : forall q, (exists x, l = x ++ q) -> at_ (disk s') q = at_ (disk s) q) by (intros q (x & Ex); apply S; intros y Ey; exact (not_strict l q x y Ex Ey)).
  destruct (follow (disk s) (startDir (cwd s) pp) (names posixSep pp)) as [l0| | |] eqn:F; try discriminate.
  assert (l0 = l) by (destruct (trailing pp); [destruct (at_ (disk s) l0) as [[]|]; congruence|congruence]). subst l0.
  assert (F' : follow (disk s') (startDir (cwd s) pp) (names posixSep pp) = Found l).
  { destruct D as [D|(ns & En & Nd & Rel)].
    - exact (proj1 (follow_same _ _ _ _ _ D F Sl)).
    - rewrite En in *. unfold startDir in *. subst pp. cbv beta iota in *. unfold posixSep in F at 1. unfold posixSep at 1. destruct (Z.eqb_spec c slash); [contradiction|]. cbn [follow] in *.
      rewrite S by (intros x Ex; exfalso; apply B; exists x; exact Ex). destruct (at_ (disk s) (cwd s)) as [[]|]; try discriminate. cbn in *. exact (proj1 (follow_same _ _ _ _ _ Nd F Sl)). }
  rewrite F'. destruct (trailing pp); [|reflexivity]. rewrite (Sl l) by (exists []; reflexivity). exact Nm.
Qed.

Lemma direct_child s p l (n : list Z) q : named s p l -> walkable p -> good n -> zlen p < 2 ^ 31 -> zlen n < 2 ^ 31 -> ~ below l (cwd s) -> joinAndNormalize false [p; n] = Some q -> direct q.
Proof.
  intros Nm W G Hp Hn B Ej. destruct (join_child p n W G Hp Hn) as (q' & Ej' & Nq & _ & _ & Ti & _ & Th). assert (q' = q) by congruence. subst q'. specialize (Th (cwd s)). rewrite <- (lookup_there s p l Nm) in Th.
  unfold there in Th. assert (Bs : ~ below l (startDir (cwd s) q) \/ startDir (cwd s) q = []) by (unfold startDir; destruct q as [|c q]; [left; exact B|]; destruct (posixSep c); [right; reflexivity|left; exact B]).
  unfold tidy in Ti. rewrite posix_names in Ti. unfold direct, downward. destruct Ti as [E|(u & ns & E & F & U)]; rewrite E in *.
  - exfalso. cbn [fold_left] in Th. unfold go in Th. destruct (list_eq_dec Z.eq_dec [dot] [dot]); [|congruence]. destruct Bs as [Bs|Bs]; [apply Bs; rewrite Th; exists [n]; reflexivity|rewrite Bs in Th; discriminate].
  - assert (Nns : ~ In [dot; dot] ns) by (intros X; rewrite Forall_forall in F; destruct (F _ X); congruence).
    assert (Lst : ns <> [] -> last (u ++ ns) [dot] <> [dot] /\ last (u ++ ns) [dot] <> [dot; dot]).
    { intros Hns. destruct (exists_last Hns) as (a & b & ->). rewrite app_assoc, last_last. rewrite Forall_forall in F. destruct (F b ltac:(apply in_or_app; right; left; reflexivity)). auto. }
    destruct U as [->|(-> & Fu)]; cbn [app] in *.
    + rewrite go_ordinary in Th by exact F. assert (Hns : ns <> []) by (intros ->; cbn [rev app] in Th; destruct Bs as [Bs|Bs]; [apply Bs; rewrite Th; exists [n]; reflexivity|rewrite Bs in Th; discriminate]).
      destruct (Lst Hns). auto.
    + cbn [fold_left] in Th. unfold go at 2 in Th. destruct (list_eq_dec Z.eq_dec [dot; dot] [dot]); [discriminate|]. destruct (list_eq_dec Z.eq_dec [dot; dot] [dot; dot]); [|congruence]. rewrite go_ordinary in Th by exact F.
      assert (Hns : ns <> []).
      { intros ->. cbn [rev app] in Th. destruct (startDir (cwd s) q) as [|y st]; cbn [tl] in Th; [discriminate|]. destruct Bs as [Bs|Bs]; [|discriminate]. apply Bs. rewrite Th. exists [y; n]. reflexivity. }
      destruct (Lst Hns) as (L1 & L2). split; [right; exists ns; split; [reflexivity|split; [exact Nns|]]|auto]. rewrite full_start in Fu. destruct q as [|c q]; [exact I|]. apply Z.eqb_neq. exact Fu.
Qed.

(* ---- removing ---- *)
Lemma del_cons es0 m k l : del (TDir es0) (m :: k :: l) = match assoc m es0 with Some v => TDir (setEntry m (del v (k :: l)) es0) | None => TDir es0 end.
Proof. reflexivity. Qed.
Lemma del_del l : forall t n es, l <> [] -> get t l = Some (TDir es) -> assoc n es <> None -> del (del t (l ++ [n])) l = del t l.
Proof.
  induction l as [|m l IH]; intros t n es Nl G A; [congruence|]. cbn [get] in G. destruct t as [c|es0]; [discriminate|]. destruct (assoc m es0) as [v|] eqn:Am; [|discriminate]. assert (Nm : assoc m es0 <> None) by congruence.
  assert (Ea : forall w, assoc m (setEntry m w es0) = Some w) by (intros w; rewrite assoc_set by exact Nm; destruct (list_eq_dec Z.eq_dec m m); congruence).
  destruct l as [|k l].
  - cbn [app del]. rewrite Am. f_equal. clear -Nm. induction es0 as [|(k, x) es0 IH]; cbn [setEntry delEntry assoc] in *; [congruence|]. destruct (bytes_eqb k m) eqn:E; cbn [delEntry]; rewrite E; [reflexivity|]. rewrite IH by exact Nm. reflexivity.
  - specialize (IH v n es ltac:(discriminate) G A). change (del (TDir es0) ((m :: k :: l) ++ [n])) with (match assoc m es0 with Some v => TDir (setEntry m (del v ((k :: l) ++ [n])) es0) | None => TDir es0 end). rewrite Am.
    set (w := del v ((k :: l) ++ [n])) in *. rewrite !del_cons, Ea, Am. f_equal.
    assert (S2 : forall a b (es1 : list (name * tree)), setEntry m a (setEntry m b es1) = setEntry m a es1).
    { intros a b. induction es1 as [|(x, y) es1 IHe]; cbn [setEntry]; [destruct (bytes_eqb_spec m m); [reflexivity|congruence]|]. destruct (bytes_eqb x m) eqn:E; cbn [setEntry]; rewrite E; [reflexivity|rewrite IHe; reflexivity]. }
    rewrite S2. f_equal. exact IH.
Qed.

Fixpoint depth (t : tree) : nat := match t with TFile _ => O | TDir es => S (fold_right (fun e m => Nat.max (depth (snd e)) m) O es) end.
Record reduced (l : list name) (s s' : fsst) : Prop := mkreduced {
  rcwd : cwd s' = cwd s; rproper : proper (disk s'); ronly : only_removed l (disk s) (disk s');
  rtrace : exists ts, trace s' = trace s ++ ts /\ Forall (only_removed l (disk s)) ts; rworks : works s -> works s' }.
Lemma only_refl l t : only_removed l t t.
Proof. split; auto. Qed.
Lemma only_trans l a b c : only_removed l a b -> only_removed l b c -> only_removed l a c.
Proof. intros (A1 & A2) (B1 & B2). split; [intros q H; rewrite B1, A1 by exact H; reflexivity|auto]. Qed.
Lemma only_up l n a b : only_removed (n :: l) a b -> only_removed l a b.
Proof. intros (A1 & A2). split; [|exact A2]. intros q H. apply A1. intros X. apply H. apply below_cons in X. exact X. Qed.
Lemma reduced_trans l a b c : reduced l a b -> reduced l b c -> reduced l a c.
Proof.
  intros [A1 A2 A3 (ta & A4 & A4') A5] [B1 B2 B3 (tb & B4 & B4') B5]. constructor; [congruence|exact B2|eapply only_trans; eassumption| |auto].
  exists (ta ++ tb). split; [rewrite B4, A4, app_assoc; reflexivity|]. apply Forall_app. split; [exact A4'|]. eapply Forall_impl; [|exact B4']. intros t. apply only_trans. exact A3.
Qed.
Lemma reduced_up l n a b : reduced (n :: l) a b -> reduced l a b.
Proof.
  intros [A1 A2 A3 (ta & A4 & A4') A5]. constructor; [exact A1|exact A2|eapply only_up; exact A3| |exact A5]. exists ta. split; [exact A4|]. eapply Forall_impl; [|exact A4']. intros t. apply only_up.
Qed.
Lemma pop_works s : works s -> works (pop s).
Proof. intros W. unfold works, pop in *. cbn. destruct W; [constructor|assumption]. Qed.
Lemma works_failing s : works s -> failing s = None.
Proof. intros W. unfold failing. destruct W as [|f fs ->]; reflexivity. Qed.
Lemma reduced_pop l s : proper (disk s) -> reduced l s (pop s).
Proof. intros P. constructor; [reflexivity|exact P|apply only_refl|exists []; split; [symmetry; apply app_nil_r|constructor]|apply pop_works]. Qed.
Lemma reduced_del n l s es : proper (disk s) -> get (disk s) (rev l) = Some (TDir es) -> assoc n es <> None ->
  reduced (n :: l) s (change (pop s) (del (disk s) (rev (n :: l)))).
Proof.
  intros P G A. destruct (del_at _ _ _ _ P G A) as (D1 & _ & D2 & D3). assert (O : only_removed (n :: l) (disk s) (del (disk s) (rev (n :: l)))).
  { split; [exact D3|]. intros q k H. destruct (below_dec (n :: l) q) as [B|B]; [rewrite D2 in H by exact B; discriminate|rewrite D3 in H by exact B; exact H]. }
  constructor; [reflexivity|exact D1|exact O| |exact (pop_works s)]. eexists. split; [reflexivity|]. constructor; [exact O|constructor].
Qed.

Section Remove.
Context (dbg : bool) (junk : list Z).
(** What a call on the directory at [l] may do. *)
Definition fair (l : list name) (s : fsst) (o : outcome fsresult) : Prop :=
  match o with
  | Dead => dbg = true /\ ~ works s
  | Ret s' r => reduced l s s' /\ (r = OK -> disk s' = del (disk s) (rev l)) /\ (works s -> r = OK)
  end.
Lemma unexpected_fair l s s1 : reduced l s s1 -> ~ works s -> fair l s (unexpected dbg s1 Unknown).
Proof. intros R W. unfold unexpected, fair. destruct dbg; [auto|]. split; [exact R|]. split; [discriminate|contradiction]. Qed.
Lemma rmdir_fair s p l : l <> [] -> placed s -> proper (disk s) -> named s p l -> direct p -> get (disk s) (rev l) = Some (TDir []) ->
  fair l s (let '(s, ok) := rmdir s p in if ok then Ret s OK else unexpected dbg s Unknown).
Proof.
  intros Nl Pl Pr Nm (_ & L1 & L2) G. unfold rmdir. destruct (failing s) eqn:F.
  - apply unexpected_fair; [apply reduced_pop, Pr|]. intros W. apply works_failing in W. congruence.
  - unfold named in Nm. change (disk (pop s)) with (disk s). change (cwd (pop s)) with (cwd s). rewrite Nm. destruct l as [|n l]; [congruence|]. rewrite G.
    assert (Ln : lastName p = last (names posixSep p) [dot]) by (unfold lastName; destruct (names posixSep p) as [|x xs] eqn:E; [cbn in L1; congruence|]; destruct (exists_last (l:=x :: xs) ltac:(discriminate)) as (a & b & ->); rewrite !last_last; reflexivity).
    rewrite Ln. destruct (bytes_eqb_spec (last (names posixSep p) [dot]) [dot]); [contradiction|]. destruct (bytes_eqb_spec (last (names posixSep p) [dot]) [dot; dot]); [contradiction|]. cbn [orb fair].
    cbn [rev] in G. rewrite get_app in G. destruct (get (disk s) (rev l)) as [[c|es]|] eqn:Gl; [cbn in G; discriminate| |discriminate]. cbn [get] in G.
    split; [|split; [reflexivity|reflexivity]]. apply (reduced_del n l s es Pr Gl). destruct (assoc n es); discriminate.
Qed.
Lemma placed_reduced l s s' : placed s -> ~ below l (cwd s) -> reduced l s s' -> placed s'.
Proof. intros P B [A1 _ (A3 & _) _ _]. unfold placed in *. rewrite A1, A3 by exact B. exact P. Qed.
Lemma depth_in es n u : In (n, u) es -> (depth u < depth (TDir es))%nat.
Proof. cbn [depth]. induction es as [|e es IH]; intros I; [contradiction|]. cbn [fold_right]. destruct I as [->|I]; [cbn [snd]; lia|]. specialize (IH I). lia. Qed.
Lemma remove_fair fuel : forall u s p l, (depth u <= fuel)%nat -> l <> [] -> placed s -> proper (disk s) -> ~ below l (cwd s) -> get (disk s) (rev l) = Some u -> isTDir u = true ->
  named s p l -> direct p -> walkable p -> zlen p + reach u < 2 ^ 31 -> fair l s (removeDirTree dbg junk fuel s p).
Proof.
  induction fuel as [|fuel IH]; intros u s p l D Nl Pl Pr B G Du Nm Di W Le; (destruct u as [c|es]; [discriminate|]); [cbn [depth] in D; lia|]. cbn [removeDirTree]. unfold entries. unfold named in Nm. rewrite Nm, G.
  clear Du. change (named s p l) in Nm. revert s Pl Pr B G Nm D Le. induction es as [|(n, u) es IHe]; intros s Pl Pr B G Nm D Le; cbn [removeEntries].
  - apply (rmdir_fair s p l); assumption.
  - destruct (Pr _ _ G) as (Nd & Go). assert (I1 : In (n, u) ((n, u) :: es)) by (left; reflexivity). pose proof (get_child _ _ _ _ _ G Nd I1) as Gc. pose proof (reach_in _ _ _ I1) as R. pose proof (depth_in _ _ _ I1) as Dd. pose proof (reach_nonneg u) as Ru. pose proof (zlen_nonneg p). pose proof (zlen_nonneg n).
    assert (Gn : good n) by (inversion Go; assumption). assert (An : assoc n ((n, u) :: es) <> None) by (cbn [assoc]; destruct (bytes_eqb_spec n n); congruence).
    assert (Ac : at_ (disk s) (@cons name n l) = Some (kindOf u)) by (unfold at_; rewrite Gc; reflexivity).
    destruct (child s p l n (kindOf u) Pl W Gn ltac:(lia) ltac:(lia) Nm Ac) as (q & Ej & Wq & Lq & Tq & Nq). pose proof (direct_child s p l n q Nm W Gn ltac:(lia) ltac:(lia) B Ej) as Dq.
    assert (Ej' : joinAndNormalize false (@cons (list Z) p (@cons name n (@nil name))) = Some q) by exact Ej. unfold listOne. cbv beta iota. rewrite Ej'. unfold named in Nq. rewrite Nq. cbn [ename isDir]. rewrite Ej'. change (named s q (n :: l)) in Nq.
    assert (Bn : ~ below (n :: l) (cwd s)) by (intros X; apply B; apply below_cons in X; exact X).
    assert (Step : forall s1, reduced (n :: l) s s1 -> disk s1 = del (disk s) (rev (n :: l)) -> fair l s (removeEntries dbg junk (removeDirTree dbg junk fuel) p es s1)).
    { intros s1 R1 E1. destruct (del_at _ _ _ _ Pr G An) as (D1 & D2 & D3 & D4). cbn [delEntry] in D2. destruct (bytes_eqb_spec n n); [|congruence]. pose proof (reduced_up _ _ _ _ R1) as R1'. assert (Pl1 : placed s1) by (eapply placed_reduced; [exact Pl|exact B|exact R1']).
      assert (Nm1 : named s1 p l).
      { apply (named_same s s1 p l Pl Di B (rcwd _ _ _ R1) Nm). intros q' Hq. rewrite E1. apply D4. intros (x & Ex). specialize (Hq (x ++ [n])). rewrite <- app_assoc in Hq. specialize (Hq Ex). apply app_eq_nil in Hq. destruct Hq. discriminate. }
      assert (F1 : fair l s1 (removeEntries dbg junk (removeDirTree dbg junk fuel) p es s1)).
      { apply IHe; [exact Pl1|rewrite E1; exact D1|rewrite (rcwd _ _ _ R1); exact B|rewrite E1; exact D2|exact Nm1| |].
        - cbn [depth fold_right snd] in *. lia.
        - cbn [reach fold_right fst snd] in *. lia. }
      unfold fair in *. destruct (removeEntries dbg junk (removeDirTree dbg junk fuel) p es s1) as [s2 r2|].
      - destruct F1 as (F1 & F2 & F3). split; [eapply reduced_trans; eassumption|]. split; [|intros Ws; apply F3, (rworks _ _ _ R1), Ws]. intros Er. rewrite (F2 Er), E1. cbn [rev]. apply (del_del (rev l) (disk s) n ((n, u) :: es)); [|exact G|exact An]. intros X. apply Nl. apply (f_equal (@rev name)) in X. rewrite rev_involutive in X. exact X.
      - destruct F1 as (F1 & F2). split; [exact F1|]. intros Ws. apply F2, (rworks _ _ _ R1), Ws. }
    destruct (isTDir u) eqn:Du.
    + assert (F1 : fair (n :: l) s (removeDirTree dbg junk fuel s q)) by (apply (IH u); [lia|discriminate|assumption|assumption|exact Bn|exact Gc|exact Du|exact Nq|exact Dq|exact Wq|lia]).
      unfold fair in F1. destruct (removeDirTree dbg junk fuel s q) as [s1 r1|]; [|exact F1]. destruct F1 as (R1 & E1 & W1). destruct r1; try (apply Step; [exact R1|exact (E1 eq_refl)]); (split; [eapply reduced_up; exact R1|]; split; [discriminate|intros Ws; discriminate (W1 Ws)]).
    + destruct u as [c|]; [|discriminate]. unfold unlink. destruct (failing s) eqn:F.
      * apply unexpected_fair; [apply reduced_pop, Pr|]. intros Ws. apply works_failing in Ws. congruence.
      * change (disk (pop s)) with (disk s). change (cwd (pop s)) with (cwd s). unfold named in Nq. rewrite Nq. rewrite Ac. cbn [kindOf]. apply Step; [|reflexivity]. apply (reduced_del n l s _ Pr G An).
Qed.
Theorem remove_ok s p l es : placed s -> proper (disk s) -> l <> [] -> ~ below l (cwd s) -> named s p l -> get (disk s) (rev l) = Some (TDir es) -> direct p -> walkable p -> zlen p + reach (TDir es) < 2 ^ 31 ->
  exists k, forall fuel, (k <= fuel)%nat ->
  match removeDirTree dbg junk fuel s p with
  | Dead => dbg = true /\ ~ works s
  | Ret s' r =>
    cwd s' = cwd s /\ only_removed l (disk s) (disk s') /\ (exists ts, trace s' = trace s ++ ts /\ Forall (only_removed l (disk s)) ts) /\
    (r = OK -> forall q, below l q -> at_ (disk s') q = None) /\ (works s -> r = OK)
  end.
Proof.
  intros Pl Pr Nl B Nm G Di W Le. exists (depth (TDir es)). intros fuel Hf. pose proof (remove_fair fuel (TDir es) s p l Hf Nl Pl Pr B G eq_refl Nm Di W Le) as F. unfold fair in F. destruct (removeDirTree dbg junk fuel s p) as [s' r|]; [|exact F].
  destruct F as ([A1 A2 A3 A4 A5] & F2 & F3). split; [exact A1|]. split; [exact A3|]. split; [exact A4|]. split; [|exact F3]. intros Er. rewrite (F2 Er). destruct l as [|n l]; [congruence|].
  cbn [rev] in G. rewrite get_app in G. destruct (get (disk s) (rev l)) as [[c|es']|] eqn:Gl; [cbn in G; discriminate| |discriminate]. cbn [get] in G. assert (An : assoc n es' <> None) by (destruct (assoc n es'); discriminate). exact (proj1 (proj2 (proj2 (del_at _ _ _ _ Pr Gl An)))).
Qed.
End Remove.

(* ---- trees given by literals ---- *)
Ltac prove_proper := repeat (apply proper_dir; cbn [map fst]; split; [repeat constructor; cbn; intuition discriminate|]; split; [repeat constructor; cbn; intuition discriminate|];
  let n := fresh in let u := fresh in let E := fresh in intros n u E; cbn [assoc] in E; repeat (destruct (bytes_eqb _ n) in E; [injection E as <-|]); try discriminate).
Lemma file_proper c : proper (TFile c).
Proof. intros [|n l] es H; discriminate. Qed.
