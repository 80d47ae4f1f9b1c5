From Coq Require Import List ZArith Lia. Import ListNotations. Open Scope Z_scope.
From Coq Require Import ZifyBool ZifyNat.
From Verif Require Import Base LiquidModel LiquidSpec.

(* what the handler gets for a tag *)
Fixpoint doubled (t : list Z) : list Z :=
  match t with
  | [] => []
  | c :: t' => if c =? 37 then 37 :: hd 37 t' :: doubled t' else c :: doubled t'
  end.
Lemma inTag_ok t : forall rest got, never 37 62 t -> inTag (t ++ 37 :: 62 :: rest) got = Closed rest (got ++ doubled t).
Proof.
  induction t as [|c t IH]; intros rest got N; [cbn; rewrite app_nil_r; reflexivity|].
  assert (N' : never 37 62 t) by (destruct t; [exact I|apply N]). cbn [app inTag doubled]. destruct (Z.eqb_spec c 37) as [->|H].
  - destruct t as [|x t]; [cbn [app]; change (37 =? 62) with false; cbv iota; change (37 :: 62 :: rest) with ([] ++ 37 :: 62 :: rest); rewrite (IH rest (got ++ [37; 37]) I); cbn [doubled hd]; rewrite <- app_assoc; reflexivity|]. cbn [app hd]. destruct N as [N _].
    destruct (Z.eqb_spec x 62) as [->|]; [exfalso; apply N; split; reflexivity|]. change (x :: t ++ 37 :: 62 :: rest) with ((x :: t) ++ 37 :: 62 :: rest). rewrite IH by exact N'. rewrite <- app_assoc. reflexivity.
  - destruct (t ++ 37 :: 62 :: rest) eqn:E; [destruct t; discriminate|]. rewrite <- E, IH by exact N'. rewrite <- app_assoc. reflexivity.
Qed.
Lemma doubled_same t : ~ In 37 t -> doubled t = t.
Proof. induction t as [|c t IH]; intros H; [reflexivity|]. cbn [doubled]. destruct (Z.eqb_spec c 37) as [->|]; [exfalso; apply H; left; reflexivity|]. rewrite IH; [reflexivity|]. intros G. apply H. right. exact G. Qed.
Lemma doubled_length t : length (doubled t) = (length t + count_occ Z.eq_dec t 37%Z)%nat.
Proof. induction t as [|c t IH]; [reflexivity|]. cbn [doubled length count_occ]. destruct (Z.eqb_spec c 37), (Z.eq_dec c 37); cbn [length]; try contradiction; lia. Qed.
Lemma no_end t : ~ In 37 t -> never 37 62 t.
Proof. induction t as [|x [|y t] IH]; intros H; [exact I..|]. cbn [never]. split; [intros [-> _]; apply H; left; reflexivity|]. apply IH. intros G. apply H. right. exact G. Qed.

(* an unpaired "<" is left over *)
Definition odd_lt (s : list Z) : bool := fold_left (fun (p : bool) c => if p then false else c =? 60) s false.
Lemma trailing_app s c : trailing (s ++ [c]) = if c =? 60 then S (trailing s) else 0%nat.
Proof.
  induction s as [|x s IH]; [cbn [app trailing forallb]; rewrite (Z.eqb_sym 60 c); destruct (c =? 60); reflexivity|]. cbn [app trailing]. rewrite IH.
  cbn [forallb]. rewrite forallb_app. cbn [forallb length]. rewrite andb_true_r, app_length. cbn [length]. rewrite (Z.eqb_sym 60 c). destruct (c =? 60); [rewrite andb_true_r; destruct ((60 =? x) && forallb (Z.eqb 60) s)%bool; lia|]. rewrite !andb_false_r. reflexivity.
Qed.
Lemma odd_trailing s : odd_lt s = Nat.odd (trailing s).
Proof.
  induction s as [|c s IH] using rev_ind; [reflexivity|]. rewrite trailing_app. unfold odd_lt in *. rewrite fold_left_app. cbn [fold_left]. rewrite IH. destruct (c =? 60).
  - rewrite Nat.odd_succ, <- Nat.negb_odd. destruct (Nat.odd (trailing s)); reflexivity.
  - destruct (Nat.odd (trailing s)); reflexivity.
Qed.
Lemma outside_copied n : forall o rest fuel, (length o <= n)%nat -> never 60 37 o -> odd_lt o = false -> (length o <= fuel)%nat ->
  exists fuel', (fuel <= fuel' + length o)%nat /\ extractLoop fuel (o ++ rest) = write o (extractLoop fuel' rest).
Proof.
  induction n as [|n IH]; intros o rest fuel Hn N O Hf.
  { destruct o; [|cbn in Hn; lia]. exists fuel. split; [lia|]. cbn [app]. destruct (extractLoop fuel rest). reflexivity. }
  destruct o as [|c o]; [exists fuel; split; [cbn; lia|]; cbn [app]; destruct (extractLoop fuel rest); reflexivity|].
  destruct fuel as [|fuel]; [cbn in Hf; lia|]. cbn [length] in *. destruct (Z.eqb_spec c 60) as [->|H].
  - destruct o as [|x o]; [discriminate|]. cbn [app extractLoop]. change (60 =? 60) with true. cbv iota. destruct N as [N1 N2]. destruct (Z.eqb_spec x 37) as [->|]; [exfalso; apply N1; split; reflexivity|].
    assert (N3 : never 60 37 o) by (destruct o; [exact I|apply N2]). cbn [length] in *. destruct (IH o rest fuel ltac:(lia) N3 O ltac:(lia)) as (f & F & E). exists f. split; [lia|]. rewrite E. reflexivity.
  - cbn [app extractLoop]. rewrite (proj2 (Z.eqb_neq c 60) H). assert (N3 : never 60 37 o) by (destruct o; [exact I|apply N]). assert (O' : odd_lt o = false) by (unfold odd_lt in *; cbn [fold_left] in O; rewrite (proj2 (Z.eqb_neq c 60) H) in O; exact O).
    destruct (IH o rest fuel ltac:(lia) N3 O' ltac:(lia)) as (f & F & E). exists f. split; [lia|]. rewrite E. reflexivity.
Qed.
Lemma last_copied n : forall o fuel, (length o <= n)%nat -> never 60 37 o -> (length o <= fuel)%nat -> extractLoop fuel o = mkdone o [].
Proof.
  induction n as [|n IH]; intros o fuel Hn N Hf; [destruct o; [destruct fuel; reflexivity|cbn in Hn; lia]|].
  destruct o as [|c o]; [destruct fuel; reflexivity|]. destruct fuel as [|fuel]; [cbn in Hf; lia|]. cbn [length] in *. cbn [extractLoop]. destruct (c =? 60) eqn:H.
  - destruct o as [|x o]; [reflexivity|]. destruct N as [N1 N2]. destruct (Z.eqb_spec x 37) as [->|]; [exfalso; apply N1; split; [lia|reflexivity]|]. cbn [length] in *. rewrite IH by (first [lia | destruct o; [exact I|apply N2]]). reflexivity.
  - rewrite IH by (first [lia | destruct o; [exact I|apply N]]). reflexivity.
Qed.
Theorem extract_tags parts : forall last fuel, (length (render parts last) <= fuel)%nat -> Forall (fun p => before_tag (fst p) /\ never 37 62 (snd p)) parts -> never 60 37 last ->
  extractLoop fuel (render parts last) = mkdone (concat (map fst parts) ++ last) (map (fun p => ([60; 37] ++ snd p ++ [37; 62], doubled (snd p))) parts).
Proof.
  unfold render. induction parts as [|[o t] parts IH]; intros last fuel Hf P L; [cbn [map concat app] in *; apply (last_copied (length last)); [lia|exact L|lia]|].
  inversion P as [|p0 ps0 [[P1 P2] P3] P4]; subst. cbn [fst snd] in *. cbn [map concat] in *. rewrite <- !app_assoc. rewrite <- !app_assoc in Hf. set (rest := concat (map (fun '(o, t) => o ++ [60; 37] ++ t ++ [37; 62]) parts) ++ last) in *.
  assert (O : odd_lt o = false) by (rewrite odd_trailing, <- Nat.negb_even, P2; reflexivity).
  rewrite !app_length in Hf. cbn [length] in Hf. destruct (outside_copied (length o) o ([60; 37] ++ t ++ [37; 62] ++ rest) fuel (le_n _) P1 O ltac:(lia)) as (f & F & E). rewrite E. destruct f as [|f]; [lia|].
  cbn [app extractLoop]. change (60 =? 60) with true. change (37 =? 37) with true. cbv iota. destruct (t ++ 37 :: 62 :: rest) as [|x xs] eqn:Et; [destruct t; discriminate|]. rewrite <- Et, (inTag_ok t rest [] P3). cbn [app].
  pose proof (IH last f ltac:(fold rest; lia) P4 L) as IH'. fold rest in IH'. rewrite IH'. unfold write, call. cbn [written calls snd]. f_equal. f_equal. f_equal.
  replace (60 :: 37 :: t ++ 37 :: 62 :: rest) with ((60 :: 37 :: t ++ [37; 62]) ++ rest) by (cbn [app]; rewrite <- app_assoc; reflexivity). rewrite firstn_app, app_length. replace (_ + _ - _)%nat with (length (60 :: 37 :: t ++ [37; 62])) by (cbn [length]; lia). rewrite firstn_all, Nat.sub_diag. cbn [firstn]. rewrite app_nil_r. reflexivity.
Qed.
Theorem extract_right parts last : Forall (fun p => before_tag (fst p) /\ ~ In 37 (snd p)) parts -> never 60 37 last ->
  extractLiquidTags (render parts last) = mkdone (concat (map fst parts) ++ last) (map (fun p => ([60; 37] ++ snd p ++ [37; 62], snd p)) parts).
Proof.
  intros P L. unfold extractLiquidTags. rewrite extract_tags; [|lia| |exact L].
  - f_equal. apply map_ext_in. intros p H. rewrite Forall_forall in P. rewrite doubled_same by apply (P p H). reflexivity.
  - eapply Forall_impl; [|exact P]. intros p [A B]. split; [exact A|]. apply no_end, B.
Qed.
Theorem percent_doubled t : In 37 t -> never 37 62 t -> exists got, extractLiquidTags ([60; 37] ++ t ++ [37; 62]) = mkdone [] [([60; 37] ++ t ++ [37; 62], got)] /\ length got = (length t + count_occ Z.eq_dec t 37%Z)%nat /\ got <> t.
Proof.
  intros H N. exists (doubled t). split; [|split; [apply doubled_length|]].
  - unfold extractLiquidTags. pose proof (extract_tags [([], t)] [] (length (render [([], t)] [])) (le_n _)) as E. unfold render in E. cbn [map concat app fst snd] in E. rewrite !app_nil_r in E. apply E; [|exact I]. constructor; [|constructor]. split; [split; [exact I|reflexivity]|exact N].
  - intros E. pose proof (doubled_length t) as D. rewrite E in D. apply (count_occ_In Z.eq_dec) in H. lia.
Qed.
