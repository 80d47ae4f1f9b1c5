(* Proofs about which objects can be saved. *)
From Coq Require Import Lia ZifyBool ZifyNat.
From Verif Require Import PersistModel PersistSpec PersistSchema PersistWriteProofs PersistReadProofs PersistProofs.
Local Notation length := List.length.
Local Notation "'do' x <- a ; b" := (match a with Some x => b | None => None end) (at level 200, x pattern, a at level 100, b at level 200).

(* ================ the schema ================ *)
Section Schema.
Context (env : list tdesc).
Definition addS (fuel : nat) : Prop := forall i c opened v seen', walk env opened (types c) (v, PUser i) seen' -> ~ In i (types c) -> fine env (types c) ->
  (length env < fuel + length (types c))%nat -> exists c', addFormat fuel env i c = Some c' /\ types c' = seen'.
Lemma childS fuel : addS fuel -> forall t c opened v seen', walk env opened (types c) (v, t) seen' -> fine env (types c) ->
  (length env < fuel + length (types c))%nat -> exists c', childFormat (addFormat fuel env) t c = Some c' /\ types c' = seen'.
Proof.
  intros IH t c opened v seen' W F L. destruct t as [k| |i]; cbn [childFormat]; try (inversion W; subst; eexists; split; reflexivity).
  destruct (in_dec Nat.eq_dec i (types c)) as [X|X].
  - destruct (indexOf_in i (types c) X) as (j & E1 & E2). rewrite E1. inversion W; subst; [|contradiction]. eexists. split; reflexivity.
  - rewrite (indexOf_out _ _ X). eapply IH; eauto.
Qed.
Lemma walk_len opened seen x seen' : walk env opened seen x seen' -> (length seen <= length seen')%nat.
Proof. intros H. destruct (proj1 (proj1 (walk_ext env) _ _ _ _ H)) as [m ->]. rewrite app_length. lia. Qed.
Lemma walks_len opened seen x seen' : walks env opened seen x seen' -> (length seen <= length seen')%nat.
Proof. intros H. destruct (proj1 (proj2 (walk_ext env) _ _ _ _ H)) as [m ->]. rewrite app_length. lia. Qed.
Lemma eachS fuel : addS fuel -> forall v ms c opened seen', walks env opened (types c) (map (fun m => (v, snd m)) ms) seen' -> fine env (types c) ->
  (length env < fuel + length (types c))%nat -> exists c', each (named (addFormat fuel env)) ms c = Some c' /\ types c' = seen'.
Proof.
  intros IH v ms. induction ms as [|[n t] ms IHms]; intros c opened seen' W F L; cbn [each map] in *; inversion W as [|? ? ? ? seen1 ? W1 W2]; subst.
  - exists c. split; reflexivity.
  - cbn [snd] in W1. destruct (childS fuel IH t (emitS (boxed n) c) opened v seen1 W1 F L) as (c1 & A & B). unfold named at 1. cbn [fst snd]. rewrite A. subst seen1.
    apply (IHms c1 opened seen' W2); [eapply walk_fine; eauto|]. pose proof (walk_len _ _ _ _ W1). cbn [emitS types] in *. lia.
Qed.
Lemma addS_all fuel : addS fuel.
Proof.
  induction fuel as [|fuel IH]; intros i c opened v seen' W X F L.
  - pose proof (fine_len env _ F). lia.
  - cbn [addFormat]. inversion W as [| |? ? ? ? W1 W2|? ? ? ? d ? W1 W2 W3 W4]; subst; [contradiction|]. rewrite W2.
    assert (F1 : fine env (types c ++ [i])).
    { destruct F as [A B]. split; [now apply NoDup_snoc|]. apply Forall_app. split; [exact B|]. constructor; [|constructor]. apply nth_error_Some. now rewrite W2. }
    assert (L1 : (length env < fuel + length (types c ++ [i]))%nat) by (rewrite app_length; cbn; lia).
    destruct d as [n t|t|t|t|name ps ms|name n ids|t e|name ss]; cbn [refers] in W4.
    1-4: inversion W4 as [|? ? ? ? seen1 ? V1 V2]; subst; inversion V2; subst; eapply childS; eauto.
    + destruct W3 as (K1 & K2 & K3 & _). replace ((zlen ps <=? 65535) && (zlen ms <=? 65535)) with true by lia.
      assert (V : exists seen1, walks env (i :: opened) (types c ++ [i]) (map (fun p => (false, snd p)) ps) seen1 /\ walks env (i :: opened) seen1 (map (fun m => (true, snd m)) ms) seen').
      { clear - W4. set (l := types c ++ [i]) in *. clearbody l. revert l W4. induction ps as [|p ps IH]; intros l W; cbn [map app] in W.
        - exists l. split; [constructor|exact W].
        - inversion W as [|? ? ? ? seen1 ? V1 V2]; subst. destruct (IH _ V2) as (s2 & A & B). exists s2. split; [econstructor; eauto|exact B]. }
      destruct V as (seen1 & V1 & V2).
      destruct (eachS fuel IH false ps (emitS (20 :: boxed name ++ le 2 (zlen ps) ++ le 2 (zlen ms)) (mkf (types c ++ [i]) (schema c))) _ _ V1 F1 L1) as (c1 & A & B). rewrite A. subst seen1.
      eapply eachS; eauto; [eapply walks_fine; eauto|]. pose proof (walks_len _ _ _ _ V1). lia.
    + inversion W4; subst. eexists. split; reflexivity.
    + inversion W4 as [|? ? ? ? seen1 ? V1 V2]; subst. inversion V2 as [|? ? ? ? seen2 ? V3 V4]; subst. inversion V4; subst.
      destruct (childS fuel IH t (emitS [22] (mkf (types c ++ [i]) (schema c))) _ _ _ V1 F1 L1) as (c1 & A & B). rewrite A. subst seen1.
      eapply childS; eauto; [eapply walk_fine; eauto|]. pose proof (walk_len _ _ _ _ V1). lia.
    + destruct W3 as (K1 & K2 & _). replace (zlen ss <=? 65535) with true by lia.
      set (ms := map (fun s => (fst s, PUser (snd s))) ss).
      assert (EE : forall c0, each (fun s => named (addFormat fuel env) (fst s, PUser (snd s))) ss c0 = each (named (addFormat fuel env)) ms c0).
      { unfold ms. clear. induction ss as [|s ss IH]; intros c0; [reflexivity|]. cbn [each map]. destruct (named _ _ c0); [apply IH|reflexivity]. }
      rewrite EE. eapply (eachS fuel IH true ms); eauto. unfold ms. rewrite map_map. exact W4.
Qed.
Lemma addFormat_ok i : types_ok env (PUser i) -> exists c, addFormat (S (length env)) env i (mkf [] []) = Some c.
Proof.
  intros [_ [seen W]]. destruct (addS_all (S (length env)) i (mkf [] []) [] true seen W) as (c & A & _); [intros []|split; constructor|cbn; lia|]. now exists c.
Qed.
End Schema.

(* ================ pointers ================ *)
Definition inOrder (os : list entry) : Prop := map snd (filter linked os) = map Some (zseq 0 (length (filter linked os))).
Lemma linkTable_ok2 os : forall n, map snd (filter linked os) = map Some (zseq n (length (filter linked os))) -> exists tb, linkTable os n = Some tb.
Proof.
  induction os as [|[[[a u] o] [i|]] os IH]; intros n H; [exists []; reflexivity| |].
  - cbn in H. injection H as -> H. destruct (IH _ H) as [tb E]. exists (le 4 o ++ tb). cbn [linkTable]. now rewrite Z.eqb_refl, E.
  - destruct (IH _ H) as [tb E]. exists tb. exact E.
Qed.
Lemma findOwned_split os a u x : findOwned os a = Some (u, x) -> exists o1 o o2, os = o1 ++ (a, u, o, x) :: o2 /\ ~ In a (map addr o1).
Proof.
  induction os as [|[[[b t] o] y] os IH]; intros H; [discriminate|]. cbn [findOwned] in H. destruct (Z.eqb_spec b a) as [->|Q].
  - injection H as -> ->. exists [], o, os. split; [reflexivity|intros []].
  - destruct (IH H) as (o1 & o' & o2 & -> & K). exists ((b, t, o, y) :: o1), o', o2. split; [reflexivity|]. intros [F|F]; [now elim Q|contradiction].
Qed.
Lemma setLink_split a u o x o2 i : forall o1, ~ In a (map addr o1) -> setLink (o1 ++ (a, u, o, x) :: o2) a i = o1 ++ (a, u, o, Some i) :: o2.
Proof.
  induction o1 as [|[[[b t] o'] y] o1 IH]; intros H; cbn [app setLink]; [now rewrite Z.eqb_refl|]. destruct (Z.eqb_spec b a) as [->|Q]; [elim H; now left|].
  rewrite IH; [reflexivity|]. intros F. apply H. now right.
Qed.
Lemma marks_split ps : forall o m1 a u x m2 b t y m3, marks o ps = m1 ++ (a, u, x) :: m2 ++ (b, t, y) :: m3 -> exists l1 l2 l3, ps = l1 ++ Object a u :: l2 ++ Object b t :: l3.
Proof.
  assert (G : forall ps o m1 a u x m2, marks o ps = m1 ++ (a, u, x) :: m2 -> exists l1 l2, ps = l1 ++ Object a u :: l2 /\ marks (o + widths l1 + 0) l2 = m2).
  { clear. induction ps as [|p ps IH]; intros o m1 a u x m2 H; [destruct m1; discriminate|]. cbn [marks] in H. destruct p as [l|c t|c t].
    - cbn [app] in H. destruct (IH _ _ _ _ _ _ H) as (l1 & l2 & -> & E). exists (Bytes l :: l1), l2. split; [reflexivity|]. rewrite widths_cons. rewrite <- E. f_equal. lia.
    - cbn [app] in H. destruct (IH _ _ _ _ _ _ H) as (l1 & l2 & -> & E). exists (Pointer c t :: l1), l2. split; [reflexivity|]. rewrite widths_cons. rewrite <- E. f_equal. lia.
    - cbn [app width] in H. destruct m1 as [|e m1]; cbn [app] in H; injection H.
      + intros E -> -> ->. exists [], ps. split; [reflexivity|]. cbn [widths fold_right]. rewrite <- E. f_equal. lia.
      + intros E _. destruct (IH _ _ _ _ _ _ E) as (l1 & l2 & -> & E'). exists (Object c t :: l1), l2. split; [reflexivity|]. rewrite widths_cons. rewrite <- E'. f_equal. cbn [width]. lia. }
  intros o m1 a u x m2 b t y m3 H. destruct (G _ _ _ _ _ _ _ H) as (l1 & l2 & -> & E). destruct (G _ _ _ _ _ _ _ E) as (l2' & l3 & -> & _). exists l1, l2', l3. reflexivity.
Qed.
Section Resolve.
Context (ps : list piece) (ND : NoDup (objs ps)) (OR : ordered ps) (TY : forall a u, In (Pointer a u) ps -> In (Object a u) ps).
Lemma resolve_step qs : forall pre os L, ps = pre ++ qs -> map fst os = marks 4 ps -> inOrder os -> zlen L = 4 + widths pre ->
  (forall a, lk os a = true <-> pointed pre a) ->
  exists os' l', each resolve1 (holes (4 + widths pre) qs) (os, zlen (filter linked os), L ++ bytes0 qs) = Some (os', zlen (filter linked os'), l') /\ inOrder os'.
Proof.
  induction qs as [|q qs IH]; intros pre os L E M I LL P.
  - exists os, (L ++ bytes0 []). split; [reflexivity|exact I].
  - assert (E' : ps = (pre ++ [q]) ++ qs) by (rewrite <- app_assoc; exact E).
    assert (W : 4 + widths (pre ++ [q]) = 4 + widths pre + width q) by (rewrite widths_app, widths_cons; cbn [widths fold_right]; lia).
    destruct q as [l|a t|a t]; cbn [holes app] in *.
    + destruct (IH (pre ++ [Bytes l]) os (L ++ l) E' M I) as (os' & l' & A & B); [rewrite zlen_app, W; cbn [width]; lia| |].
      { intros a. rewrite P. split; intros [u Hu]; exists u; [apply in_or_app; now left|]. apply in_app_or in Hu. destruct Hu as [Hu|[Hu|[]]]; [exact Hu|discriminate]. }
      exists os', l'. split; [|exact B]. rewrite W in A. cbn [bytes0 flat_map]. rewrite app_assoc. exact A.
    + assert (NA : NoDup (map addr os)).
      { assert (Q : map addr os = objs ps) by (rewrite <- (marks_objs 4), <- M, map_map; reflexivity). rewrite Q. exact ND. }
      assert (HF : exists x, findOwned os a = Some (t, x)).
      { assert (In (Object a t) ps) as Ho by (apply TY; rewrite E; apply in_or_app; right; now left).
        assert (exists o, In (a, t, o) (marks 4 ps)) as [o Ho'].
        { clear - Ho. revert Ho. generalize 4. induction ps as [|p l IH]; intros z Ho; [elim Ho|]. cbn [marks]. destruct Ho as [->|Ho]; [exists z; now left|]. destruct (IH (z + width p) Ho) as [o Q]. exists o. apply in_or_app. now right. }
        rewrite <- M in Ho'. apply in_map_iff in Ho'. destruct Ho' as (e & E1 & E2). pose proof (findOwned_in _ _ NA E2) as Q. unfold addr in Q. rewrite E1 in Q. cbn [fst snd] in Q. eauto. }
      destruct HF as [x HF]. cbn [each]. unfold resolve1 at 1.
      assert (LE : 4 + widths pre + 4 <= zlen (L ++ bytes0 (Pointer a t :: qs))).
      { rewrite zlen_app. cbn [bytes0 flat_map]. rewrite zlen_app, le_zlen. pose proof (zlen_pos (bytes0 qs)). unfold bytes0 in *. lia. }
      replace (4 + widths pre + 4 <=? zlen (L ++ bytes0 (Pointer a t :: qs))) with true by lia. rewrite HF, tptr_eqb_refl.
      cbn [bytes0 flat_map]. fold (bytes0 qs).
      assert (PW : 4 + widths (pre ++ [Pointer a t]) = zlen (L ++ le 4 0)) by (rewrite W, zlen_app, le_zlen; cbn [width]; lia).
      destruct x as [i|].
      * rewrite patch_app by exact LL.
        destruct (IH (pre ++ [Pointer a t]) os (L ++ le 4 i) E' M I) as (os' & l' & A & B); [rewrite zlen_app, le_zlen, W; cbn [width]; lia| |].
        { intros b. rewrite P. split; intros [u Hu]; [exists u; apply in_or_app; now left|]. apply in_app_or in Hu. destruct Hu as [Hu|[Hu|[]]]; [now exists u|].
          injection Hu as <- <-. apply P. unfold lk, look. now rewrite HF. }
        exists os', l'. split; [|exact B]. rewrite W in A. cbn [width] in A. rewrite <- app_assoc in A. exact A.
      * rewrite patch_app by exact LL.
        destruct (findOwned_split _ _ _ _ HF) as (o1 & o & o2 & EO & NI). rewrite EO in *. rewrite setLink_split by exact NI.
        assert (NL : filter linked o2 = []).
        { destruct (filter linked o2) as [|e f] eqn:EF; [reflexivity|exfalso]. assert (He : In e o2 /\ linked e = true) by (apply filter_In; rewrite EF; now left). destruct He as [He1 He2].
          assert (Kb : lk (o1 ++ (a, t, o, None) :: o2) (addr e) = true) by (rewrite <- (linked_lk _ e NA); [exact He2|apply in_or_app; right; now right]).
          apply P in Kb. destruct Kb as [w Hw]. apply in_split in Hw. destruct Hw as (r1 & r2 & ->).
          apply in_split in He1. destruct He1 as (f1 & f2 & ->). destruct e as [[[b u] y] z]. cbn [addr fst] in *.
          rewrite map_app in M. cbn [map fst] in M. rewrite map_app in M. cbn [map fst] in M. symmetry in M. destruct (marks_split _ _ _ _ _ _ _ _ _ _ _ M) as (l1 & l2 & l3 & E3).
          destruct (OR l1 a t l2 b u l3 E3) with (l := r1) (x := w) (r := r2 ++ Pointer a t :: qs) as [y' Hy].
          - exists t. rewrite E. apply in_or_app. right. now left.
          - rewrite E. rewrite <- app_assoc. reflexivity.
          - assert (K : lk (o1 ++ (a, t, o, None) :: f1 ++ (b, u, y, z) :: f2) a = true) by (apply P; exists y'; apply in_or_app; now left).
            unfold lk, look in K. rewrite HF in K. discriminate. }
        set (n := zlen (filter linked (o1 ++ (a, t, o, None) :: o2))). set (os1 := o1 ++ (a, t, o, Some n) :: o2).
        assert (N1 : n = zlen (filter linked o1)) by (unfold n; rewrite filter_app; cbn [filter]; change (linked (a, t, o, None)) with false; cbv iota; rewrite NL, app_nil_r; reflexivity).
        assert (F1 : filter linked os1 = filter linked o1 ++ [(a, t, o, Some n)]) by (unfold os1; rewrite filter_app; cbn [filter]; change (linked (a, t, o, Some n)) with true; cbv iota; now rewrite NL).
        assert (N2 : n + 1 = zlen (filter linked os1)) by (rewrite F1, zlen_app, N1; unfold zlen at 3; cbn; lia). rewrite N2.
        destruct (IH (pre ++ [Pointer a t]) os1 (L ++ le 4 n) E') as (os' & l' & A & B).
        -- rewrite <- M. unfold os1. rewrite !map_app. reflexivity.
        -- unfold inOrder in *. rewrite filter_app in I. cbn [filter] in I. change (linked (a, t, o, None)) with false in I. cbv iota in I. rewrite NL, app_nil_r in I.
           rewrite F1, map_app, I, app_length, zseq_app, map_app. cbn [map List.length zseq snd]. rewrite N1. reflexivity.
        -- rewrite zlen_app, le_zlen, W. cbn [width]. lia.
        -- intros b. assert (LB : lk os1 b = true <-> b = a \/ lk (o1 ++ (a, t, o, None) :: o2) b = true).
           { unfold lk, look. destruct (Z.eq_dec b a) as [->|Q].
             - split; [now left|]. intros _. unfold os1. clearbody n. clear - NI. induction o1 as [|[[[c t'] o'] y] o1 IH]; cbn [app findOwned]; [now rewrite Z.eqb_refl|].
               destruct (Z.eqb_spec c a) as [->|Q]; [elim NI; now left|]. apply IH. intros F. apply NI. now right.
             - assert (SE : findOwned os1 b = findOwned (o1 ++ (a, t, o, None) :: o2) b).
               { unfold os1. clearbody n. clear - Q. induction o1 as [|[[[c t'] o'] y] o1 IH]; cbn [app findOwned]; [destruct (Z.eqb_spec a b); [congruence|reflexivity]|]. now rewrite IH. }
               rewrite SE. tauto. }
           rewrite LB, P. split.
           ++ intros [->|[u Hu]]; [exists t; apply in_or_app; right; now left|exists u; apply in_or_app; now left].
           ++ intros [u Hu]. apply in_app_or in Hu. destruct Hu as [Hu|[Hu|[]]]; [right; now exists u|]. left. congruence.
        -- exists os', l'. split; [|exact B]. rewrite W in A. cbn [width] in A. rewrite <- app_assoc in A. exact A.
    + destruct (IH (pre ++ [Object a t]) os L E' M I) as (os' & l' & A & B); [rewrite W; cbn [width]; lia| |].
      { intros b. rewrite P. split; intros [u Hu]; exists u; [apply in_or_app; now left|]. apply in_app_or in Hu. destruct Hu as [Hu|[Hu|[]]]; [exact Hu|discriminate]. }
      exists os', l'. split; [|exact B]. rewrite W in A. exact A.
Qed.
End Resolve.

Theorem saves env t v ps : types_ok env t -> layout env t v ps -> NoDup (addresses ps) -> 4 + widths ps < 2 ^ 32 ->
  (forall a u, In (Pointer a u) ps -> In (Object a u) ps) -> ordered ps -> exists file, writeAsset env t v = Some file.
Proof.
  intros TO L ND LEN TY OR. unfold writeAsset.
  assert (HS : exists id c, match t with PNum k => Some (key k, mkf [] []) | PString => Some (13, mkf [] [])
    | PUser i => do c <- addFormat (S (length env)) env i (mkf [] []); Some (1000, c) end = Some (id, c)).
  { destruct t as [k| |i]; [eexists _, _; reflexivity|eexists _, _; reflexivity|]. destruct (addFormat_ok env i TO) as [c E]. rewrite E. eexists _, _. reflexivity. }
  destruct HS as (id & c & HS). rewrite HS. rewrite (write_play _ _ _ _ L).
  destruct (play_succeeds ps (mkw (le 4 id) [] [])) as [s EP]; [cbn [data]; rewrite le_zlen; lia|exact ND|]. rewrite EP.
  destruct (play_ok _ _ _ EP) as (D1 & D2 & D3 & _). cbn [data weak owned app] in *. rewrite le_zlen in D2, D3. rewrite D1, D2, D3. change (Z.of_nat 4) with 4.
  destruct (resolve_step ps ND OR TY ps [] (map (fun x => (x, None)) (marks 4 ps)) (le 4 id)) as (os' & l' & A & B).
  - reflexivity.
  - rewrite map_map. cbn [fst]. apply map_id.
  - unfold inOrder. now rewrite filter_none.
  - rewrite le_zlen. reflexivity.
  - intros a. split; [|intros [u []]]. unfold lk, look. destruct (findOwned _ a) as [[u x]|] eqn:EO; [|discriminate]. destruct (findOwned_out _ _ _ _ EO) as (e & I1 & _ & <-).
    apply in_map_iff in I1. destruct I1 as (y & <- & _). discriminate.
  - rewrite filter_none in A. change (zlen (@nil entry)) with 0 in A. cbn [widths fold_right] in A. rewrite Z.add_0_r in A. rewrite A. destruct (linkTable_ok2 os' 0 B) as [tb ET]. rewrite ET. eexists. reflexivity.
Qed.

(* ================ checks for concrete data ================ *)
Definition pointedb (ps : list piece) (a : Z) : bool := existsb (fun p => match p with Pointer b _ => b =? a | _ => false end) ps.
Lemma pointedb_ok ps a : pointedb ps a = true <-> exists x, In (Pointer a x) ps.
Proof.
  unfold pointedb. rewrite existsb_exists. split.
  - intros (p & H1 & H2). destruct p as [l|b t|b t]; try discriminate. apply Z.eqb_eq in H2. subst b. now exists t.
  - intros [x H]. exists (Pointer a x). split; [exact H|apply Z.eqb_refl].
Qed.
(** Whether an object that is pointed to begins at the very place. *)
Fixpoint here (ps qs : list piece) : bool :=
  match qs with [] => false | q :: qs => (match q with Object b _ => pointedb ps b | _ => false end) || ((width q =? 0) && here ps qs) end.
Fixpoint apartb (ps qs : list piece) : bool :=
  match qs with [] => true | q :: qs => (match q with Object a _ => pointedb ps a || negb (here ps qs) | _ => true end) && apartb ps qs end.
Lemma here_ok ps l2 b u l3 : widths l2 = 0 -> pointedb ps b = true -> here ps (l2 ++ Object b u :: l3) = true.
Proof.
  intros W P. induction l2 as [|q l2 IH]; cbn [app here]; [now rewrite P|]. rewrite widths_cons in W. pose proof (width_pos q). pose proof (widths_pos l2).
  rewrite IH by lia. replace (width q =? 0) with true by lia. apply orb_true_r.
Qed.
Lemma apartb_ok ps : apartb ps ps = true -> apart ps.
Proof.
  intros H l1 a t l2 b u l3 E W Hb. apply pointedb_ok. apply pointedb_ok in Hb.
  assert (G : forall qs l1, apartb ps qs = true -> qs = l1 ++ Object a t :: l2 ++ Object b u :: l3 -> pointedb ps a = true); [|exact (G ps l1 H E)].
  induction qs as [|q qs IH]; intros [|p l] K EQ; try discriminate; cbn [app] in EQ; injection EQ as -> ->; cbn [apartb] in K; apply andb_prop in K; destruct K as [K1 K2].
  - rewrite (here_ok _ _ _ _ _ W Hb) in K1. now rewrite orb_false_r in K1.
  - exact (IH l K2 eq_refl).
Qed.
Fixpoint before (b : Z) (l : list Z) : list Z := match l with [] => [] | x :: l => if existsb (Z.eqb b) l then x :: before b l else [] end.
Lemma before_ok b l1 a l2 l3 : In a (before b (l1 ++ a :: l2 ++ b :: l3)).
Proof.
  assert (K : forall l, existsb (Z.eqb b) (l ++ b :: l3) = true) by (intros l; apply existsb_exists; exists b; split; [apply in_or_app; right; now left|apply Z.eqb_refl]).
  induction l1 as [|x l1 IH]; cbn [app before].
  - rewrite K. now left.
  - replace (existsb (Z.eqb b) (l1 ++ a :: l2 ++ b :: l3)) with true; [right; exact IH|]. symmetry. rewrite app_comm_cons, app_assoc. apply K.
Qed.
Fixpoint orderedb (ps : list piece) (seen : list Z) (qs : list piece) : bool :=
  match qs with
  | [] => true
  | q :: qs =>
    match q with
    | Pointer b _ => forallb (fun a => negb (pointedb ps a) || existsb (Z.eqb a) seen) (before b (addresses ps)) && orderedb ps (b :: seen) qs
    | _ => orderedb ps seen qs
    end
  end.
Lemma orderedb_ok ps : orderedb ps [] ps = true -> ordered ps.
Proof.
  intros H l1 a t l2 b u l3 E Ha l x r E2. apply pointedb_ok in Ha.
  assert (B : In a (before b (addresses ps))).
  { rewrite E. unfold addresses. rewrite flat_map_app. cbn [flat_map app]. rewrite flat_map_app. cbn [flat_map app]. apply before_ok. }
  assert (G : forall l qs seen, qs = l ++ Pointer b x :: r -> orderedb ps seen qs = true -> In a seen \/ exists y, In (Pointer a y) l).
  { clear - B Ha. induction l as [|p l IH]; intros qs seen -> H; cbn [app orderedb] in H.
    - apply andb_prop in H. destruct H as [H _]. rewrite forallb_forall in H. specialize (H a B). rewrite Ha in H. cbn [negb orb] in H. apply existsb_exists in H. destruct H as (c & C1 & C2). apply Z.eqb_eq in C2. subst c. now left.
    - destruct p as [m|c s|c s].
      + destruct (IH _ seen eq_refl H) as [K|[y K]]; [now left|right; exists y; now right].
      + apply andb_prop in H. destruct H as [_ H]. destruct (IH _ (c :: seen) eq_refl H) as [[->|K]|[y K]]; [right; exists s; now left|now left|right; exists y; now right].
      + destruct (IH _ seen eq_refl H) as [K|[y K]]; [now left|right; exists y; now right]. }
  destruct (G l ps [] E2 H) as [[]|K]. exact K.
Qed.
