(* Proofs about saving: the data of an object, its links and the link table. *)
From Coq Require Import Lia ZifyBool ZifyNat.
From Verif Require Import PersistModel PersistSpec PersistSchema.
Local Notation length := List.length.
Local Notation "'do' x <- a ; b" := (match a with Some x => b | None => None end) (at level 200, x pattern, a at level 100, b at level 200).

Section ValInd.
Context (P : val -> Prop).
Context (HNum : forall z, P (VNum z)) (HStr : forall s, P (VStr s)) (HSeq : forall l, Forall P l -> P (VSeq l)) (HArr : forall l, Forall P l -> P (VArr l))
  (HOwn : forall a v, P v -> P (VOwn a v)) (HNull : P VNull) (HPtr : forall a, P (VPtr a)) (HLink : forall i t, P (VLink i t))
  (HSwitch : forall j v, P v -> P (VSwitch j v)).
Fixpoint val_ind2 (v : val) : P v :=
  let all := fix all l : Forall P l := match l with [] => Forall_nil P | v :: l => Forall_cons v (val_ind2 v) (all l) end in
  match v with
  | VNum z => HNum z
  | VStr s => HStr s
  | VSeq l => HSeq l (all l)
  | VArr l => HArr l (all l)
  | VOwn a v => HOwn a v (val_ind2 v)
  | VNull => HNull
  | VPtr a => HPtr a
  | VLink i t => HLink i t
  | VSwitch j v => HSwitch j v (val_ind2 v)
  end.
End ValInd.

(** Saving is emitting the pieces one after the other. *)
Definition play1 (p : piece) (s : wst) : option wst :=
  match p with
  | Bytes l => Some (emit l s)
  | Pointer a t => do o <- offset s; Some (mkw (data s ++ le 4 0) (weak s ++ [(a, t, o)]) (owned s))
  | Object a t =>
    do o <- offset s;
    if existsb (fun x => fst (fst x) =? a) (owned s) then None else Some (mkw (data s) (weak s) (owned s ++ [(a, t, o)]))
  end.
Definition play (ps : list piece) (s : wst) : option wst := each play1 ps s.
Lemma each_app {A S} (f : A -> S -> option S) l1 l2 s : each f (l1 ++ l2) s = do s <- each f l1 s; each f l2 s.
Proof. revert s. induction l1 as [|x l1 IH]; intros s; cbn [each app]; [reflexivity|]. destruct (f x s); [apply IH|reflexivity]. Qed.
Lemma valueIndex_first ids z j : nth_error (map snd ids) j = Some z -> ~ In z (firstn j (map (@snd (list Z) Z) ids)) -> valueIndex ids z = Some (Z.of_nat j).
Proof.
  revert j. induction ids as [|[n y] ids IH]; intros [|j] E N; try discriminate; cbn [map firstn nth_error valueIndex snd] in *.
  - injection E as ->. now rewrite Z.eqb_refl.
  - destruct (Z.eqb_spec y z) as [->|D]; [elim N; now left|]. rewrite (IH j E) by (intros H; apply N; now right). f_equal. lia.
Qed.
Lemma write_play env v : forall t ps, layout env t v ps -> forall s, writeVal env v t s = play ps s.
Proof.
  induction v as [z|x|l IH|l IH|a v IH| |a|i u|j v IH] using val_ind2; intros t ps L s; inversion L; subst; clear L;
    try match goal with H : desc env ?t = Some _ |- _ => destruct t as [| |i0]; try discriminate H; cbn [desc] in H; rename H into HD; cbn [writeVal]; rewrite HD end.
  - reflexivity.
  - rewrite (valueIndex_first ids z j) by assumption. unfold enumSize. replace ((n =? 1) || (n =? 2) || (n =? 4)) with true by lia.
    replace (Z.of_nat j <? 2 ^ (8 * n)) with true by (symmetry; now apply Z.ltb_lt). reflexivity.
  - cbn [writeVal]. replace (zlen x <? 2 ^ 32) with true by (symmetry; now apply Z.ltb_lt). reflexivity.
  - rewrite Z.eqb_refl. match goal with H : Forall2 _ _ _ |- _ => revert s; clear - H IH; induction H as [|v p l ps Hv H IHl]; intros s end.
    + reflexivity.
    + inversion IH as [|? ? IH1 IH2]; subst. cbn [map run concat]. unfold play. rewrite each_app. rewrite (IH1 _ _ Hv). unfold play. destruct (each play1 p s); [|reflexivity]. now apply IHl.
  - match goal with H : members _ _ _ _ |- _ => revert s; clear - H IH; rename H into HM end. revert ms ps0 HM. induction l as [|v l IHl]; intros ms ps HM s; inversion HM as [|n0 t0 ms0 ? ? p ps0 Hv HM0]; subst.
    + reflexivity.
    + inversion IH as [|? ? IH1 IH2]; subst. cbn [map both snd]. destruct (both (map (writeVal env) l) (map snd ms0)) as [fs|] eqn:EB.
      * cbn [run concat]. unfold play. rewrite each_app. rewrite (IH1 _ _ Hv). unfold play. destruct (each play1 p s) as [s1|]; [|reflexivity].
        pose proof (IHl IH2 _ _ HM0 s1) as Q. rewrite EB in Q. exact Q.
      * exfalso. revert HM0 EB. clear. revert ms0 ps0. induction l as [|v l IHl]; intros ms ps M E; inversion M as [|n0 t0 ms0 ? ? p ps0 Hv HM0]; subst; cbn in E; [discriminate|].
        destruct (both (map (writeVal env) l) (map snd ms0)) eqn:Q; [discriminate|]. eapply IHl; eauto.
  - unfold enumIds. match goal with H : nth_error env e = _ |- _ => rewrite H end. match goal with H : length l = length ids |- _ => rewrite H, Nat.eqb_refl; clear H end.
    match goal with H : Forall2 _ _ _ |- _ => revert s; clear - H IH; induction H as [|v p l ps Hv H IHl]; intros s end.
    + reflexivity.
    + inversion IH as [|? ? IH1 IH2]; subst. cbn [map run concat]. unfold play. rewrite each_app. rewrite (IH1 _ _ Hv). unfold play. destruct (each play1 p s); [|reflexivity]. now apply IHl.
  - replace (zlen l <? 2 ^ 32) with true by lia. unfold play. cbn [each play1].
    generalize (emit (le 4 (zlen l)) s) as s1. match goal with H : Forall2 _ _ _ |- _ => clear - H IH; induction H as [|v p l ps Hv H IHl]; intros s end.
    + reflexivity.
    + inversion IH as [|? ? IH1 IH2]; subst. cbn [map run concat]. rewrite each_app. rewrite (IH1 _ _ Hv). unfold play. destruct (each play1 p s); [|reflexivity]. now apply IHl.
  - unfold play. cbn [each play1]. destruct (offset s) as [o|]; [|reflexivity]. destruct (existsb _ (owned s)); [reflexivity|]. now apply IH.
  - unfold play. cbn [each play1]. destruct (offset s) as [o|]; reflexivity.
  - match goal with H : nth_error ss j = _ |- _ => rewrite H end. unfold play. cbn [each play1 snd]. now apply IH.
Qed.

(* ================ what was emitted ================ *)
Fixpoint holes (o : Z) (ps : list piece) : list (Z * tptr * Z) :=
  match ps with [] => [] | p :: ps => (match p with Pointer a t => [(a, t, o)] | _ => [] end) ++ holes (o + width p) ps end.
Fixpoint marks (o : Z) (ps : list piece) : list (Z * tptr * Z) :=
  match ps with [] => [] | p :: ps => (match p with Object a t => [(a, t, o)] | _ => [] end) ++ marks (o + width p) ps end.
Definition bytes0 (ps : list piece) : list Z := flat_map (fun p => match p with Bytes l => l | Pointer _ _ => le 4 0 | Object _ _ => [] end) ps.
Definition objs (ps : list piece) : list Z := flat_map (fun p => match p with Object a _ => [a] | _ => [] end) ps.
Lemma width_pos p : 0 <= width p.
Proof. destruct p; cbn; try lia. apply zlen_pos. Qed.
Lemma widths_pos ps : 0 <= widths ps.
Proof. induction ps as [|p ps IH]; cbn; [lia|]. pose proof (width_pos p). unfold widths in IH. lia. Qed.
Lemma widths_cons p ps : widths (p :: ps) = width p + widths ps.
Proof. reflexivity. Qed.
Lemma widths_app ps qs : widths (ps ++ qs) = widths ps + widths qs.
Proof. induction ps as [|p ps IH]; [reflexivity|]. cbn [app]. rewrite !widths_cons, IH. lia. Qed.
Lemma marks_objs o ps : map (fun x => fst (fst x)) (marks o ps) = objs ps.
Proof. revert o. induction ps as [|p ps IH]; intros o; [reflexivity|]. cbn [marks objs flat_map]. rewrite map_app, IH. now destruct p. Qed.
Lemma NoDup_app_iff {A} (l1 l2 : list A) : NoDup (l1 ++ l2) <-> NoDup l1 /\ NoDup l2 /\ (forall x, In x l1 -> ~ In x l2).
Proof.
  induction l1 as [|x l1 IH]; cbn [app].
  - split; [intros H; repeat split; [constructor|exact H|intros ? []]|tauto].
  - split.
    + intros H. inversion H as [|? ? H1 H2]; subst. apply IH in H2. destruct H2 as (A1 & A2 & A3). repeat split; auto.
      * constructor; [|exact A1]. intros F. apply H1, in_or_app. now left.
      * intros y [->|Hy]; [|now apply A3]. intros F. apply H1, in_or_app. now right.
    + intros (H1 & H2 & H3). inversion H1; subst. constructor.
      * intros F. apply in_app_or in F. destruct F as [F|F]; [contradiction|]. elim (H3 x (or_introl eq_refl) F).
      * apply IH. repeat split; auto. intros y Hy. apply H3. now right.
Qed.
Lemma play_ok ps : forall s s', play ps s = Some s' ->
  data s' = data s ++ bytes0 ps /\ weak s' = weak s ++ holes (zlen (data s)) ps /\ owned s' = owned s ++ marks (zlen (data s)) ps /\
  (NoDup (map (fun x => fst (fst x)) (owned s)) -> NoDup (map (fun x => fst (fst x)) (owned s'))).
Proof.
  induction ps as [|p ps IH]; intros s s' E; cbn [play each] in E.
  - assert (s' = s) by (unfold play in E; cbn in E; congruence). subst. cbn [bytes0 flat_map holes marks]. rewrite !app_nil_r. auto.
  - unfold play in E. cbn [each] in E. destruct (play1 p s) as [s1|] eqn:E1; [|discriminate]. destruct (IH s1 s' E) as (A & B & C & D).
    destruct p as [l|a t|a t]; cbn [play1] in E1.
    + assert (s1 = emit l s) by congruence. subst s1. cbn [emit data weak owned] in *. rewrite A, B, C. cbn [bytes0 flat_map holes marks width app].
      rewrite zlen_app, <- app_assoc. repeat split; auto. rewrite C, zlen_app in D. exact D.
    + destruct (offset s) as [o|] eqn:EO; [|discriminate]. assert (s1 = mkw (data s ++ le 4 0) (weak s ++ [(a, t, o)]) (owned s)) by congruence. subst s1.
      cbn [data weak owned] in *. rewrite A, B, C. cbn [bytes0 flat_map holes marks width app]. rewrite zlen_app, le_zlen, <- !app_assoc.
      unfold offset in EO. destruct (zlen (data s) <? 2 ^ 32); [|discriminate]. assert (o = zlen (data s)) by congruence. subst o. change (Z.of_nat 4) with 4.
      repeat split; auto. rewrite C in D. rewrite zlen_app, le_zlen in D. exact D.
    + destruct (offset s) as [o|] eqn:EO; [|discriminate]. destruct (existsb _ (owned s)) eqn:EX; [discriminate|].
      assert (s1 = mkw (data s) (weak s) (owned s ++ [(a, t, o)])) by congruence. subst s1. cbn [data weak owned] in *.
      unfold offset in EO. destruct (zlen (data s) <? 2 ^ 32); [|discriminate]. assert (o = zlen (data s)) by congruence. subst o.
      rewrite A, B, C. cbn [bytes0 flat_map holes marks width app]. rewrite Z.add_0_r, <- !app_assoc. repeat split; auto.
      intros N. rewrite C in D. rewrite <- app_assoc in D. apply D. rewrite map_app. cbn [map fst]. apply NoDup_app_iff. repeat split; [exact N|constructor; [intros []|constructor]|].
      intros x Hx [<-|[]]. apply in_map_iff in Hx. destruct Hx as (y & Y1 & Y2).
      assert (X : existsb (fun x => fst (fst x) =? a) (owned s) = true) by (apply existsb_exists; exists y; split; [exact Y2|lia]). congruence.
Qed.
(** It succeeds if the addresses are distinct and the data is not too long. *)
Lemma play_succeeds ps : forall s, zlen (data s) + widths ps < 2 ^ 32 ->
  NoDup (map (fun x => fst (fst x)) (owned s) ++ objs ps) -> exists s', play ps s = Some s'.
Proof.
  induction ps as [|p ps IH]; intros s L N; [exists s; reflexivity|]. rewrite widths_cons in L. pose proof (width_pos p). pose proof (widths_pos ps).
  unfold play. cbn [each]. destruct p as [l|a t|a t]; cbn [play1 width] in *.
  - apply IH; [cbn [emit data]; rewrite zlen_app; lia|exact N].
  - unfold offset. replace (zlen (data s) <? 2 ^ 32) with true by lia. apply IH; [cbn [data]; rewrite zlen_app, le_zlen; lia|exact N].
  - unfold offset. replace (zlen (data s) <? 2 ^ 32) with true by lia. cbn [objs flat_map app] in N.
    destruct (existsb _ (owned s)) eqn:EX.
    + exfalso. apply existsb_exists in EX. destruct EX as (y & Y1 & Y2). apply NoDup_app_iff in N. destruct N as (_ & _ & N). apply (N a).
      * apply in_map_iff. exists y. split; [lia|exact Y1].
      * now left.
    + apply IH; [cbn [data]; lia|]. cbn [owned]. rewrite map_app, <- app_assoc. exact N.
Qed.

(* ================ links ================ *)
Notation entry := (Z * tptr * Z * option Z)%type.
Definition addr (e : entry) : Z := fst (fst (fst e)).
Definition look (os : list entry) (a : Z) : option Z := match findOwned os a with Some (_, x) => x | None => None end.
Definition render (os : list entry) (ps : list piece) : list Z :=
  flat_map (fun p => match p with Bytes l => l | Pointer a _ => le 4 (match look os a with Some i => i | None => 0 end) | Object _ _ => [] end) ps.
Lemma render_zlen os ps : zlen (render os ps) = widths ps.
Proof. induction ps as [|p ps IH]; [reflexivity|]. cbn [render flat_map]. fold (render os ps). rewrite zlen_app, IH, widths_cons. destruct p; cbn [width]; [reflexivity|now rewrite le_zlen|reflexivity]. Qed.
Definition linked (e : entry) : bool := match snd e with Some _ => true | None => false end.
(** The same objects; links are only added. *)
Definition ext (os os' : list entry) : Prop := Forall2 (fun x y : entry => fst x = fst y /\ (snd x = None \/ snd y = snd x)) os os'.
Lemma ext_refl os : ext os os.
Proof. induction os; constructor; auto. Qed.
Lemma ext_trans a b c : ext a b -> ext b c -> ext a c.
Proof.
  intros H. revert c. induction H as [|x y a b [H1 H2] H IH]; intros c K; inversion K as [|? z ? ? [K1 K2] K3]; subst; constructor; [|now apply IH].
  split; [congruence|]. destruct H2 as [H2|H2]; [now left|]. destruct K2 as [K2|K2]; [left|right]; congruence.
Qed.
Lemma ext_find a os os' t i : ext os os' -> findOwned os a = Some (t, Some i) -> findOwned os' a = Some (t, Some i).
Proof.
  induction 1 as [|[[[b u] o] x] [[[b' u'] o'] x'] os os' [H1 H2] H IH]; intros E; [discriminate|]. cbn [fst] in H1. injection H1 as <- <- <-.
  cbn [findOwned snd] in *. destruct (b =? a); [|auto]. destruct H2 as [H2|H2]; congruence.
Qed.
Lemma ext_find_type a os os' t x : ext os os' -> findOwned os a = Some (t, x) -> exists y, findOwned os' a = Some (t, y).
Proof.
  induction 1 as [|[[[b u] o] z] [[[b' u'] o'] z'] os os' [H1 H2] H IH]; intros E; [discriminate|]. cbn [fst] in H1. injection H1 as <- <- <-.
  cbn [findOwned snd] in *. destruct (b =? a); [|auto]. exists z'. congruence.
Qed.
Lemma setLink_ext os a i t : findOwned os a = Some (t, None) -> ext os (setLink os a i) /\ findOwned (setLink os a i) a = Some (t, Some i) /\
  zlen (filter linked (setLink os a i)) = zlen (filter linked os) + 1 /\ (forall b, b <> a -> findOwned (setLink os a i) b = findOwned os b).
Proof.
  induction os as [|[[[b u] o] x] os IH]; intros E; [discriminate|]. cbn [findOwned setLink] in *. destruct (Z.eqb_spec b a) as [->|N].
  - assert (u = t /\ x = None) as [-> ->] by (split; congruence). split; [constructor; [cbn; auto|apply ext_refl]|]. cbn [findOwned filter linked snd]. rewrite Z.eqb_refl.
    split; [reflexivity|]. split; [rewrite zlen_cons; lia|]. intros c Hc. destruct (Z.eqb_spec a c); [congruence|reflexivity].
  - destruct (IH E) as (A & B & C & D). split; [constructor; [cbn; auto|exact A]|]. cbn [findOwned]. destruct (Z.eqb_spec b a); [contradiction|]. split; [exact B|].
    cbn [filter linked snd]. split; [destruct x as [z|]; [change (linked (b, u, o, Some z)) with true|change (linked (b, u, o, None)) with false]; cbv iota; rewrite ?zlen_cons; lia|]. intros c Hc. destruct (Z.eqb_spec b c); auto.
Qed.
Lemma tptr_eqb_eq a b : tptr_eqb a b = true -> a = b.
Proof.
  destruct a as [k| |i], b as [l| |j]; cbn; try discriminate; auto.
  - destruct k, l; cbn; try discriminate; reflexivity.
  - intros H. apply Nat.eqb_eq in H. congruence.
Qed.
Lemma tptr_eqb_refl a : tptr_eqb a a = true.
Proof. destruct a as [k| |i]; cbn; [now rewrite Z.eqb_refl|reflexivity|apply Nat.eqb_refl]. Qed.
Lemma patch_app L r i o : zlen L = o -> patch (L ++ le 4 0 ++ r) o i = L ++ le 4 i ++ r.
Proof.
  intros <-. unfold patch. rewrite to_nat_zlen. rewrite firstn_app, firstn_all, Nat.sub_diag, firstn_O, app_nil_r.
  f_equal. f_equal. rewrite skipn_app, (skipn_all2 L) by lia. replace (length L + 4 - length L)%nat with 4%nat by lia. reflexivity.
Qed.
Definition pointed (ps : list piece) (a : Z) : Prop := exists t, In (Pointer a t) ps.
Lemma pointed_cons p ps a : pointed ps a -> pointed (p :: ps) a.
Proof. intros [t H]. exists t. now right. Qed.
Lemma resolve_ok ps : forall o os n L os' n' l',
  each resolve1 (holes o ps) (os, n, L ++ bytes0 ps) = Some (os', n', l') -> zlen L = o -> zlen (filter linked os) = n ->
  l' = L ++ render os' ps /\ ext os os' /\ zlen (filter linked os') = n' /\
  (forall a t, In (Pointer a t) ps -> exists i, findOwned os' a = Some (t, Some i)) /\
  (forall a, look os' a <> None -> look os a <> None \/ pointed ps a).
Proof.
  induction ps as [|p ps IH]; intros o os n L os' n' l' E HL HN; cbn [holes each] in E.
  - assert (os' = os /\ n' = n /\ l' = L ++ bytes0 []) as (-> & -> & ->) by (repeat split; congruence). split; [reflexivity|]. split; [apply ext_refl|]. split; [exact HN|].
    split; [intros ? ? []|auto].
  - destruct p as [l|a t|a t]; cbn [app] in E.
    + cbn [bytes0 flat_map] in E. fold (bytes0 ps) in E. rewrite app_assoc in E. cbn [width] in E. apply IH in E; [|rewrite zlen_app; lia|exact HN].
      destruct E as (A & B & C & D & F). rewrite A. cbn [render flat_map]. rewrite <- app_assoc. split; [reflexivity|]. split; [exact B|]. split; [exact C|]. split.
      * intros a t [H|H]; [discriminate|eauto].
      * intros a Ha. destruct (F a Ha); [auto|right; now apply pointed_cons].
    + cbn [each] in E. destruct (resolve1 (a, t, o) (os, n, L ++ bytes0 (Pointer a t :: ps))) as [[[os1 n1] l1]|] eqn:E1; [|discriminate].
      unfold resolve1 in E1. destruct (o + 4 <=? _); [|discriminate]. destruct (findOwned os a) as [[u x]|] eqn:EF; [|discriminate].
      destruct (tptr_eqb u t) eqn:ET; [|discriminate]. apply tptr_eqb_eq in ET. subst u.
      change (bytes0 (Pointer a t :: ps)) with (le 4 0 ++ bytes0 ps) in E1.
      assert (K : exists i, findOwned os1 a = Some (t, Some i) /\ l1 = L ++ le 4 i ++ bytes0 ps /\ ext os os1 /\ zlen (filter linked os1) = n1 /\
        (forall b, look os1 b <> None -> look os b <> None \/ b = a)).
      { destruct x as [i|]; rewrite patch_app in E1 by exact HL.
        - exists i. assert (os1 = os /\ n1 = n /\ l1 = L ++ le 4 i ++ bytes0 ps) as (-> & -> & ->) by (repeat split; congruence).
          split; [exact EF|]. split; [reflexivity|]. split; [apply ext_refl|]. auto.
        - exists n. assert (os1 = setLink os a n /\ n1 = n + 1 /\ l1 = L ++ le 4 n ++ bytes0 ps) as (-> & -> & ->) by (repeat split; congruence).
          destruct (setLink_ext os a n t EF) as (A & B & C & D). split; [exact B|]. split; [reflexivity|]. split; [exact A|]. split; [lia|].
          intros b Hb. destruct (Z.eq_dec b a) as [->|Nb]; [now right|]. left. unfold look in *. now rewrite D in Hb by exact Nb. }
      destruct K as (i & K1 & -> & K3 & K4 & K5). rewrite app_assoc in E. cbn [width] in E.
      apply IH in E; [|rewrite zlen_app, le_zlen; lia|exact K4]. destruct E as (A & B & C & D & F).
      pose proof (ext_find a _ _ t i B K1) as Q. rewrite A. cbn [render flat_map]. assert (Q2 : look os' a = Some i) by (unfold look; now rewrite Q). rewrite Q2, <- app_assoc.
      split; [reflexivity|]. split; [eapply ext_trans; eauto|]. split; [exact C|]. split.
      * intros b u [H|H]; [|eauto]. injection H as <- <-. eauto.
      * intros b Hb. destruct (F b Hb) as [G|G]; [|right; now apply pointed_cons]. destruct (K5 b G) as [G2|G2]; [auto|]. right. exists t. left. congruence.
    + cbn [width] in E. rewrite Z.add_0_r in E. apply IH in E; [|exact HL|exact HN].
      destruct E as (A & B & C & D & F). rewrite A. split; [reflexivity|]. split; [exact B|]. split; [exact C|]. split.
      * intros b u [H|H]; [discriminate|eauto].
      * intros b Hb. destruct (F b Hb); [auto|right; now apply pointed_cons].
Qed.
Lemma linkTable_ok os : forall n table, linkTable os n = Some table ->
  table = flat_map (fun e : entry => le 4 (snd (fst e))) (filter linked os) /\
  (forall k e, nth_error (filter linked os) k = Some e -> snd e = Some (n + Z.of_nat k)).
Proof.
  induction os as [|[[[a t] o] x] os IH]; intros n table E; cbn [linkTable] in E.
  - assert (table = []) by congruence. subst. split; [reflexivity|]. intros [|k] e H; discriminate.
  - destruct x as [i|]; cbn [filter linked snd].
    + destruct (Z.eqb_spec i n) as [->|]; [|discriminate]. destruct (linkTable os (n + 1)) as [r|] eqn:E1; [|discriminate].
      destruct (IH _ _ E1) as (A & B). assert (table = le 4 o ++ r) by congruence. subst table. split; [cbn [flat_map fst snd]; now rewrite A|].
      intros [|k] e H; cbn [nth_error] in H.
      * injection H as <-. cbn. f_equal. lia.
      * rewrite (B k e H). f_equal. lia.
    + exact (IH _ _ E).
Qed.
