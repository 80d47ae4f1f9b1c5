(* Proofs about the model of paths. *)
From Verif Require Import PathModel PathSpec StringViewProofs StringViewSpec.
From Coq Require Import ZifyBool ZifyNat.
Ltac Zify.zify_post_hook ::= Z.div_mod_to_equations.

Lemma bytes_eqb_spec a b : reflect (a = b) (bytes_eqb a b).
Proof. destruct (bytes_eqb a b) eqn:E; constructor; rewrite <- bytes_eqb_eq; [exact E|]. rewrite E. discriminate. Qed.
Lemma zlen_app {A} (a b : list A) : zlen (a ++ b) = zlen a + zlen b.
Proof. unfold zlen. rewrite app_length. lia. Qed.
Lemma zlen_cons {A} (x : A) b : zlen (x :: b) = 1 + zlen b.
Proof. unfold zlen. cbn [length]. lia. Qed.
Lemma zlen_nonneg {A} (l : list A) : 0 <= zlen l.
Proof. unfold zlen. lia. Qed.

(* ---- searching ---- *)
Definition none (f : Z -> bool) (l : list Z) : Prop := Forall (fun c => f c = false) l.
Lemma find_split f : forall rest i, find_from f i rest = -1 /\ none f rest \/
  exists a c b, rest = a ++ c :: b /\ find_from f i rest = i + zlen a /\ none f a /\ f c = true.
Proof.
  induction rest as [|x rest IH]; intros i; cbn [find_from]; [left; split; [reflexivity|constructor]|]. destruct (f x) eqn:E.
  - right. exists [], x, rest. split; [reflexivity|]. split; [unfold zlen; cbn [length]; lia|]. split; [constructor|exact E].
  - destruct (IH (i + 1)) as [(H1 & H2)|(a & c & b & -> & H2 & H3 & H4)].
    + left. split; [exact H1|constructor; assumption].
    + right. exists (x :: a), c, b. split; [reflexivity|]. rewrite H2, zlen_cons. split; [lia|]. split; [constructor; assumption|exact H4].
Qed.
Lemma rfind_split f : forall rp i, rfind_from f i rp = -1 /\ none f rp \/
  exists a c b, rp = a ++ c :: b /\ rfind_from f i rp = i - zlen a /\ none f a /\ f c = true.
Proof.
  induction rp as [|x rest IH]; intros i; cbn [rfind_from]; [left; split; [reflexivity|constructor]|]. destruct (f x) eqn:E.
  - right. exists [], x, rest. split; [reflexivity|]. split; [unfold zlen; cbn [length]; lia|]. split; [constructor|exact E].
  - destruct (IH (i - 1)) as [(H1 & H2)|(a & c & b & -> & H2 & H3 & H4)].
    + left. split; [exact H1|constructor; assumption].
    + right. exists (x :: a), c, b. split; [reflexivity|]. rewrite H2, zlen_cons. split; [lia|]. split; [constructor; assumption|exact H4].
Qed.
Lemma none_rev f l : none f (rev l) -> none f l.
Proof. intros H. apply Forall_rev in H. rewrite rev_involutive in H. exact H. Qed.
(** Searching backwards from position [i]. *)
Lemma rfindByte_split f p q : p <> [] -> exists r, sv_rfindByte (p ++ q) f (zlen p - 1) = Some r /\
  (r = -1 /\ none f p \/ exists a c b, p = a ++ c :: b /\ r = zlen a /\ none f b /\ f c = true).
Proof.
  intros Hp. unfold sv_rfindByte. rewrite zlen_app. pose proof (zlen_nonneg q). replace (zlen p - 1 <? zlen p + zlen q) with true by lia.
  assert (E : Z.to_nat (zlen p - 1 + 1) = length p) by (unfold zlen; lia). rewrite E, firstn_app, firstn_all, Nat.sub_diag. cbn [firstn]. rewrite app_nil_r.
  eexists. split; [reflexivity|]. destruct (rfind_split f (rev p) (zlen p - 1)) as [(H1 & H2)|(a & c & b & H1 & H2 & H3 & H4)].
  - left. split; [exact H1|]. apply none_rev. exact H2.
  - right. exists (rev b), c, (rev a). apply (f_equal (@rev Z)) in H1. rewrite rev_involutive, rev_app_distr in H1. cbn [rev] in H1. rewrite <- app_assoc in H1. cbn [app] in H1.
    split; [exact H1|]. rewrite H2. split; [|split; [apply none_rev; rewrite rev_involutive; exact H3|exact H4]].
    rewrite H1, zlen_app, zlen_cons. unfold zlen. rewrite !rev_length. lia.
Qed.
Lemma default_pos (p : list Z) : p <> [] -> zlen p < 2 ^ 31 -> s32 (u32 (zlen p - 1)) = zlen p - 1.
Proof.
  intros Hp Hl. assert (1 <= zlen p) by (destruct p; [congruence|rewrite zlen_cons; pose proof (zlen_nonneg p); lia]).
  unfold s32, to_signed, u32. rewrite Z.mod_mod by lia. rewrite Z.mod_small by lia. cbv zeta. replace (zlen p - 1 <? 2 ^ (32 - 1)) with true by lia. reflexivity.
Qed.
Lemma rfindByte_default_split f p : zlen p < 2 ^ 31 -> exists r, sv_rfindByte_default p f = Some r /\
  (r = -1 /\ none f p \/ exists a c b, p = a ++ c :: b /\ r = zlen a /\ none f b /\ f c = true).
Proof.
  intros Hl. destruct p as [|x p0].
  - exists (-1). split; [reflexivity|]. left. split; [reflexivity|constructor].
  - set (p := x :: p0) in *. unfold sv_rfindByte_default. rewrite default_pos by (try discriminate; exact Hl). destruct (rfindByte_split f p [] ltac:(discriminate)) as (r & E & C). rewrite app_nil_r in E. exists r. auto.
Qed.

(* ---- names ---- *)
Section Names.
Context (sep : Z -> bool).
Lemma pieces_nn p : pieces sep p <> [].
Proof. destruct p as [|c p]; cbn [pieces]; [discriminate|]. destruct (sep c); [discriminate|]. destruct (pieces sep p); discriminate. Qed.
Lemma pieces_app a s p : none sep a -> sep s = true -> pieces sep (a ++ s :: p) = a :: pieces sep p.
Proof.
  intros Ha Hs. induction Ha as [|c a Hc Ha IH]; cbn [app pieces]; [rewrite Hs; reflexivity|]. rewrite Hc, IH. reflexivity.
Qed.
Lemma pieces_none a : none sep a -> pieces sep a = [a].
Proof. intros Ha. induction Ha as [|c a Hc Ha IH]; cbn [pieces]; [reflexivity|]. rewrite Hc, IH. reflexivity. Qed.
Lemma names_sep s p : sep s = true -> names sep (s :: p) = names sep p.
Proof. intros Hs. unfold names. cbn [pieces]. rewrite Hs. reflexivity. Qed.
Lemma names_seps a p : Forall (fun c => sep c = true) a -> names sep (a ++ p) = names sep p.
Proof. intros Ha. induction Ha as [|c a Hc Ha IH]; [reflexivity|]. cbn [app]. rewrite names_sep by exact Hc. exact IH. Qed.
Lemma names_all_seps a : Forall (fun c => sep c = true) a -> names sep a = [].
Proof. intros Ha. rewrite <- (app_nil_r a), names_seps by exact Ha. reflexivity. Qed.
Lemma names_word a s p : none sep a -> a <> [] -> sep s = true -> names sep (a ++ s :: p) = a :: names sep p.
Proof. intros Ha Hn Hs. unfold names. rewrite pieces_app by assumption. cbn [filter]. destruct a; [congruence|reflexivity]. Qed.
Lemma names_one a : none sep a -> a <> [] -> names sep a = [a].
Proof. intros Ha Hn. unfold names. rewrite pieces_none by assumption. destruct a; [congruence|reflexivity]. Qed.
Definition nameOk (n : list Z) : Prop := n <> [] /\ none sep n.
Lemma pieces_free p : Forall (none sep) (pieces sep p).
Proof.
  induction p as [|c p IH]; cbn [pieces]; [repeat constructor|]. destruct (sep c) eqn:E; [constructor; [constructor|exact IH]|].
  destruct (pieces sep p) as [|x xs]; [repeat constructor; exact E|]. inversion IH; subst. constructor; [constructor; assumption|assumption].
Qed.
Lemma names_free p : Forall nameOk (names sep p).
Proof.
  unfold names. apply Forall_forall. intros n Hn. apply filter_In in Hn. destruct Hn as (H1 & H2). split; [destruct n; [discriminate|congruence]|].
  pose proof (pieces_free p) as F. rewrite Forall_forall in F. apply F. exact H1.
Qed.
Lemma names_joined s ns : sep s = true -> Forall nameOk ns -> names sep (joined [s] ns) = ns.
Proof.
  intros Hs H. induction H as [|n ns (H1 & H2) H IH]; [reflexivity|]. cbn [joined]. destruct ns as [|n' ns]; [apply names_one; assumption|].
  cbn [app]. rewrite names_word by assumption. f_equal. exact IH.
Qed.
Lemma names_joined_sep s ns : sep s = true -> Forall nameOk ns -> names sep (joined [s] ns ++ [s]) = ns.
Proof.
  intros Hs H. induction H as [|n ns (H1 & H2) H IH]; [apply names_all_seps; repeat constructor; exact Hs|]. cbn [joined]. destruct ns as [|n' ns]; [rewrite names_word by assumption; reflexivity|].
  rewrite <- !app_assoc. cbn [app]. rewrite names_word by assumption. f_equal. exact IH.
Qed.
End Names.


Lemma names_ext f g p : (forall c, f c = g c) -> names f p = names g p.
Proof. intros H. unfold names. f_equal. induction p as [|c p IH]; [reflexivity|]. cbn [pieces]. rewrite H, IH. reflexivity. Qed.
Lemma sepOf_eq w c : sepOf w c = isSepByte w c.
Proof. unfold sepOf, isSepByte. destruct w; cbn [andb]; [reflexivity|]. rewrite orb_false_r. reflexivity. Qed.

Section Proofs.
Context (w : bool).
Notation sep := (isSepByte w).
Notation sb := (sepByte w).

Lemma sb_sep : sep sb = true.
Proof. unfold isSepByte, sepByte. destruct w; reflexivity. Qed.

Lemma skipn_cut {A} (a : list A) c b l k : skipn k l = a ++ c :: b -> skipn (k + length a) l = c :: b /\ skipn (S (k + length a)) l = b.
Proof.
  intros H. assert (E : forall n, skipn (k + n) l = skipn n (skipn k l)).
  { clear. intros n. revert l. induction k as [|k IH]; intros l; [reflexivity|]. destruct l; [cbn [Nat.add skipn]; rewrite skipn_nil; reflexivity|]. cbn [Nat.add skipn]. apply IH. }
  split.
  - rewrite E, H. rewrite skipn_app, skipn_all, Nat.sub_diag. reflexivity.
  - replace (S (k + length a)) with (k + S (length a))%nat by lia. rewrite E, H. replace (S (length a)) with (length (a ++ [c])) by (rewrite app_length; cbn [length]; lia).
    replace (a ++ c :: b) with ((a ++ [c]) ++ b) by (rewrite <- app_assoc; reflexivity). rewrite skipn_app, skipn_all, Nat.sub_diag. reflexivity.
Qed.
Lemma none_neg l : none (fun c => negb (sep c)) l <-> Forall (fun c => sep c = true) l.
Proof. unfold none. rewrite !Forall_forall. split; intros H x Hx; specialize (H x Hx); destruct (sep x); cbn [negb] in *; congruence. Qed.
Lemma skipn_short {A} k (l : list A) : length (skipn k l) = (length l - k)%nat.
Proof. apply skipn_length. Qed.
Lemma partsLoop_ok : forall fuel k comp, zlen comp < 2 ^ 32 -> (length (skipn k comp) <= fuel)%nat -> (k <= length comp)%nat ->
  partsLoop w fuel comp (sv_findByte comp (fun c => negb (sep c)) (Z.of_nat k)) = Some (names sep (skipn k comp)).
Proof.
  induction fuel as [|fuel IH]; intros k comp Hl Hf Hk; unfold sv_findByte; rewrite Nat2Z.id;
    destruct (find_split (fun c => negb (sep c)) (skipn k comp) (Z.of_nat k)) as [(E & N)|(a & c & b & E1 & E2 & N & Hc)].
  - rewrite E. cbn [partsLoop Z.ltb Z.compare]. rewrite names_all_seps by (apply none_neg; exact N). reflexivity.
  - rewrite E1 in Hf. rewrite app_length in Hf. cbn [length] in Hf. lia.
  - rewrite E. cbn [partsLoop Z.ltb Z.compare]. rewrite names_all_seps by (apply none_neg; exact N). reflexivity.
  - rewrite E2. cbn [partsLoop]. pose proof (zlen_nonneg a). replace (Z.of_nat k + zlen a <? 0) with false by lia.
    destruct (skipn_cut a c b comp k E1) as (S1 & S2). rewrite E1, names_seps by (apply none_neg; exact N). apply negb_true_iff in Hc.
    assert (La : (k + length a < length comp)%nat). { apply (f_equal (@length Z)) in E1. rewrite skipn_length, app_length in E1. cbn [length] in E1. lia. }
    assert (Ef : sv_findByte comp sep (Z.of_nat k + zlen a + 1) = find_from sep (Z.of_nat k + zlen a + 1) b).
    { unfold sv_findByte. replace (Z.to_nat (Z.of_nat k + zlen a + 1)) with (S (k + length a)) by (unfold zlen; lia). rewrite S2. reflexivity. }
    rewrite Ef.
    destruct (find_split sep b (Z.of_nat k + zlen a + 1)) as [(E & N2)|(a2 & s & b2 & E3 & E4 & N2 & Hs)].
    + rewrite E. cbn [Z.ltb Z.compare]. unfold sv_subStr1. replace (Z.of_nat k + zlen a <=? zlen comp) with true by (unfold zlen; lia).
      replace (Z.to_nat (Z.of_nat k + zlen a)) with (k + length a)%nat by (unfold zlen; lia). rewrite S1, names_one; [reflexivity|constructor; assumption|discriminate].
    + pose proof (zlen_nonneg a2). rewrite E4.
      replace (Z.of_nat k + zlen a + 1 + zlen a2 <? 0) with false by lia.
      assert (Lb : (S (k + length a) + length a2 < length comp)%nat). { apply (f_equal (@length Z)) in E1. rewrite E3, skipn_length, app_length in E1. cbn [length] in E1. rewrite app_length in E1. cbn [length] in E1. lia. }
      replace (Z.of_nat k + zlen a + 1 + zlen a2 + 1) with (Z.of_nat (S (S (k + length a) + length a2))) by (unfold zlen; lia).
      rewrite E3 in S2. destruct (skipn_cut a2 s b2 comp _ S2) as (S3 & S4).
      rewrite IH; [|exact Hl|rewrite S4; rewrite E1, E3, app_length in Hf; cbn [length] in Hf; rewrite app_length in Hf; cbn [length] in Hf; lia|lia]. rewrite S4.
      unfold sv_subStr2, sv_subStr2_range. replace (Z.of_nat k + zlen a <=? zlen comp) with true by (unfold zlen; lia).
      replace (Z.of_nat k + zlen a + 1 + zlen a2 - (Z.of_nat k + zlen a)) with (1 + zlen a2) by lia.
      assert (Eu : u32 (Z.of_nat k + zlen a + (1 + zlen a2)) = Z.of_nat k + zlen a + (1 + zlen a2)) by (unfold u32; apply Z.mod_small; unfold zlen in *; lia).
      rewrite Eu. replace (Z.of_nat k + zlen a + (1 + zlen a2) <=? zlen comp) with true by (unfold zlen in *; lia).
      replace (Z.to_nat (Z.of_nat k + zlen a)) with (k + length a)%nat by (unfold zlen; lia). rewrite S1, E3. replace (Z.to_nat (1 + zlen a2)) with (length (c :: a2)) by (unfold zlen; cbn [length]; lia).
      replace (c :: a2 ++ s :: b2) with ((c :: a2) ++ s :: b2) by reflexivity. rewrite firstn_app, firstn_all, Nat.sub_diag. cbn [firstn]. rewrite app_nil_r.
      rewrite names_word; [reflexivity|constructor; assumption|discriminate|exact Hs].
Qed.
Lemma parts_ok comp : zlen comp < 2 ^ 32 -> parts w comp = Some (names sep comp).
Proof. intros H. unfold parts. change 0 with (Z.of_nat 0). rewrite partsLoop_ok; [reflexivity|exact H|cbn [skipn]; lia|lia]. Qed.

(* ---- where a path starts ---- *)
Lemma full_abs c : isAbsolute w c = full w c.
Proof.
  unfold isAbsolute, full, anchorOf, hasDriveLetter. destruct w; cbn [andb].
  - destruct c as [|d [|e r]]; [reflexivity| |].
    + cbn [andb]. destruct (sepOf true d); reflexivity.
    + change (isAsciiLetter d) with (letter d). destruct (letter d && (e =? colon)); cbn [andb].
      * destruct r as [|s r]; [reflexivity|]. rewrite sepOf_eq. destruct (isSepByte true s); reflexivity.
      * destruct (sepOf true d); reflexivity.
  - destruct c as [|d r]; [reflexivity|]. rewrite sepOf_eq. destruct (isSepByte false d); reflexivity.
Qed.
Lemma drive_full c : full w c || plain w c = true -> hasDriveLetter w c = w && full w c.
Proof.
  unfold plain, full, anchorOf, hasDriveLetter. destruct w; cbn [andb]; [|reflexivity].
  destruct c as [|d [|e r]]; [reflexivity| |].
  - destruct (sepOf true d); reflexivity.
  - change (isAsciiLetter d) with (letter d). destruct (letter d && (e =? colon)).
    + destruct r as [|s r]; [discriminate|]. destruct (sepOf true s); [reflexivity|discriminate].
    + destruct (sepOf true d); [discriminate|reflexivity].
Qed.
Lemma namesOf_full c : full w c = true -> namesOf w c = names sep (if w then skipn 2 c else c).
Proof.
  unfold full, namesOf. intros H. rewrite <- (names_ext (sepOf w) sep) by apply sepOf_eq. destruct (anchorOf w c) eqn:E; try discriminate; destruct w; try discriminate; try reflexivity.
  unfold anchorOf in E. destruct c as [|x c]; [discriminate|]. destruct (sepOf false x); discriminate.
Qed.
Lemma namesOf_plain c : plain w c = true -> namesOf w c = names sep c.
Proof. unfold plain, namesOf. intros H. rewrite <- (names_ext (sepOf w) sep) by apply sepOf_eq. destruct (anchorOf w c); try discriminate; reflexivity. Qed.

Definition snd' (c : list Z) : Prop := full w c || plain w c = true /\ zlen c < 2 ^ 32.
Lemma plain_cases c : snd' c -> full w c = false -> plain w c = true.
Proof. intros (H & _) E. rewrite E in H. exact H. Qed.
(** What a full path starts with. *)
Definition rootc (c : list Z) : list Z := if w then [hd 0 c; colon; sb] else [sb].

Lemma cases_full cs : Forall (fun c => full w c = false) cs \/ exists pre c post, cs = pre ++ c :: post /\ full w c = true /\ Forall (fun c => full w c = false) post.
Proof.
  induction cs as [|c cs IH]; [left; constructor|]. destruct IH as [IH|(pre & c' & post & -> & H1 & H2)].
  - destruct (full w c) eqn:E; [right; exists [], c, cs; auto|left; constructor; assumption].
  - right. exists (c :: pre), c', post. auto.
Qed.
Lemma route_plain cs : forall r ns, Forall (fun c => full w c = false) cs -> route w r ns cs = (r, ns ++ flat_map (namesOf w) cs).
Proof.
  induction cs as [|c cs IH]; intros r ns H; cbn [route flat_map]; [rewrite app_nil_r; reflexivity|]. inversion H as [|x y Hc Hr]; subst. rewrite Hc, IH by exact Hr. rewrite app_assoc. reflexivity.
Qed.
Lemma route_full c post : full w c = true -> Forall (fun c => full w c = false) post -> forall pre r ns,
  route w r ns (pre ++ c :: post) = (true, namesOf w c ++ flat_map (namesOf w) post).
Proof.
  intros Hc Hp pre. induction pre as [|x pre IH]; intros r ns; cbn [app route]; [rewrite Hc; apply route_plain; exact Hp|]. destruct (full w x); apply IH.
Qed.

Lemma lastRoots_skip : forall rs i absI rest, Forall snd' rs -> Forall (fun c => full w c = false) rs ->
  lastRoots w (length rs + i) (rs ++ rest) absI = lastRoots w i rest absI.
Proof.
  induction rs as [|c rs IH]; intros i absI rest Hs H; [reflexivity|]. inversion Hs as [|x1 x2 (Hs1 & _) Hs2]; subst. inversion H as [|x1 x2 H1 H2]; subst. cbn [app length lastRoots Nat.add].
  rewrite drive_full by exact Hs1. rewrite full_abs, H1, andb_false_r. destruct absI; apply IH; assumption.
Qed.
Lemma lastRoots_done rs : forall i a, w = false -> lastRoots w i rs (Some a) = (Some a, None).
Proof. induction rs as [|c rs IH]; intros i a Hw; cbn [lastRoots]; [reflexivity|]. unfold hasDriveLetter. rewrite Hw. cbn [andb]. rewrite <- Hw. apply IH. exact Hw. Qed.

Lemma allParts_plain : forall cs i d, Forall snd' cs -> Forall (fun c => full w c = false) cs -> (match d with Some d => (d < i)%nat | None => True end) ->
  allParts w i d cs = Some (flat_map (namesOf w) cs).
Proof.
  induction cs as [|c cs IH]; intros i d Hs H Hd; [reflexivity|]. inversion Hs as [|x1 x2 Hs1 Hs2]; subst. inversion H as [|x1 x2 H1 H2]; subst. cbn [allParts flat_map].
  assert (E : match d with Some d0 => if (i =? d0)%nat then sv_subStr1 c 2 else Some c | None => Some c end = Some c).
  { destruct d as [d|]; [|reflexivity]. replace (i =? d)%nat with false by lia. reflexivity. }
  rewrite E, parts_ok by (destruct Hs1; lia). rewrite IH; [|exact Hs2|exact H2|destruct d; [lia|exact I]]. rewrite namesOf_plain by (apply plain_cases; assumption). reflexivity.
Qed.
Lemma app_split_nth {A} (pre : list A) c post d : nth (length pre) (pre ++ c :: post) d = c /\ skipn (length pre) (pre ++ c :: post) = c :: post.
Proof. split; [apply nth_middle|]. rewrite skipn_app, skipn_all, Nat.sub_diag. reflexivity. Qed.

Lemma iterateOver_plain cs : Forall snd' cs -> Forall (fun c => full w c = false) cs -> iterateOver w cs = Some (flat_map (namesOf w) cs).
Proof.
  intros Hs H. unfold iterateOver. assert (E : lastRoots w (pred (length cs)) (rev cs) None = (None, None)).
  { destruct cs as [|x l0 _] using rev_ind; [reflexivity|]. rewrite rev_app_distr, app_length. cbn [rev app length]. replace (pred (length l0 + 1)) with (length l0) by lia.
    apply Forall_app in Hs, H. destruct Hs as (Hs1 & Hs2). destruct H as (H1 & H2). inversion Hs2 as [|a1 a2 (Ha & _) _]; subst. inversion H2 as [|b1 b2 Hb _]; subst. cbn [lastRoots].
    rewrite drive_full by exact Ha. rewrite full_abs, Hb, andb_false_r. destruct l0 as [|y l0]; [reflexivity|]. cbn [length pred].
    pose proof (lastRoots_skip (rev (y :: l0)) 0 None [] ltac:(apply Forall_rev; exact Hs1) ltac:(apply Forall_rev; exact H1)) as L.
    rewrite app_nil_r, rev_length in L. cbn [length lastRoots] in L. replace (S (length l0) + 0)%nat with (S (length l0)) in L by lia.
    revert L. generalize (rev (y :: l0)). generalize (length l0). clear. intros n l. revert n.
    assert (G : forall l i j a, snd (lastRoots w i l a) = None -> (fst (lastRoots w i l a) = None -> lastRoots w j l a = (None, None))).
    { clear. induction l as [|c l IH]; intros i j a; cbn [lastRoots]; [intros _ E; cbn in *; congruence|]. destruct a as [a|].
      - destruct (hasDriveLetter w c); [discriminate|]. apply IH.
      - destruct (isAbsolute w c); destruct (hasDriveLetter w c); try discriminate; [|apply IH]. intros _ E. exfalso. revert E. generalize i at 1. clear. revert i. induction l as [|c l IH]; intros i k; cbn [lastRoots]; [discriminate|]. destruct (hasDriveLetter w c); [discriminate|]. apply IH. }
    intros n L. apply (G l (S n)); rewrite L; reflexivity. }
  rewrite E. cbn [skipn app]. rewrite allParts_plain; [reflexivity|exact Hs|exact H|exact I].
Qed.
Lemma iterateOver_full pre c post : Forall snd' (pre ++ c :: post) -> full w c = true -> Forall (fun c => full w c = false) post ->
  iterateOver w (pre ++ c :: post) = Some (rootc c :: namesOf w c ++ flat_map (namesOf w) post).
Proof.
  intros Hs Hc Hp. unfold iterateOver. apply Forall_app in Hs. destruct Hs as (Hs1 & Hs2). inversion Hs2 as [|a1 a2 (Ha & Hl) Hs3]; subst.
  assert (E : lastRoots w (pred (length (pre ++ c :: post))) (rev (pre ++ c :: post)) None = (Some (length pre), if w then Some (length pre) else None)).
  { rewrite rev_app_distr, app_length. cbn [rev length]. rewrite <- app_assoc. replace (pred (length pre + S (length post))) with (length (rev post) + length pre)%nat by (rewrite rev_length; lia).
    rewrite lastRoots_skip by (apply Forall_rev; assumption). cbn [app lastRoots]. rewrite full_abs, Hc, drive_full, Hc by exact Ha. assert (Cw : w = true \/ w = false) by (destruct w; auto). destruct Cw as [Ew|Ew].
    - rewrite Ew. reflexivity.
    - replace (w && true) with false by (rewrite Ew; reflexivity). rewrite lastRoots_done by exact Ew. rewrite Ew. reflexivity. }
  destruct (app_split_nth pre c post []) as (N1 & N2).
  assert (Hd : w = true -> exists a b, c = a :: colon :: b).
  { intros Ew. pose proof (drive_full c Ha) as D. rewrite Hc, Ew in D. unfold hasDriveLetter in D. destruct c as [|a [|b r]]; try discriminate. exists a, r. cbn [andb] in D. apply andb_true_iff in D. destruct D as (_ & D). apply Z.eqb_eq in D. subst. reflexivity. }
  assert (Hnat : (length pre <=? length pre)%nat = true) by lia.
  assert (Cw : w = true \/ w = false) by (destruct w; auto). destruct Cw as [Ew|Ew].
  - assert (Er : rootc c = [hd 0 c; colon; sb]) by (unfold rootc; rewrite Ew; reflexivity). assert (En : namesOf w c = names sep (skipn 2 c)) by (rewrite (namesOf_full c) by exact Hc; rewrite Ew; reflexivity).
    rewrite Er, En, E. replace (if w then Some (length pre) else None) with (Some (length pre)) by (rewrite Ew; reflexivity). cbv iota beta.
    rewrite N1. destruct (Hd Ew) as (a & b & ->). change (sv_at (a :: colon :: b) 0) with (Some a). cbv iota beta. rewrite Hnat, N2. cbn [allParts]. rewrite Nat.eqb_refl. cbn [hd app].
    unfold sv_subStr1. rewrite !zlen_cons in *. pose proof (zlen_nonneg b). replace (2 <=? 1 + (1 + zlen b)) with true by lia. change (Z.to_nat 2) with 2%nat. cbn [skipn].
    rewrite parts_ok by lia. rewrite allParts_plain; [|exact Hs3|exact Hp|lia]. reflexivity.
  - assert (Er : rootc c = [sb]) by (unfold rootc; rewrite Ew; reflexivity). assert (En : namesOf w c = names sep c) by (rewrite (namesOf_full c) by exact Hc; rewrite Ew; reflexivity).
    rewrite Er, En, E. replace (if w then Some (length pre) else None) with (@None nat) by (rewrite Ew; reflexivity). cbv iota beta.
    cbn [Nat.leb]. rewrite N2. cbn [allParts app]. rewrite parts_ok by lia. rewrite allParts_plain; [|exact Hs3|exact Hp|exact I]. reflexivity.
Qed.

(* ---- normalising ---- *)
Definition nstep (norm : list (list Z)) (c : list Z) : list (list Z) :=
  if list_eq_dec Z.eq_dec c [dot] then norm else if list_eq_dec Z.eq_dec c dots2 then match norm with [] => [dots2] | _ :: t => t end else c :: norm.
Lemma normLoop_ok cs : forall norm, Forall (fun c => c <> []) cs -> normLoop norm cs = Some (fold_left nstep cs norm).
Proof.
  induction cs as [|c cs IH]; intros norm H; [reflexivity|]. inversion H as [|x y Hc Hr]; subst. cbn [normLoop fold_left].
  assert (E : normStep 0 norm c = Some (nstep norm c)).
  { unfold normStep, nstep. destruct (bytes_eqb_spec c dots2) as [->|N].
    - destruct (list_eq_dec Z.eq_dec dots2 [dot]); [discriminate|]. destruct (list_eq_dec Z.eq_dec dots2 dots2); [|congruence]. destruct norm; reflexivity.
    - destruct (list_eq_dec Z.eq_dec c dots2); [congruence|]. destruct (bytes_eqb_spec c [dot]) as [->|N1]; [destruct (list_eq_dec Z.eq_dec [dot] [dot]); [reflexivity|congruence]|].
      destruct (list_eq_dec Z.eq_dec c [dot]); [congruence|]. destruct c; [congruence|reflexivity]. }
  rewrite E. apply IH. exact Hr.
Qed.

Definition okName (n : list Z) : Prop := nameOk sep n /\ (w = true -> match n with d :: c :: _ => letter d && (c =? colon) = false | _ => True end).
Definition fine (n : list Z) : Prop := okName n /\ ordinary n.
Definition rc_ok (rc : list Z) : Prop := ordinary rc /\ rc <> [] /\ endsSep w rc = true.
(** Any list of names gives names without "." and "..", after a root or ".." if any. *)
Definition shape (rc : list Z) (st : list (list Z)) : Prop := exists r u, st = r ++ u /\ Forall fine r /\ (u = [] \/ u = [dots2] \/ u = [rc]).
Lemma nstep_shape rc st n : okName n -> shape rc st -> shape rc (nstep st n).
Proof.
  intros Hn (r & u & -> & Hr & Hu). unfold nstep. destruct (list_eq_dec Z.eq_dec n [dot]) as [|N1]; [exists r, u; auto|]. destruct (list_eq_dec Z.eq_dec n dots2) as [|N2].
  - destruct r as [|x r]; cbn [app].
    + destruct Hu as [->|[->|Hu]]; [exists [], [dots2]; auto|exists [], []; auto|subst u; exists [], []; auto].
    + exists r, u. inversion Hr; auto.
  - exists (n :: r), u. split; [reflexivity|]. split; [|exact Hu]. constructor; [|exact Hr]. split; [exact Hn|]. split; assumption.
Qed.
Lemma norm_shape rc ns : forall st, Forall okName ns -> shape rc st -> shape rc (fold_left nstep ns st).
Proof. induction ns as [|n ns IH]; intros st H Hs; [exact Hs|]. inversion H; subst. cbn [fold_left]. apply IH; [assumption|]. apply nstep_shape; assumption. Qed.

(** Above something that is not climbed out of, normalising does what the names say. *)
Lemma norm_above x ns : forall s, stays (length s) ns = true -> fold_left nstep ns (s ++ [x]) = fold_left go ns s ++ [x].
Proof.
  induction ns as [|n ns IH]; intros s H; [reflexivity|]. cbn [stays fold_left] in *. unfold nstep at 2, go at 2. destruct (list_eq_dec Z.eq_dec n [dot]); [apply IH; exact H|].
  destruct (list_eq_dec Z.eq_dec n [dot; dot]) as [E|E]; [destruct (list_eq_dec Z.eq_dec n dots2) as [_|N]; [|contradiction]|destruct (list_eq_dec Z.eq_dec n dots2) as [N|_]; [contradiction|]].
  - destruct s as [|y s]; [discriminate|]. cbn [app tl length] in *. apply IH. exact H.
  - apply (IH (n :: s)). exact H.
Qed.
Lemma go_above base ns : forall s, stays (length s) ns = true -> fold_left go ns (s ++ base) = fold_left go ns s ++ base.
Proof.
  induction ns as [|n ns IH]; intros s H; [reflexivity|]. cbn [stays fold_left] in *. unfold go at 2 4. destruct (list_eq_dec Z.eq_dec n [dot]); [apply IH; exact H|].
  destruct (list_eq_dec Z.eq_dec n [dot; dot]) as [E|E].
  - destruct s as [|y s]; [discriminate|]. cbn [app tl length] in *. apply IH. exact H.
  - apply (IH (n :: s)). exact H.
Qed.
Lemma go_keeps ns : forall s, Forall okName ns -> Forall fine s -> Forall fine (fold_left go ns s).
Proof.
  induction ns as [|n ns IH]; intros s H Hs; [exact Hs|]. inversion H; subst. cbn [fold_left]. apply IH; [assumption|]. unfold go. destruct (list_eq_dec Z.eq_dec n [dot]); [exact Hs|].
  destruct (list_eq_dec Z.eq_dec n [dot; dot]); [destruct Hs; [constructor|assumption]|]. constructor; [|exact Hs]. split; [assumption|]. split; assumption.
Qed.
Lemma norm_once ns : forall s, Forall okName ns -> Forall fine s -> stays (S (length s)) ns = true -> exists r, Forall fine r /\
  (fold_left nstep ns s = r /\ (forall base, fold_left go ns (s ++ base) = r ++ base) \/
   fold_left nstep ns s = r ++ [dots2] /\ (forall base, fold_left go ns (s ++ base) = r ++ tl base)).
Proof.
  induction ns as [|n ns IH]; intros s Hn Hs H; [exists s; split; [exact Hs|left; auto]|]. inversion Hn as [|x y Hn1 Hn2]; subst. cbn [stays fold_left] in *. unfold nstep at 2 4. unfold go at 2 4.
  destruct (list_eq_dec Z.eq_dec n [dot]); [apply IH; assumption|].
  destruct (list_eq_dec Z.eq_dec n [dot; dot]) as [E|E]; [destruct (list_eq_dec Z.eq_dec n dots2) as [_|N]; [|contradiction]|destruct (list_eq_dec Z.eq_dec n dots2) as [N|_]; [contradiction|]].
  - destruct s as [|y s]; cbn [app tl length] in *; [|inversion Hs; apply IH; assumption]. exists (fold_left go ns []). split; [apply go_keeps; assumption|].
    right. split; [exact (norm_above dots2 ns [] H)|]. intros base. exact (go_above (tl base) ns [] H).
  - destruct (IH (n :: s) Hn2) as (r & C); [constructor; [split; [exact Hn1|split; assumption]|exact Hs]|exact H|]. exists r. exact C.
Qed.

(* ---- writing and reading back ---- *)
Lemma endsSep_app a b : b <> [] -> endsSep w (a ++ b) = endsSep w b.
Proof. intros H. unfold endsSep. rewrite rev_app_distr. destruct (rev b) eqn:E; [|reflexivity]. apply (f_equal (@rev Z)) in E. rewrite rev_involutive in E. cbn [rev] in E. congruence. Qed.
Lemma endsSep_name n : nameOk sep n -> endsSep w n = false.
Proof.
  intros (H1 & H2). unfold endsSep. destruct (rev n) as [|c r] eqn:E; [reflexivity|]. assert (H : In c n) by (rewrite in_rev, E; left; reflexivity). unfold none in H2. rewrite Forall_forall in H2. apply H2. exact H.
Qed.
Lemma joinLoop_names ns : forall out, joinLoop w true out ns = (out ++ flat_map (cons sb) ns, true).
Proof. induction ns as [|n ns IH]; intros out; cbn [joinLoop flat_map]; [rewrite app_nil_r; reflexivity|]. rewrite IH. rewrite <- !app_assoc. reflexivity. Qed.
Lemma joined_flat n ns : joined [sb] (n :: ns) = n ++ flat_map (cons sb) ns.
Proof. revert n. induction ns as [|m ns IH]; intros n; [cbn [joined flat_map]; rewrite app_nil_r; reflexivity|]. cbn [flat_map]. change (joined [sb] (n :: m :: ns)) with (n ++ [sb] ++ joined [sb] (m :: ns)). rewrite IH. reflexivity. Qed.
Lemma join_names n ns : nameOk sep n -> forall out, joinLoop w false out (n :: ns) = (out ++ joined [sb] (n :: ns), true).
Proof.
  intros H out. cbn [joinLoop]. destruct n as [|a n]; [destruct H; congruence|]. rewrite (endsSep_name _ H). cbn [negb]. rewrite joinLoop_names, joined_flat, <- app_assoc. reflexivity.
Qed.
Lemma join_root rc ns : rc <> [] -> endsSep w rc = true -> Forall (nameOk sep) ns -> joinLoop w false [] (rc :: ns) = (rc ++ joined [sb] ns, nonempty ns).
Proof.
  intros H1 H2 H3. cbn [joinLoop]. destruct rc as [|a rc]; [congruence|]. rewrite H2. cbn [negb app]. destruct ns as [|n ns]; [cbn [joinLoop joined]; rewrite app_nil_r; reflexivity|].
  inversion H3; subst. rewrite join_names by assumption. reflexivity.
Qed.
Lemma endsSep_joined n ns : Forall (nameOk sep) (n :: ns) -> endsSep w (joined [sb] (n :: ns)) = false.
Proof.
  revert n. induction ns as [|m ns IH]; intros n H; inversion H as [|x y Hn Hns]; subst; [apply endsSep_name; exact Hn|].
  change (joined [sb] (n :: m :: ns)) with (n ++ [sb] ++ joined [sb] (m :: ns)). rewrite endsSep_app by discriminate. change ([sb] ++ joined [sb] (m :: ns)) with ([sb] ++ joined [sb] (m :: ns)).
  rewrite endsSep_app; [apply IH; exact Hns|]. rewrite joined_flat. inversion Hns as [|x y (Hm & _) _]; subst. destruct m; [congruence|discriminate].
Qed.
Lemma joined_nn n ns : nameOk sep n -> joined [sb] (n :: ns) <> [].
Proof. intros (H & _). rewrite joined_flat. destruct n; [congruence|discriminate]. Qed.
Lemma anchor_here ww a l : isSepByte ww a = false -> (ww = true -> match l with c :: _ => letter a && (c =? colon) = false | [] => True end) -> anchorOf ww (a :: l) = Here.
Proof.
  intros Ha H. unfold anchorOf. rewrite !sepOf_eq, Ha. destruct ww; [|reflexivity]. destruct l as [|c r]; [reflexivity|]. rewrite (H eq_refl). reflexivity.
Qed.
(** Reading back a path without a root. *)
Definition trail (t : bool) : list Z := if t then [sb] else [].
Lemma read_plain n ns t : Forall okName (n :: ns) -> let q := joined [sb] (n :: ns) ++ trail t in plain w q = true /\ full w q = false /\ namesOf w q = n :: ns /\ endsSep w q = t /\ q <> [].
Proof.
  intros H q. assert (Hn : Forall (nameOk sep) (n :: ns)) by (eapply Forall_impl; [|exact H]; intros x (Hx & _); exact Hx). inversion H as [|x y ((Hn1 & Hn2) & Hd) Hns]; subst.
  assert (A : anchorOf w q = Here).
  { subst q. rewrite joined_flat. destruct n as [|a n]; [congruence|]. inversion Hn2 as [|x y Ha Hn3]; subst. cbn [app]. apply anchor_here; [exact Ha|].
    intros Ew. specialize (Hd Ew). destruct n as [|b n]; [|exact Hd]. cbn [app]. assert (Hc : sb =? colon = false) by (unfold sepByte; destruct w; reflexivity).
    destruct ns as [|m ns]; cbn [flat_map app]; [destruct t; cbn [trail]; [|exact I]|]; rewrite Hc, andb_false_r; reflexivity. }
  unfold plain, full, namesOf. rewrite A. split; [reflexivity|]. split; [reflexivity|]. rewrite (names_ext (sepOf w) sep) by apply sepOf_eq.
  assert (Hnn : joined [sb] (n :: ns) <> []) by (apply joined_nn; split; assumption).
  subst q. destruct t; cbn [trail].
  - rewrite names_joined_sep by (try apply sb_sep; exact Hn). split; [reflexivity|]. split; [rewrite endsSep_app by discriminate; unfold endsSep; cbn [rev app]; apply sb_sep|]. destruct (joined [sb] (n :: ns)); discriminate.
  - rewrite app_nil_r, names_joined by (try apply sb_sep; exact Hn). split; [reflexivity|]. split; [apply endsSep_joined; exact Hn|exact Hnn].
Qed.

Lemma full_inv c : full w c = true -> (w = true -> exists d s r, c = d :: colon :: s :: r /\ letter d = true /\ sep s = true /\ anchorOf w c = DriveRoot d) /\ (w = false -> exists s r, c = s :: r /\ sep s = true /\ anchorOf w c = Root).
Proof.
  unfold full. split; intros Ew.
  - rewrite Ew in *. unfold anchorOf in *. destruct c as [|d [|e r]]; [discriminate|destruct (sepOf true d); discriminate|]. destruct (letter d && (e =? colon)) eqn:E; [|destruct (sepOf true d); discriminate].
    apply andb_true_iff in E. destruct E as (E1 & E2). apply Z.eqb_eq in E2. subst e. destruct r as [|s r]; [discriminate|]. rewrite sepOf_eq in *. destruct (isSepByte true s) eqn:Es; [|discriminate]. exists d, s, r. auto.
  - rewrite Ew in *. unfold anchorOf in *. destruct c as [|s r]; [discriminate|]. rewrite sepOf_eq in *. destruct (isSepByte false s) eqn:Es; [|discriminate]. exists s, r. auto.
Qed.
Lemma w_cases : w = true \/ w = false.
Proof. destruct w; auto. Qed.
Lemma rootc_ok c : full w c = true -> rc_ok (rootc c).
Proof.
  intros H. destruct (full_inv c H) as (HT & HF). unfold rc_ok, rootc, ordinary. destruct w_cases as [Ew|Ew].
  - destruct (HT Ew) as (d & s & r & -> & _). rewrite Ew. cbn [hd]. split; [split; discriminate|]. split; [discriminate|reflexivity].
  - rewrite Ew. split; [split; discriminate|]. split; [discriminate|reflexivity].
Qed.
Lemma read_root c ns t : full w c = true -> Forall (nameOk sep) ns -> let q := rootc c ++ joined [sb] ns ++ trail (t && nonempty ns) in
  full w q = true /\ namesOf w q = ns /\ rootc q = rootc c /\ anchorOf w q = anchorOf w c /\ q <> [] /\ (nonempty ns = true -> endsSep w q = t).
Proof.
  intros H Hn q. destruct (full_inv c H) as (HT & HF).
  assert (A : full w q = true /\ rootc q = rootc c /\ anchorOf w q = anchorOf w c /\ q <> [] /\ exists r, (if w then skipn 2 q else q) = sb :: r /\ r = joined [sb] ns ++ trail (t && nonempty ns)).
  { subst q. destruct w_cases as [Ew|Ew].
    - destruct (HT Ew) as (d & s & r & -> & Hd & Hs & Ha). rewrite Ha. unfold rootc, full, anchorOf. pose proof sb_sep as Hb. rewrite Ew in *. cbn [hd app]. rewrite Hd. cbn [andb]. rewrite Z.eqb_refl. rewrite sepOf_eq.
      rewrite Hb. split; [reflexivity|]. split; [reflexivity|]. split; [reflexivity|]. split; [discriminate|]. eexists. split; reflexivity.
    - destruct (HF Ew) as (s & r & -> & Hs & Ha). rewrite Ha. unfold rootc, full, anchorOf. pose proof sb_sep as Hb. rewrite Ew in *. cbn [app]. rewrite sepOf_eq. rewrite Hb.
      split; [reflexivity|]. split; [reflexivity|]. split; [reflexivity|]. split; [discriminate|]. eexists. split; reflexivity. }
  destruct A as (A1 & A2 & A3 & A4 & r & A5 & A6). split; [exact A1|]. split; [|split; [exact A2|split; [exact A3|split; [exact A4|]]]].
  - rewrite namesOf_full by exact A1. rewrite A5, names_sep by apply sb_sep. rewrite A6. destruct ns as [|n ns]; [rewrite andb_false_r; reflexivity|]. cbn [nonempty]. rewrite andb_true_r.
    destruct t; cbn [trail]; [apply names_joined_sep; [apply sb_sep|exact Hn]|rewrite app_nil_r; apply names_joined; [apply sb_sep|exact Hn]].
  - intros Hne. destruct ns as [|n ns]; [discriminate|]. cbn [nonempty]. subst q. cbn [nonempty]. rewrite andb_true_r. inversion Hn; subst. pose proof (joined_nn n ns ltac:(assumption)) as Hj.
    rewrite endsSep_app by (destruct (joined [sb] (n :: ns)); [congruence|discriminate]). destruct t; cbn [trail].
    + rewrite endsSep_app by discriminate. unfold endsSep. cbn [rev app]. apply sb_sep.
    + rewrite app_nil_r. apply endsSep_joined. exact Hn.
Qed.

(* ---- joining ---- *)
Definition snd2 (c : list Z) : Prop := snd' c /\ Forall okName (namesOf w c).
Lemma sound_ok c : sound w c = true -> snd2 c.
Proof.
  unfold sound. intros H. apply andb_true_iff in H. destruct H as (H & H3). apply andb_true_iff in H. destruct H as (H1 & H2). split; [split; [exact H1|lia]|].
  assert (F : Forall (nameOk sep) (namesOf w c)).
  { destruct (full w c) eqn:E; [rewrite namesOf_full by exact E|rewrite namesOf_plain by exact H1]; apply names_free. }
  unfold noDrives in H2. rewrite Forall_forall in *. intros n Hn. split; [apply F; exact Hn|]. intros Ew. rewrite Ew in H2. cbn [negb orb] in H2. rewrite Ew in Hn. rewrite forallb_forall in H2. specialize (H2 n Hn).
  destruct n as [|a [|b n]]; [exact I|exact I|]. destruct (letter a && (b =? colon)); [discriminate|reflexivity].
Qed.
(** The normalised components, last first. *)
Definition stack (cs : list (list Z)) (rooted : bool) (root : list Z) : list (list Z) :=
  fold_left nstep (snd (route w false [] cs)) (if rooted then [root] else []).
Lemma flat_okName post : Forall snd2 post -> Forall okName (flat_map (namesOf w) post).
Proof. intros H. induction H as [|c post (_ & Hc) H IH]; [constructor|]. cbn [flat_map]. apply Forall_app. split; assumption. Qed.
Lemma stack_ok cs : Forall snd2 cs -> exists root, getNormalizedComps w cs = Some (rev (stack cs (fst (route w false [] cs)) root)) /\ rc_ok root /\ Forall okName (snd (route w false [] cs)) /\
  (fst (route w false [] cs) = true -> exists pre c post, cs = pre ++ c :: post /\ full w c = true /\ Forall (fun c => full w c = false) post /\ root = rootc c /\ snd (route w false [] cs) = namesOf w c ++ flat_map (namesOf w) post) /\
  (fst (route w false [] cs) = false -> Forall (fun c => full w c = false) cs /\ snd (route w false [] cs) = flat_map (namesOf w) cs).
Proof.
  intros H. assert (Hs : Forall snd' cs) by (eapply Forall_impl; [|exact H]; intros x (Hx & _); exact Hx). unfold stack.
  destruct (cases_full cs) as [Hp|(pre & c & post & -> & Hc & Hp)].
  - exists [sb]. rewrite (route_plain cs false [] Hp). cbn [fst snd app]. unfold getNormalizedComps. rewrite iterateOver_plain by assumption. pose proof (flat_okName cs H) as F.
    rewrite normLoop_ok by (eapply Forall_impl; [|exact F]; intros x ((Hx & _) & _); exact Hx). split; [reflexivity|]. split; [|split; [exact F|split; [discriminate|auto]]].
    unfold rc_ok, ordinary, endsSep, dot, sepByte, isSepByte. cbn [rev app]. destruct w; (split; [split; discriminate|split; [discriminate|reflexivity]]).
  - exists (rootc c). rewrite (route_full c post Hc Hp). cbn [fst snd]. unfold getNormalizedComps. rewrite iterateOver_full by assumption.
    apply Forall_app in H. destruct H as (H1 & H2). inversion H2 as [|x y (_ & Hn) H3]; subst. pose proof (flat_okName post H3) as F. pose proof (rootc_ok c Hc) as (R1 & R2 & R3).
    assert (F' : Forall okName (namesOf w c ++ flat_map (namesOf w) post)) by (apply Forall_app; auto).
    rewrite normLoop_ok by (constructor; [exact R2|]; eapply Forall_impl; [|exact F']; intros x ((Hx & _) & _); exact Hx). split.
    + cbn [fold_left]. unfold nstep at 2. destruct R1 as (R4 & R5). destruct (list_eq_dec Z.eq_dec (rootc c) [dot]); [congruence|]. destruct (list_eq_dec Z.eq_dec (rootc c) dots2); [contradiction|]. reflexivity.
    + split; [split; [assumption|auto]|]. split; [exact F'|]. split; [|discriminate]. intros _. exists pre, c, post. auto.
Qed.
Definition lastSep (cs : list (list Z)) : bool := match rev cs with [] => true | last :: _ => match last with [] => true | _ => endsSep w last end end.
Definition render (cs : list (list Z)) (norm : list (list Z)) : list Z :=
  match norm with
  | [] => match rev cs with [] :: _ => [dot; sb] | _ => [dot] end
  | _ => let '(out, needSep) := joinLoop w false [] norm in if lastSep cs && needSep then out ++ [sb] else out
  end.
Lemma join_render cs norm : cs <> [] -> getNormalizedComps w cs = Some norm -> joinAndNormalize w cs = Some (render cs norm).
Proof.
  intros Hc H. unfold joinAndNormalize. rewrite H. unfold render, lastSep. destruct norm as [|x norm]; [reflexivity|]. destruct (joinLoop w false [] (x :: norm)) as (out & ns).
  destruct (rev cs) eqn:E; [|reflexivity]. apply (f_equal (@rev _)) in E. rewrite rev_involutive in E. cbn in E. congruence.
Qed.
Lemma trail_if (b : bool) (l : list Z) : (if b then l ++ [sb] else l) = l ++ trail b.
Proof. destruct b; [reflexivity|]. cbn [trail]. rewrite app_nil_r. reflexivity. Qed.
Lemma fine_name n : fine n -> nameOk sep n.
Proof. intros ((H & _) & _). exact H. Qed.
Lemma dots_ok : okName dots2.
Proof. split; [split; [discriminate|]|]. - unfold none, dots2, dot, isSepByte. destruct w; repeat constructor. - intros _. reflexivity. Qed.
Lemma dot_ok : okName [dot].
Proof. split; [split; [discriminate|]|]. - unfold none, dot, isSepByte. destruct w; repeat constructor. - intros _. exact I. Qed.
Lemma read_dot t : plain w ([dot] ++ trail t) = true /\ full w ([dot] ++ trail t) = false /\ namesOf w ([dot] ++ trail t) = [[dot]].
Proof. destruct (read_plain [dot] [] t) as (H1 & H2 & H3 & _); [constructor; [exact dot_ok|constructor]|]. auto. Qed.

(** Any join gives a tidy path, which normalising does not change. *)
Lemma shape_list rc st : shape rc st -> exists u ns, rev st = u ++ ns /\ Forall fine ns /\ (u = [] \/ u = [dots2] \/ u = [rc]).
Proof.
  intros (r & u & -> & Hr & Hu). exists u, (rev r). rewrite rev_app_distr. split; [|split; [apply Forall_rev; exact Hr|exact Hu]].
  destruct Hu as [->|[->|Hu]]; [reflexivity|reflexivity|subst u; reflexivity].
Qed.
Lemma self_plain q : plain w q = true -> Forall okName (namesOf w q) -> zlen q < 2 ^ 32 -> getNormalizedComps w [q] = Some (rev (fold_left nstep (namesOf w q) [])).
Proof.
  intros H1 H2 H3. assert (Hf : full w q = false) by (unfold plain, full in *; destruct (anchorOf w q); congruence). assert (Hs : snd2 q) by (split; [split; [rewrite H1, orb_true_r; reflexivity|exact H3]|exact H2]).
  destruct (stack_ok [q] ltac:(repeat constructor; apply Hs)) as (root & E & _). unfold stack in E. cbn [route] in E. rewrite Hf in E. cbn [fst snd app] in E. exact E.
Qed.
Lemma self_full q : full w q = true -> Forall okName (namesOf w q) -> zlen q < 2 ^ 32 -> getNormalizedComps w [q] = Some (rev (fold_left nstep (namesOf w q) [rootc q])).
Proof.
  intros H1 H2 H3. assert (Hs : snd2 q) by (split; [split; [rewrite H1; reflexivity|exact H3]|exact H2]).
  destruct (stack_ok [q] ltac:(repeat constructor; apply Hs)) as (root & E & _ & _ & R & _). unfold stack in E. cbn [route] in E, R. rewrite H1 in E, R. cbn [fst snd app] in E, R. rewrite E.
  destruct (R eq_refl) as (pre & c & post & E1 & E2 & _ & -> & _). destruct pre as [|x pre]; [injection E1 as <- <-; reflexivity|]. destruct pre; discriminate.
Qed.
Lemma nstep_fine ns : forall st, Forall fine ns -> fold_left nstep ns st = rev ns ++ st.
Proof.
  induction ns as [|n ns IH]; intros st H; [reflexivity|]. inversion H as [|x y (_ & Hn1 & Hn2) Hr]; subst. cbn [fold_left rev]. rewrite IH by exact Hr. unfold nstep.
  destruct (list_eq_dec Z.eq_dec n [dot]); [contradiction|]. destruct (list_eq_dec Z.eq_dec n dots2); [contradiction|]. rewrite <- app_assoc. reflexivity.
Qed.
Lemma go_fine ns : forall st, Forall fine ns -> fold_left go ns st = rev ns ++ st.
Proof.
  induction ns as [|n ns IH]; intros st H; [reflexivity|]. inversion H as [|x y (_ & Hn1 & Hn2) Hr]; subst. cbn [fold_left rev]. rewrite IH by exact Hr. unfold go.
  destruct (list_eq_dec Z.eq_dec n [dot]); [contradiction|]. destruct (list_eq_dec Z.eq_dec n [dot; dot]); [contradiction|]. rewrite <- app_assoc. reflexivity.
Qed.
Lemma names_tidy n ns t : okName n -> n <> [dot] -> Forall fine ns -> (n = dots2 \/ fine n) -> let q := joined [sb] (n :: ns) ++ trail t in
  plain w q = true /\ full w q = false /\ namesOf w q = n :: ns /\ tidy w q /\ (zlen q < 2 ^ 31 -> joinAndNormalize w [q] = Some q).
Proof.
  intros Hn Hd Hns Hor q. assert (F : Forall okName (n :: ns)) by (constructor; [exact Hn|]; eapply Forall_impl; [|exact Hns]; intros x (Hx & _); exact Hx).
  destruct (read_plain n ns t F) as (R1 & R2 & R3 & R4 & R5). fold q in R1, R2, R3, R4, R5. split; [exact R1|]. split; [exact R2|]. split; [exact R3|]. split.
  - right. destruct Hor as [->|Hf].
    + exists [dots2], ns. rewrite R3. split; [reflexivity|]. split; [eapply Forall_impl; [|exact Hns]; intros x (_ & Hx); exact Hx|]. right. split; [reflexivity|exact R2].
    + exists [], (n :: ns). rewrite R3. split; [reflexivity|]. split; [|auto]. constructor; [apply Hf|]. eapply Forall_impl; [|exact Hns]; intros x (_ & Hx); exact Hx.
  - intros Hl. assert (E : rev (fold_left nstep (n :: ns) []) = n :: ns).
    { cbn [fold_left]. unfold nstep at 2. destruct (list_eq_dec Z.eq_dec n [dot]); [contradiction|]. destruct (list_eq_dec Z.eq_dec n dots2) as [->|N]; rewrite nstep_fine by exact Hns; rewrite rev_app_distr, rev_involutive; reflexivity. }
    rewrite (join_render [q] (n :: ns)); [|discriminate|rewrite self_plain by (try rewrite R3; try assumption; lia); rewrite R3, E; reflexivity].
    unfold render, lastSep. cbn [rev app]. rewrite join_names by apply Hn. rewrite andb_true_r. destruct q as [|a q'] eqn:Eq; [congruence|]. rewrite R4, trail_if. cbn [app]. f_equal. exact Eq.
Qed.
Lemma root_tidy c ns t : full w c = true -> Forall fine ns -> let q := rootc c ++ joined [sb] ns ++ trail (t && nonempty ns) in
  full w q = true /\ namesOf w q = ns /\ anchorOf w q = anchorOf w c /\ tidy w q /\ (zlen q < 2 ^ 31 -> joinAndNormalize w [q] = Some q).
Proof.
  intros Hc Hns q. assert (F : Forall okName ns) by (eapply Forall_impl; [|exact Hns]; intros x (Hx & _); exact Hx). assert (F' : Forall (nameOk sep) ns) by (eapply Forall_impl; [|exact F]; intros x (Hx & _); exact Hx).
  destruct (read_root c ns t Hc F') as (R1 & R2 & R3 & R4 & R5 & R6). fold q in R1, R2, R3, R4, R5, R6. split; [exact R1|]. split; [exact R2|]. split; [exact R4|]. split.
  - right. exists [], ns. rewrite R2. split; [reflexivity|]. split; [eapply Forall_impl; [|exact Hns]; intros x (_ & Hx); exact Hx|auto].
  - intros Hl. assert (E : rev (fold_left nstep ns [rootc q]) = rootc c :: ns) by (rewrite nstep_fine by exact Hns; rewrite rev_app_distr, rev_involutive, R3; reflexivity).
    destruct (rootc_ok c Hc) as (_ & K1 & K2).
    rewrite (join_render [q] (rootc c :: ns)); [|discriminate|rewrite self_full by (try rewrite R2; try assumption; lia); rewrite R2, E; reflexivity].
    assert (El : lastSep [q] = endsSep w q) by (unfold lastSep; cbn [rev app]; destruct q; [congruence|reflexivity]).
    unfold render. rewrite El, join_root by assumption. rewrite trail_if, <- app_assoc. unfold q at 2. do 3 f_equal.
    destruct (nonempty ns) eqn:En; [rewrite (R6 eq_refl); reflexivity|]. rewrite !andb_false_r. reflexivity.
Qed.

Lemma resolve_plain cwd at_ c : plain w c = true -> resolve w cwd at_ c = (fst at_, fold_left go (namesOf w c) (snd at_)).
Proof. unfold plain, resolve. destruct (anchorOf w c); try discriminate. reflexivity. Qed.
Lemma resolve_all_plain cwd cs : forall at_, Forall snd2 cs -> Forall (fun c => full w c = false) cs ->
  fold_left (resolve w cwd) cs at_ = (fst at_, fold_left go (flat_map (namesOf w) cs) (snd at_)).
Proof.
  induction cs as [|c cs IH]; intros at_ Hs H; [destruct at_; reflexivity|]. inversion Hs as [|x y (Hc & _) Hs2]; subst. inversion H as [|x y H1 H2]; subst. cbn [fold_left flat_map].
  rewrite IH by assumption. rewrite resolve_plain by (apply plain_cases; assumption). cbn [fst snd]. rewrite fold_left_app. reflexivity.
Qed.
Lemma resolve_full cwd at_ c : full w c = true -> resolve w cwd at_ c = (match anchorOf w c with DriveRoot d => d | _ => fst at_ end, fold_left go (namesOf w c) []).
Proof. unfold full, resolve. destruct (anchorOf w c); try discriminate; reflexivity. Qed.
Lemma posix_fst cwd cs : forall at_, w = false -> fst (fold_left (resolve w cwd) cs at_) = fst at_.
Proof.
  induction cs as [|c cs IH]; intros at_ Ew; [reflexivity|]. cbn [fold_left]. rewrite IH by exact Ew. unfold resolve, anchorOf. rewrite Ew. destruct c as [|s c]; [reflexivity|]. destruct (sepOf false s); reflexivity.
Qed.
Lemma resolve_all_full cwd at_ pre c post : Forall snd2 post -> full w c = true -> Forall (fun c => full w c = false) post ->
  fold_left (resolve w cwd) (pre ++ c :: post) at_ = (match anchorOf w c with DriveRoot d => d | _ => fst at_ end, fold_left go (namesOf w c ++ flat_map (namesOf w) post) []).
Proof.
  intros Hs Hc Hp. rewrite fold_left_app. cbn [fold_left]. rewrite resolve_all_plain by assumption. rewrite resolve_full by exact Hc. cbn [fst snd]. rewrite fold_left_app. f_equal.
  destruct w_cases as [Ew|Ew].
  - destruct (proj1 (full_inv c Hc) Ew) as (d & s & r & _ & _ & _ & ->). reflexivity.
  - destruct (proj2 (full_inv c Hc) Ew) as (s & r & _ & _ & ->). apply posix_fst. exact Ew.
Qed.

(** Joining paths gives a tidy path, which normalising does not change. *)
Theorem join_tidy cs : cs <> [] -> forallb (sound w) cs = true -> exists q, joinAndNormalize w cs = Some q /\ tidy w q /\
  (q = [dot; sb] \/ (zlen q < 2 ^ 31 -> joinAndNormalize w [q] = Some q)).
Proof.
  intros Hne Hs. assert (H : Forall snd2 cs) by (rewrite forallb_forall in Hs; apply Forall_forall; intros x Hx; apply sound_ok; auto).
  destruct (stack_ok cs H) as (root & E & (R1 & R2 & R3) & Hn & HT & HF). rewrite (join_render cs _ Hne E). eexists. split; [reflexivity|]. unfold stack.
  assert (Sh : shape (if fst (route w false [] cs) then root else dots2) (fold_left nstep (snd (route w false [] cs)) (if fst (route w false [] cs) then [root] else []))).
  { apply norm_shape; [exact Hn|]. destruct (fst (route w false [] cs)); [exists [], [root]|exists [], []]; auto. }
  destruct (shape_list _ _ Sh) as (u & ns & Es & Hns & Hu). rewrite Es.
  assert (Dot : tidy w [dot] /\ joinAndNormalize w [[dot]] = Some [dot]).
  { destruct (read_dot false) as (D1 & _ & D3). cbn [trail app] in D1, D3. split; [left; exact D3|]. rewrite (join_render [[dot]] []); [reflexivity|discriminate|]. rewrite self_plain; [rewrite D3; reflexivity|exact D1| |reflexivity]. rewrite D3. constructor; [exact dot_ok|constructor]. }
  assert (Plain : forall n ns, rev (fold_left nstep (snd (route w false [] cs)) (if fst (route w false [] cs) then [root] else [])) = n :: ns -> okName n -> n <> [dot] -> Forall fine ns -> (n = dots2 \/ fine n) ->
    tidy w (render cs (n :: ns)) /\ (render cs (n :: ns) = [dot; sb] \/ (zlen (render cs (n :: ns)) < 2 ^ 31 -> joinAndNormalize w [render cs (n :: ns)] = Some (render cs (n :: ns))))).
  { intros n ns' _ K1 K2 K3 K4. unfold render. rewrite join_names by apply K1. rewrite andb_true_r, trail_if. cbn [app]. destruct (names_tidy n ns' (lastSep cs) K1 K2 K3 K4) as (_ & _ & _ & T1 & T2). auto. }
  destruct Hu as [->|[->|Hu]]; cbn [app] in *.
  - destruct ns as [|n ns].
    + unfold render. destruct (rev cs) as [|[|a l] r]; [exact (conj (proj1 Dot) (or_intror (fun _ => proj2 Dot)))| |exact (conj (proj1 Dot) (or_intror (fun _ => proj2 Dot)))].
      split; [|left; reflexivity]. left. destruct (read_dot true) as (_ & _ & D3). exact D3.
    + inversion Hns as [|x y Hf Hr]; subst. apply Plain; [exact Es|apply Hf|apply Hf|exact Hr|auto].
  - apply Plain; [exact Es|exact dots_ok|discriminate|exact Hns|auto].
  - subst u. destruct (fst (route w false [] cs)) eqn:Er.
    + destruct (HT eq_refl) as (pre & c & post & Ec & Hc & Hp & -> & _). cbn [app]. unfold render. rewrite join_root; [|exact R2|exact R3|eapply Forall_impl; [|exact Hns]; intros x Hx; apply fine_name; exact Hx].
      rewrite trail_if, <- app_assoc. destruct (root_tidy c ns (lastSep cs) Hc Hns) as (_ & _ & _ & T1 & T2). auto.
    + apply Plain; [exact Es|exact dots_ok|discriminate|exact Hns|auto].
Qed.

(** Joining paths gives a path with the same meaning. *)
Theorem join_meaning cs : cs <> [] -> forallb (sound w) cs = true -> stays (if fst (route w false [] cs) then 0 else 1) (snd (route w false [] cs)) = true ->
  exists q, joinAndNormalize w cs = Some q /\ full w q = fst (route w false [] cs) /\ forall cwd at_, resolve w cwd at_ q = fold_left (resolve w cwd) cs at_.
Proof.
  intros Hne Hs Hst. assert (H : Forall snd2 cs) by (rewrite forallb_forall in Hs; apply Forall_forall; intros x Hx; apply sound_ok; auto).
  destruct (stack_ok cs H) as (root & E & (R1 & R2 & R3) & Hn & HT & HF). rewrite (join_render cs _ Hne E). eexists. split; [reflexivity|]. unfold stack.
  destruct (fst (route w false [] cs)) eqn:Er.
  - destruct (HT eq_refl) as (pre & c & post & Ec & Hc & Hp & -> & Ens). pose proof (norm_above (rootc c) _ [] Hst) as Na. cbn [app] in Na. rewrite Na, rev_app_distr. cbn [rev app].
    pose proof (go_keeps _ [] Hn ltac:(constructor)) as Hf. set (g := fold_left go (snd (route w false [] cs)) []) in *.
    assert (Hg : Forall fine (rev g)) by (apply Forall_rev; exact Hf). unfold render. rewrite join_root; [|exact R2|exact R3|eapply Forall_impl; [|exact Hg]; intros x Hx; apply fine_name; exact Hx].
    rewrite trail_if, <- app_assoc. destruct (root_tidy c (rev g) (lastSep cs) Hc Hg) as (T1 & T2 & T3 & _). split; [exact T1|]. intros cwd at_. rewrite resolve_full by exact T1. rewrite T2, T3.
    rewrite Ec. rewrite resolve_all_full; [|rewrite Ec in H; apply Forall_app in H; destruct H as (_ & H); inversion H; assumption|exact Hc|exact Hp]. f_equal.
    rewrite go_fine by exact Hg. rewrite rev_involutive, app_nil_r. unfold g. rewrite Ens. reflexivity.
  - destruct (HF eq_refl) as (Hp & Ens). destruct (norm_once _ [] Hn ltac:(constructor) Hst) as (r & Hr & C).
    assert (Hrr : Forall fine (rev r)) by (apply Forall_rev; exact Hr).
    assert (K : forall n ns, okName n -> n <> [dot] -> Forall fine ns -> (n = dots2 \/ fine n) ->
      (forall base : list (list Z), fold_left go (n :: ns) base = fold_left go (snd (route w false [] cs)) base) ->
      full w (render cs (n :: ns)) = false /\ forall cwd at_, resolve w cwd at_ (render cs (n :: ns)) = fold_left (resolve w cwd) cs at_).
    { intros n ns K1 K2 K3 K4 K6. unfold render. rewrite join_names by apply K1. rewrite andb_true_r, trail_if. cbn [app]. destruct (names_tidy n ns (lastSep cs) K1 K2 K3 K4) as (T1 & T2 & T3 & _).
      split; [exact T2|]. intros cwd at_. rewrite resolve_plain by exact T1. rewrite T3, K6, Ens. rewrite resolve_all_plain by assumption. reflexivity. }
    destruct C as [(C1 & C2)|(C1 & C2)].
    + rewrite C1. destruct (rev r) as [|n ns] eqn:Err.
      * assert (Hr0 : r = []) by (apply (f_equal (@rev _)) in Err; rewrite rev_involutive in Err; exact Err). clear K.
        assert (D : exists t, render cs [] = [dot] ++ trail t) by (unfold render; destruct (rev cs) as [|[|a l] rr]; [exists false|exists true|exists false]; reflexivity). destruct D as (t & ->).
        destruct (read_dot t) as (D1 & D2 & D3). split; [exact D2|]. intros cwd at_. rewrite resolve_plain by exact D1. rewrite D3, resolve_all_plain by assumption. rewrite <- Ens.
        specialize (C2 (snd at_)). cbn [app] in C2. rewrite C2, Hr0. reflexivity.
      * inversion Hrr as [|x y Hf Hf2]. apply K; [apply Hf|apply Hf|exact Hf2|auto|]. intros base. specialize (C2 base). cbn [app] in C2. rewrite C2. rewrite <- Err.
        rewrite go_fine by (rewrite Err; exact Hrr). rewrite rev_involutive. reflexivity.
    + rewrite C1, rev_app_distr. cbn [rev app]. apply K; [exact dots_ok|discriminate|exact Hrr|auto|]. intros base. specialize (C2 base). cbn [app] in C2. rewrite C2. cbn [fold_left].
      change (go base dots2) with (tl base). rewrite go_fine by exact Hrr. rewrite rev_involutive. reflexivity.
Qed.

(* ---- relative paths ---- *)
Lemma norm_zero ns : forall s, stays (length s) ns = true -> fold_left nstep ns s = fold_left go ns s.
Proof.
  induction ns as [|n ns IH]; intros s H; [reflexivity|]. cbn [stays fold_left] in *. unfold nstep at 2, go at 2. destruct (list_eq_dec Z.eq_dec n [dot]); [apply IH; exact H|].
  destruct (list_eq_dec Z.eq_dec n [dot; dot]) as [E|E]; [destruct (list_eq_dec Z.eq_dec n dots2) as [_|N]; [|contradiction]|destruct (list_eq_dec Z.eq_dec n dots2) as [N|_]; [contradiction|]].
  - destruct s as [|y s]; [discriminate|]. cbn [tl length] in *. apply IH. exact H.
  - apply (IH (n :: s)). exact H.
Qed.
Definition base (p : list Z) : list (list Z) := if full w p then [rootc p] else [].
Lemma norm_of p : snd2 p -> stays 0 (namesOf w p) = true -> exists N, getNormalizedComps w [p] = Some (base p ++ N) /\ Forall fine N /\ fold_left go (namesOf w p) [] = rev N.
Proof.
  intros Hp Hst. pose proof Hp as ((Hs & Hl) & Hn). exists (rev (fold_left go (namesOf w p) [])). split; [|split; [apply Forall_rev; apply go_keeps; [exact Hn|constructor]|rewrite rev_involutive; reflexivity]].
  unfold base. destruct (full w p) eqn:Ef.
  - rewrite self_full by assumption. pose proof (norm_above (rootc p) (namesOf w p) [] Hst) as Na. cbn [app] in Na. rewrite Na, rev_app_distr. reflexivity.
  - rewrite self_plain by assumption. rewrite (norm_zero _ [] Hst). reflexivity.
Qed.
Lemma common_spec a : forall b, exists c a' b', a = c ++ a' /\ b = c ++ b' /\ common a b = length c /\ (match a', b' with x :: _, y :: _ => x <> y | _, _ => True end).
Proof.
  induction a as [|x a IH]; intros b; cbn [common]; [exists [], [], b; repeat split|]. destruct b as [|y b]; [exists [], (x :: a), []; repeat split|]. destruct (bytes_eqb_spec x y) as [->|N].
  - destruct (IH b) as (c & a' & b' & -> & -> & E & D). exists (y :: c), a', b'. rewrite E. repeat split. exact D.
  - exists [], (x :: a), (y :: b). repeat split. exact N.
Qed.
Lemma upsLoop_eq n : forall needSep out, upsLoop w n needSep out = ((out ++ if needSep then flat_map (cons sb) (repeat dots2 n) else joined [sb] (repeat dots2 n))%list, needSep || (0 <? n)%nat).
Proof.
  induction n as [|n IH]; intros needSep out; cbn [upsLoop repeat flat_map].
  - cbn [joined]. rewrite orb_false_r. destruct needSep; rewrite app_nil_r; reflexivity.
  - rewrite IH. rewrite joined_flat. cbn [orb]. replace (0 <? S n)%nat with true by reflexivity. rewrite orb_true_r. destruct needSep; rewrite <- !app_assoc; reflexivity.
Qed.
Lemma downLoop_eq ns : forall needSep out, Forall (nameOk sep) ns -> downLoop w ns needSep out = Some ((out ++ if needSep then flat_map (cons sb) ns else joined [sb] ns)%list, needSep || nonempty ns).
Proof.
  induction ns as [|n ns IH]; intros needSep out H; cbn [downLoop].
  - cbn [flat_map joined nonempty]. rewrite orb_false_r. destruct needSep; rewrite app_nil_r; reflexivity.
  - inversion H as [|x y Hn Hns]; subst. destruct n as [|a n]; [destruct Hn; congruence|]. rewrite (endsSep_name _ Hn). cbn [negb]. rewrite IH by exact Hns. rewrite joined_flat. cbn [orb nonempty flat_map]. rewrite orb_true_r.
    destruct needSep; rewrite <- !app_assoc; reflexivity.
Qed.
Lemma joined_app a b : a <> [] -> joined [sb] (a ++ b) = joined [sb] a ++ flat_map (cons sb) b.
Proof. intros H. destruct a as [|x a]; [congruence|]. cbn [app]. rewrite !joined_flat, flat_map_app, app_assoc. reflexivity. Qed.
(** What makeRelative writes once the common part is gone. *)
Lemma relative_text n ns : Forall (nameOk sep) ns -> let '(out, needSep) := upsLoop w n false [] in
  downLoop w ns needSep out = Some (joined [sb] (repeat dots2 n ++ ns), (0 <? n)%nat || nonempty ns).
Proof.
  intros H. rewrite upsLoop_eq. cbn [orb app]. rewrite downLoop_eq by exact H. f_equal. f_equal. destruct n as [|n]; [reflexivity|]. replace (0 <? S n)%nat with true by reflexivity. cbn [Nat.ltb]. rewrite joined_app by discriminate. reflexivity.
Qed.
Lemma pop_ups n : forall x u, length x = n -> fold_left nstep (repeat dots2 n) (x ++ u) = u /\ fold_left go (repeat dots2 n) (x ++ u) = u.
Proof.
  induction n as [|n IH]; intros x u H; [destruct x; [split; reflexivity|discriminate]|]. destruct x as [|y x]; [discriminate|]. injection H as H. cbn [repeat fold_left app].
  destruct (IH x u H) as (I1 & I2). split; [exact I1|exact I2].
Qed.

Lemma two_comps anc rel : snd2 anc -> snd2 rel -> full w rel = false -> getNormalizedComps w [anc; rel] = Some (rev (fold_left nstep (namesOf w anc ++ namesOf w rel) (base anc))).
Proof.
  intros Ha Hr Hp. unfold getNormalizedComps, base. destruct (full w anc) eqn:E.
  - assert (I : iterateOver w [anc; rel] = Some (rootc anc :: namesOf w anc ++ flat_map (namesOf w) [rel])) by (apply (iterateOver_full [] anc [rel]); [constructor; [apply Ha|constructor; [apply Hr|constructor]]|exact E|constructor; [exact Hp|constructor]]). rewrite I. cbn [flat_map]. rewrite app_nil_r.
    destruct (rootc_ok anc E) as ((R1 & R2) & R3 & _). assert (F : Forall okName (namesOf w anc ++ namesOf w rel)) by (apply Forall_app; split; [apply Ha|apply Hr]).
    rewrite normLoop_ok by (constructor; [exact R3|]; eapply Forall_impl; [|exact F]; intros x ((Hx & _) & _); exact Hx). cbn [fold_left]. unfold nstep at 2.
    destruct (list_eq_dec Z.eq_dec (rootc anc) [dot]); [contradiction|]. destruct (list_eq_dec Z.eq_dec (rootc anc) dots2); [contradiction|]. reflexivity.
  - rewrite iterateOver_plain; [|constructor; [apply Ha|constructor; [apply Hr|constructor]]|constructor; [exact E|constructor; [exact Hp|constructor]]]. cbn [flat_map]. rewrite app_nil_r.
    assert (F : Forall okName (namesOf w anc ++ namesOf w rel)) by (apply Forall_app; split; [apply Ha|apply Hr]).
    rewrite normLoop_ok by (eapply Forall_impl; [|exact F]; intros x ((Hx & _) & _); exact Hx). reflexivity.
Qed.
Lemma common_same b : forall x y, common (b ++ x) (b ++ y) = (length b + common x y)%nat.
Proof. induction b as [|h b IH]; intros x y; [reflexivity|]. cbn [app common length Nat.add]. destruct (bytes_eqb_spec h h); [|congruence]. rewrite IH. reflexivity. Qed.
Lemma lastSep_one p : p <> [] -> lastSep [p] = endsSep w p.
Proof. unfold lastSep. cbn [rev app]. destruct p; [congruence|reflexivity]. Qed.
Lemma lastSep_two a p : p <> [] -> lastSep [a; p] = endsSep w p.
Proof. unfold lastSep. cbn [rev app]. destruct p; [congruence|reflexivity]. Qed.
Lemma render_same cs cs' norm : lastSep cs = lastSep cs' -> (match rev cs with [] :: _ => False | _ => True end) -> (match rev cs' with [] :: _ => False | _ => True end) -> render cs norm = render cs' norm.
Proof. intros E H1 H2. unfold render. rewrite E. destruct norm; [|reflexivity]. destruct (rev cs) as [|[|a l] r]; [|contradiction|]; (destruct (rev cs') as [|[|a' l'] r']; [|contradiction|]; reflexivity). Qed.

Theorem relative_back anc desc : sound w anc = true -> sound w desc = true -> full w anc = full w desc -> stays 0 (namesOf w anc) = true -> stays 0 (namesOf w desc) = true -> desc <> [] ->
  exists rel, makeRelative w anc desc = Some rel /\ (forall cwd at_, resolve w cwd (resolve w cwd at_ anc) rel = resolve w cwd at_ desc) /\
  (zlen rel < 2 ^ 31 -> joinAndNormalize w [anc; rel] = joinAndNormalize w [desc]).
Proof.
  intros Sa Sd Hfe Ha Hd Hne. apply sound_ok in Sa, Sd. destruct (norm_of anc Sa Ha) as (Na & Ea & Fa & Ga). destruct (norm_of desc Sd Hd) as (Nd & Ed & Fd & Gd).
  unfold makeRelative. rewrite !full_abs, Hfe, Bool.eqb_reflx, Ea, Ed.
  assert (Hb : base anc = base desc \/ full w anc = true /\ full w desc = true /\ rootc anc <> rootc desc).
  { unfold base. rewrite Hfe. destruct (full w desc); [|auto]. destruct (list_eq_dec Z.eq_dec (rootc anc) (rootc desc)) as [->|N]; [auto|right; auto]. }
  destruct Hb as [Hb|(Hfa & Hfd & Hn)].
  - destruct (common_spec Na Nd) as (C & A' & D' & -> & -> & Ec & _). rewrite Hb, common_same, Ec.
    assert (Eu : (if negb (full w desc) || (0 <? length (base desc) + length C)%nat then (length (base desc ++ C ++ A') - (length (base desc) + length C))%nat else 0%nat) = length A').
    { assert (T : negb (full w desc) || (0 <? length (base desc) + length C)%nat = true) by (unfold base; destruct (full w desc); reflexivity). rewrite T, !app_length. lia. }
    rewrite Eu. replace (skipn (length (base desc) + length C) (base desc ++ C ++ D')) with D' by (rewrite app_assoc, <- app_length, skipn_app, skipn_all, Nat.sub_diag; reflexivity).
    apply Forall_app in Fa, Fd. destruct Fa as (FC & FA). destruct Fd as (_ & FD). assert (ND : Forall (nameOk sep) D') by (eapply Forall_impl; [|exact FD]; intros x Hx; apply fine_name; exact Hx).
    pose proof (relative_text (length A') D' ND) as Rt. destruct (upsLoop w (length A') false []) as (out & ns0). rewrite Rt.
    (* the path written *)
    assert (R : exists X R, (match joined [sb] (repeat dots2 (length A') ++ D') with [] => ([dot], true) | _ :: _ => (joined [sb] (repeat dots2 (length A') ++ D'), (0 <? length A')%nat || nonempty D') end) = (X, true) /\
      plain w (X ++ trail (endsSep w desc)) = true /\ full w (X ++ trail (endsSep w desc)) = false /\ namesOf w (X ++ trail (endsSep w desc)) = R /\ endsSep w (X ++ trail (endsSep w desc)) = endsSep w desc /\ X ++ trail (endsSep w desc) <> [] /\ Forall okName R /\
      forall u, fold_left nstep R (rev (C ++ A') ++ u) = rev (C ++ D') ++ u /\ fold_left go R (rev (C ++ A') ++ u) = rev (C ++ D') ++ u).
    { assert (FR : Forall okName (repeat dots2 (length A') ++ D')).
      { apply Forall_app. split; [|eapply Forall_impl; [|exact FD]; intros x (Hx & _); exact Hx]. clear. induction (length A'); [constructor|]. constructor; [exact dots_ok|assumption]. }
      assert (FF : forall u, fold_left nstep (repeat dots2 (length A') ++ D') (rev (C ++ A') ++ u) = rev (C ++ D') ++ u /\ fold_left go (repeat dots2 (length A') ++ D') (rev (C ++ A') ++ u) = rev (C ++ D') ++ u).
      { intros u. rewrite !fold_left_app, !rev_app_distr, <- !app_assoc. destruct (pop_ups (length A') (rev A') (rev C ++ u) (rev_length A')) as (-> & ->). rewrite nstep_fine, go_fine by exact FD. auto. }
      destruct (repeat dots2 (length A') ++ D') as [|n ns] eqn:ER.
      - exists [dot], [[dot]]. destruct (read_plain [dot] [] (endsSep w desc)) as (Q1 & Q2 & Q3 & Q4 & Q5); [constructor; [exact dot_ok|constructor]|]. split; [reflexivity|]. split; [exact Q1|]. split; [exact Q2|]. split; [exact Q3|]. split; [exact Q4|]. split; [exact Q5|].
        split; [constructor; [exact dot_ok|constructor]|]. intros u. destruct (FF u) as (F1 & F2). cbn [fold_left] in F1, F2. cbn [fold_left]. unfold nstep, go. destruct (list_eq_dec Z.eq_dec [dot] [dot]); [|congruence]. auto.
      - exists (joined [sb] (n :: ns)), (n :: ns). destruct (read_plain n ns (endsSep w desc) FR) as (Q1 & Q2 & Q3 & Q4 & Q5).
        assert (Hj : joined [sb] (n :: ns) <> []) by (apply joined_nn; inversion FR as [|x y (Hx & _) _]; exact Hx).
        split; [|auto 10]. destruct (joined [sb] (n :: ns)); [congruence|]. f_equal. destruct (length A'); [|reflexivity]. cbn [repeat app] in ER. rewrite ER. reflexivity. }
    destruct R as (X & R & -> & Q1 & Q2 & Q3 & Q4 & Q5 & Q6 & Q7). rewrite andb_true_r, trail_if. set (rel := X ++ trail (endsSep w desc)) in *. exists rel. split; [reflexivity|]. split.
    + intros cwd at_. rewrite (resolve_plain cwd _ rel Q1), Q3. destruct (full w desc) eqn:Ef.
      * rewrite !resolve_full by assumption. cbn [fst snd]. rewrite Ga, Gd. destruct (Q7 []) as (_ & Q). rewrite !app_nil_r in Q. rewrite Q. f_equal.
        unfold base in Hb. rewrite Hfe, Ef in Hb. injection Hb as Hb. unfold rootc in Hb. destruct (full_inv anc Hfe) as (IA1 & IA2). destruct (full_inv desc Ef) as (ID1 & ID2). destruct w_cases as [Ew|Ew].
        -- destruct (IA1 Ew) as (d1 & s1 & r1 & -> & _ & _ & ->). destruct (ID1 Ew) as (d2 & s2 & r2 & -> & _ & _ & ->). rewrite Ew in Hb. cbn [hd] in Hb. congruence.
        -- destruct (IA2 Ew) as (s1 & r1 & _ & _ & ->). destruct (ID2 Ew) as (s2 & r2 & _ & _ & ->). reflexivity.
      * destruct Sa as (Sa & _). destruct Sd as (Sd & _). rewrite !resolve_plain by (apply plain_cases; assumption). cbn [fst snd].
        rewrite <- (app_nil_l (snd at_)), !(go_above (snd at_) _ []) by assumption. rewrite Ga, Gd. destruct (Q7 (snd at_)) as (_ & Q). rewrite Q. reflexivity.
    + intros Hl. assert (S2 : snd2 rel) by (split; [split; [rewrite Q1, orb_true_r; reflexivity|lia]|rewrite Q3; exact Q6]).
      assert (E2 : getNormalizedComps w [anc; rel] = Some (base desc ++ C ++ D')).
      { rewrite two_comps by assumption. rewrite fold_left_app, Q3.
        assert (E0 : fold_left nstep (namesOf w anc) (base anc) = rev (C ++ A') ++ base anc).
        { unfold base. destruct (full w anc); [|rewrite (norm_zero _ []), Ga, app_nil_r by exact Ha; reflexivity]. pose proof (norm_above (rootc anc) (namesOf w anc) [] Ha) as Na. cbn [app] in Na. rewrite Na, Ga. reflexivity. }
        rewrite E0. destruct (Q7 (base anc)) as (Q & _). rewrite Q, rev_app_distr, rev_involutive, Hb. f_equal. f_equal. unfold base. destruct (full w desc); reflexivity. }
      rewrite (join_render [anc; rel] _ ltac:(discriminate) E2), (join_render [desc] _ ltac:(discriminate) Ed). f_equal. apply render_same.
      * rewrite lastSep_two by exact Q5. rewrite lastSep_one by exact Hne. exact Q4.
      * cbn [rev app]. destruct rel; [congruence|exact I].
      * cbn [rev app]. destruct desc; [congruence|exact I].
  - assert (Bd : base desc = [rootc desc]) by (unfold base; rewrite Hfd; reflexivity). assert (Ba : base anc = [rootc anc]) by (unfold base; rewrite Hfa; reflexivity).
    rewrite Ba, Bd in *. cbn [app] in *. rewrite Hfd. cbn [common]. destruct (bytes_eqb_spec (rootc anc) (rootc desc)); [contradiction|]. cbn [negb orb Nat.ltb Nat.leb upsLoop skipn].
    destruct (rootc_ok desc Hfd) as (_ & K1 & K2). assert (ND : Forall (nameOk sep) Nd) by (eapply Forall_impl; [|exact Fd]; intros x Hx; apply fine_name; exact Hx).
    assert (Edn : downLoop w (rootc desc :: Nd) false [] = Some (rootc desc ++ joined [sb] Nd, nonempty Nd)).
    { cbn [downLoop]. destruct (rootc desc) as [|z l]; [congruence|]. rewrite K2. cbn [negb app]. rewrite downLoop_eq by exact ND. reflexivity. }
    rewrite Edn. assert (Enn : (match rootc desc ++ joined [sb] Nd with [] => ([dot], true) | _ :: _ => (rootc desc ++ joined [sb] Nd, nonempty Nd) end) = (rootc desc ++ joined [sb] Nd, nonempty Nd)) by (destruct (rootc desc); [congruence|reflexivity]).
    rewrite Enn, trail_if, <- app_assoc. destruct (read_root desc Nd (endsSep w desc) Hfd ND) as (R1 & R2 & R3 & R4 & R5 & R6). destruct (root_tidy desc Nd (endsSep w desc) Hfd Fd) as (_ & _ & _ & _ & T2).
    set (rel := rootc desc ++ joined [sb] Nd ++ trail (endsSep w desc && nonempty Nd)) in *. exists rel. split; [reflexivity|]. split.
    + intros cwd at_. rewrite (resolve_full cwd _ rel R1), (resolve_full cwd _ anc Hfa), (resolve_full cwd _ desc Hfd). cbn [fst snd]. rewrite R4, R2, Gd, go_fine, app_nil_r by exact Fd. f_equal.
      destruct w_cases as [Ew|Ew]; [destruct (proj1 (full_inv desc Hfd) Ew) as (d2 & s2 & r2 & -> & _ & _ & ->); reflexivity|].
      exfalso. apply Hn. unfold rootc. rewrite Ew. reflexivity.
    + intros Hl. assert (S2 : snd' rel) by (split; [rewrite R1; reflexivity|lia]). assert (FO : Forall okName Nd) by (eapply Forall_impl; [|exact Fd]; intros x (Hx & _); exact Hx).
      assert (E2 : getNormalizedComps w [anc; rel] = Some (rootc desc :: Nd)).
      { unfold getNormalizedComps. assert (I : iterateOver w [anc; rel] = Some (rootc rel :: namesOf w rel ++ flat_map (namesOf w) [])) by (apply (iterateOver_full [anc] rel []); [constructor; [apply Sa|constructor; [exact S2|constructor]]|exact R1|constructor]). rewrite I. cbn [flat_map]. rewrite app_nil_r, R2, R3.
        rewrite normLoop_ok by (constructor; [exact K1|]; eapply Forall_impl; [|exact FO]; intros x ((Hx & _) & _); exact Hx). cbn [fold_left]. unfold nstep at 2. destruct (rootc_ok desc Hfd) as ((X1 & X2) & _).
        destruct (list_eq_dec Z.eq_dec (rootc desc) [dot]); [contradiction|]. destruct (list_eq_dec Z.eq_dec (rootc desc) dots2); [contradiction|]. rewrite nstep_fine by exact Fd. rewrite rev_app_distr, rev_involutive. reflexivity. }
      rewrite (join_render [anc; rel] _ ltac:(discriminate) E2), (join_render [desc] _ ltac:(discriminate) Ed). f_equal. unfold render. rewrite join_root by assumption. rewrite lastSep_two by exact R5. rewrite lastSep_one by exact Hne.
      destruct (nonempty Nd) eqn:En; [rewrite (R6 eq_refl)|rewrite !andb_false_r]; reflexivity.
Qed.

(* ---- splitting ---- *)
Lemma pieces_cut a s b : sep s = true -> pieces sep (a ++ s :: b) = pieces sep a ++ pieces sep b.
Proof.
  intros Hs. induction a as [|c a IH]; cbn [app pieces]; [rewrite Hs; reflexivity|]. rewrite IH. destruct (sep c); [reflexivity|]. destruct (pieces sep a) eqn:E; [exfalso; exact (pieces_nn sep a E)|reflexivity].
Qed.
Lemma names_cut a s b : sep s = true -> names sep (a ++ s :: b) = names sep a ++ names sep b.
Proof. intros Hs. unfold names. rewrite pieces_cut by exact Hs. apply filter_app. Qed.
Lemma sep_not_letter c : sep c = true -> letter c = false /\ (c =? colon) = false.
Proof. unfold isSepByte, letter, slash, backslash, colon. intros H. split; destruct w; lia. Qed.
Lemma namesOf_eq p : namesOf w p = match anchorOf w p with DriveRoot _ | OnDrive _ => names sep (skipn 2 p) | _ => names sep p end.
Proof. unfold namesOf. destruct (anchorOf w p); apply names_ext, sepOf_eq. Qed.
Lemma resolve_nil cwd at_ : resolve w cwd at_ [] = at_.
Proof. unfold resolve, namesOf, anchorOf. destruct w; destruct at_; reflexivity. Qed.
Lemma resolve_split cwd at_ p dir file : anchorOf w dir = anchorOf w p -> plain w file = true -> namesOf w p = namesOf w dir ++ namesOf w file ->
  resolve w cwd (resolve w cwd at_ dir) file = resolve w cwd at_ p.
Proof.
  intros Ea Ef En. rewrite (resolve_plain cwd _ file Ef). unfold resolve. rewrite Ea, En. destruct (anchorOf w p); cbn [fst snd]; rewrite fold_left_app; reflexivity.
Qed.
(** The start of a path, with the last name before a separator taken along. *)
Lemma anchor_prefix pre s q : pre <> [] -> sep s = true -> getDriveLetter w (pre ++ s :: q) <> pre -> anchorOf w (pre ++ s :: q) = anchorOf w pre.
Proof.
  intros Hn Hs Hd. destruct (sep_not_letter s Hs) as (_ & Hc). destruct w_cases as [Ew|Ew].
  - destruct pre as [|x [|y [|z pre]]]; [congruence| | |].
    + unfold anchorOf. rewrite Ew. cbn [app]. rewrite Hc, andb_false_r. reflexivity.
    + unfold getDriveLetter, hasDriveLetter in Hd. rewrite Ew in Hd. unfold anchorOf. rewrite Ew. cbn [app andb firstn] in *. change (isAsciiLetter x) with (letter x) in Hd. destruct (letter x && (y =? colon)); [congruence|reflexivity].
    + unfold anchorOf. rewrite Ew. reflexivity.
  - unfold anchorOf. rewrite Ew. destruct pre as [|x pre]; [congruence|]. reflexivity.
Qed.
Lemma drive_long p d : anchorOf w p = DriveRoot d \/ anchorOf w p = OnDrive d -> (2 <= length p)%nat.
Proof.
  unfold anchorOf. destruct w; destruct p as [|x [|y p]]; cbn [length]; try lia; intros [H|H]; try discriminate; destruct (sepOf _ x); discriminate.
Qed.
Lemma namesOf_cut pre s q : pre <> [] -> sep s = true -> anchorOf w (pre ++ s :: q) = anchorOf w pre -> namesOf w (pre ++ s :: q) = namesOf w pre ++ names sep q.
Proof.
  intros Hn Hs Ha. rewrite !namesOf_eq, Ha. assert (G : forall d, anchorOf w pre = DriveRoot d \/ anchorOf w pre = OnDrive d -> names sep (skipn 2 (pre ++ s :: q)) = names sep (skipn 2 pre) ++ names sep q).
  { intros d H. apply drive_long in H. rewrite skipn_app. replace (2 - length pre)%nat with 0%nat by lia. cbn [skipn]. apply names_cut. exact Hs. }
  destruct (anchorOf w pre) as [d|d| |]; [apply (G d); auto|apply (G d); auto|apply names_cut; exact Hs|apply names_cut; exact Hs].
Qed.
Definition driveless (n : list Z) : Prop := w = true -> match n with d :: c :: _ => letter d && (c =? colon) = false | _ => True end.
Lemma noDrives_in p n : noDrives w p = true -> In n (namesOf w p) -> driveless n.
Proof.
  unfold noDrives. intros H Hn Ew. rewrite Ew in H. cbn [negb orb] in H. rewrite Ew in Hn. rewrite forallb_forall in H. specialize (H n Hn). destruct n as [|a [|b n]]; [exact I|exact I|]. destruct (letter a && (b =? colon)); [discriminate|reflexivity].
Qed.
Lemma file_plain n : none sep n -> driveless n -> plain w n = true /\ namesOf w n = names sep n.
Proof.
  intros H D. assert (A : anchorOf w n = Here).
  { destruct n as [|a n]; [unfold anchorOf; destruct w; reflexivity|]. inversion H; subst. apply anchor_here; [assumption|]. intros Ew. specialize (D Ew). destruct n; [exact I|exact D]. }
  rewrite namesOf_eq. unfold plain. rewrite A. auto.
Qed.
Lemma left_app (a b : list Z) : sv_left (a ++ b) (zlen a) = Some a.
Proof. unfold sv_left. rewrite zlen_app. pose proof (zlen_nonneg b). replace (zlen a <=? zlen a + zlen b) with true by lia. replace (Z.to_nat (zlen a)) with (length a) by (unfold zlen; lia). rewrite firstn_app, firstn_all, Nat.sub_diag. cbn [firstn]. rewrite app_nil_r. reflexivity. Qed.
Lemma sub_app (a b : list Z) : sv_subStr1 (a ++ b) (zlen a) = Some b.
Proof. unfold sv_subStr1. rewrite zlen_app. pose proof (zlen_nonneg b). replace (zlen a <=? zlen a + zlen b) with true by lia. replace (Z.to_nat (zlen a)) with (length a) by (unfold zlen; lia). rewrite skipn_app, skipn_all, Nat.sub_diag. reflexivity. Qed.

Theorem split_ok p : zlen p < 2 ^ 31 -> exists dir seps file, PathModel.split w p = Some (dir, file) /\ p = dir ++ seps ++ file /\ Forall (fun c => sepOf w c = true) seps /\ Forall (fun c => sepOf w c = false) file /\
  (dir = [] /\ seps = [] \/ dir <> [] /\ namesOf w dir = [] \/ dir <> [] /\ seps <> [] /\ Forall (fun c => sepOf w c = false) [last dir 0]) /\
  (noDrives w p = true -> forall cwd at_, resolve w cwd (resolve w cwd at_ dir) file = resolve w cwd at_ p).
Proof.
  intros Hl. unfold PathModel.split. destruct (rfindByte_default_split sep p Hl) as (r & -> & [(-> & N)|(a & c & b & Ep & -> & Nb & Hc)]).
  - cbn [Z.leb Z.compare]. exists [], [], p. split; [reflexivity|]. split; [reflexivity|]. split; [constructor|]. split; [eapply Forall_impl; [|exact N]; intros x Hx; rewrite sepOf_eq; exact Hx|]. split; [auto|]. intros _ cwd at_. rewrite resolve_nil. reflexivity.
  - pose proof (zlen_nonneg a). replace (0 <=? zlen a) with true by lia. assert (Ep2 : p = (a ++ [c]) ++ b) by (rewrite <- app_assoc; exact Ep).
    assert (El : zlen (a ++ [c]) - 1 = zlen a) by (rewrite zlen_app; unfold zlen; cbn [length]; lia).
    destruct (rfindByte_split (fun c => negb (sep c)) (a ++ [c]) b ltac:(destruct a; discriminate)) as (r & E & C). rewrite <- Ep2, El in E. rewrite E. clear E.
    assert (Sub : sv_subStr1 p (zlen a + 1) = Some b). { rewrite Ep2. replace (zlen a + 1) with (zlen (a ++ [c])) by lia. apply sub_app. }
    assert (Nb' : Forall (fun c => sepOf w c = false) b) by (eapply Forall_impl; [|exact Nb]; intros x Hx; rewrite sepOf_eq; exact Hx).
    assert (SS : forall l, none (fun c => negb (sep c)) l -> Forall (fun c => sepOf w c = true) l) by (intros l Hl0; apply none_neg in Hl0; eapply Forall_impl; [|exact Hl0]; intros x Hx; rewrite sepOf_eq; exact Hx).
    destruct C as [(-> & N)|(a2 & c2 & b2 & Ea & -> & N & Hc2)].
    + (* only separators before the file *)
      change (-1 + 1) with 0. assert (L0 : sv_left p (-1 + 1) = Some []) by (unfold sv_left; pose proof (zlen_nonneg p); replace (-1 + 1 <=? zlen p) with true by lia; reflexivity). change (-1 + 1) with 0 in L0. rewrite L0.
      destruct (a ++ [c]) as [|s0 rest] eqn:Er; [destruct a; discriminate|]. cbn [app] in Ep2. pose proof (proj1 (none_neg _) N) as N'. inversion N' as [|x y Hs0 Hrest]; subst x y. clear N'. destruct (sep_not_letter s0 Hs0) as (Hle & _).
      assert (Gd : getDriveLetter w p = []). { unfold getDriveLetter, hasDriveLetter. rewrite Ep2. destruct w; [|reflexivity]. cbn [andb]. destruct (rest ++ b) as [|z l]; [reflexivity|]. change (isAsciiLetter s0) with (letter s0). rewrite Hle. reflexivity. }
      rewrite Gd. cbn [bytes_eqb]. replace (0 + 1) with (zlen [s0]) by reflexivity. rewrite Ep2. change (s0 :: rest ++ b) with ([s0] ++ (rest ++ b)). rewrite left_app. change ([s0] ++ rest ++ b) with (s0 :: rest ++ b). rewrite <- Ep2, Sub.
      exists [s0], rest, b. split; [reflexivity|]. split; [exact Ep2|]. split; [apply SS; inversion N; assumption|]. split; [exact Nb'|].
      assert (As : forall l, anchorOf w (s0 :: l) = Root). { intros l. unfold anchorOf. rewrite !sepOf_eq, Hs0. destruct w; [|reflexivity]. destruct l; [reflexivity|]. rewrite Hle. reflexivity. }
      assert (Ns : namesOf w [s0] = []) by (rewrite namesOf_eq, As; apply names_all_seps; repeat constructor; exact Hs0).
      assert (Np : namesOf w p = names sep b) by (rewrite namesOf_eq, Ep2, As, names_sep by exact Hs0; apply names_seps; exact Hrest).
      split; [right; left; split; [discriminate|exact Ns]|]. intros ND cwd at_. destruct (file_plain b Nb) as (F1 & F2).
      { destruct b as [|z b]; [intros _; exact I|]. apply (noDrives_in p _ ND). rewrite Np, names_one by (try assumption; discriminate). left. reflexivity. }
      apply resolve_split; [rewrite Ep2, !As; reflexivity|exact F1|]. rewrite Ns, F2, Np. reflexivity.
    + (* a name before the file *)
      apply negb_true_iff in Hc2. assert (Hb2 : b2 <> []). { intros ->. rewrite app_nil_r in Ea || idtac. apply app_inj_tail in Ea. destruct Ea as (_ & <-). congruence. }
      set (pre := a2 ++ [c2]). assert (Ea' : a ++ [c] = pre ++ b2) by (rewrite Ea; unfold pre; rewrite <- app_assoc; reflexivity). assert (Ep3 : p = pre ++ b2 ++ b) by (rewrite Ep2, Ea', <- app_assoc; reflexivity).
      assert (Lp : zlen a2 + 1 = zlen pre) by (unfold pre; rewrite zlen_app; unfold zlen; cbn [length]; lia). rewrite Lp. assert (Lpre : sv_left p (zlen pre) = Some pre) by (rewrite Ep3; apply left_app). rewrite Lpre.
      assert (Hpre : pre <> []) by (unfold pre; destruct a2; discriminate). destruct b2 as [|s b2]; [congruence|]. clear Hb2. pose proof (proj1 (none_neg _) N) as N'. inversion N' as [|x y Hs Hrest]; subst x y. clear N'.
      destruct (bytes_eqb_spec pre (getDriveLetter w p)) as [Eq|Nq].
      * (* the root of a drive *)
        assert (Hdr : hasDriveLetter w p = true) by (unfold getDriveLetter in Eq; destruct (hasDriveLetter w p); [reflexivity|congruence]). assert (Ew : w = true) by (unfold hasDriveLetter in Hdr; destruct w; [reflexivity|discriminate]).
        assert (Hpc : exists d, pre = [d; colon] /\ letter d = true).
        { unfold getDriveLetter in Eq. rewrite Hdr in Eq. unfold hasDriveLetter in Hdr. rewrite Ew in Hdr. cbn [andb] in Hdr. destruct p as [|d [|e p']]; try discriminate. apply andb_true_iff in Hdr. destruct Hdr as (D1 & D2). apply Z.eqb_eq in D2. subst e. exists d. auto. }
        destruct Hpc as (d & Epre & Hd). replace (zlen pre + 1) with (zlen (pre ++ [s])) by (rewrite zlen_app; unfold zlen; cbn [length]; lia).
        assert (Ep4 : p = (pre ++ [s]) ++ b2 ++ b) by (rewrite Ep3, <- app_assoc; reflexivity). assert (L2 : sv_left p (zlen (pre ++ [s])) = Some (pre ++ [s])) by (rewrite Ep4; apply left_app). rewrite L2, Sub.
        exists (pre ++ [s]), b2, b. split; [reflexivity|]. split; [exact Ep4|]. split; [apply SS; inversion N; assumption|]. split; [exact Nb'|].
        assert (As : forall l, anchorOf w (pre ++ s :: l) = DriveRoot d). { intros l. rewrite Epre. unfold anchorOf. rewrite Ew. cbn [app]. rewrite Hd, Z.eqb_refl. cbn [andb]. rewrite sepOf_eq, <- Ew, Hs. reflexivity. }
        assert (Ns : namesOf w (pre ++ [s]) = []) by (rewrite namesOf_eq, As, Epre; cbn [app skipn]; apply names_all_seps; repeat constructor; exact Hs).
        assert (Np : namesOf w p = names sep b). { rewrite namesOf_eq, Ep3. cbn [app]. rewrite As, Epre. cbn [app skipn]. rewrite names_sep by exact Hs. apply names_seps. exact Hrest. }
        split; [right; left; split; [destruct pre; discriminate|exact Ns]|]. intros ND cwd at_. destruct (file_plain b Nb) as (F1 & F2).
        { destruct b as [|z b]; [intros _; exact I|]. apply (noDrives_in p _ ND). rewrite Np, names_one by (try assumption; discriminate). left. reflexivity. }
        apply resolve_split; [rewrite Ep3; cbn [app]; rewrite !As; reflexivity|exact F1|]. rewrite Ns, F2, Np. reflexivity.
      * rewrite Lpre, Sub. exists pre, (s :: b2), b. split; [reflexivity|]. split; [exact Ep3|]. split; [apply SS; exact N|]. split; [exact Nb'|].
        split; [right; right; split; [exact Hpre|]; split; [discriminate|]; constructor; [|constructor]; unfold pre; rewrite last_last, sepOf_eq; exact Hc2|].
        assert (Ea3 : anchorOf w p = anchorOf w pre) by (rewrite Ep3; cbn [app]; apply anchor_prefix; [exact Hpre|exact Hs|]; cbn [app] in Ep3; rewrite <- Ep3; congruence).
        assert (Np : namesOf w p = namesOf w pre ++ names sep b). { rewrite Ep3 in Ea3. rewrite Ep3. cbn [app] in *. rewrite namesOf_cut by assumption. f_equal. apply names_seps. exact Hrest. }
        intros ND cwd at_. destruct (file_plain b Nb) as (F1 & F2).
        { destruct b as [|z b]; [intros _; exact I|]. apply (noDrives_in p _ ND). rewrite Np, (names_one sep (z :: b)) by (try assumption; discriminate). apply in_or_app. right. left. reflexivity. }
        apply resolve_split; [congruence|exact F1|]. rewrite F2, Np. reflexivity.
Qed.

Lemma exists_last_or (p : list Z) : p = [] \/ exists a c, p = a ++ [c].
Proof. destruct p as [|x p]; [auto|]. right. destruct (exists_last (l := x :: p)) as (a & c & E); [discriminate|]. exists a, c. exact E. Qed.
Lemma last_app_nn (a b : list Z) d : b <> [] -> last (a ++ b) d = last b d.
Proof. intros H. destruct (exists_last_or b) as [->|(x & c & ->)]; [congruence|]. rewrite app_assoc, !last_last. reflexivity. Qed.
Lemma last_in (b : list Z) d : b <> [] -> In (last b d) b.
Proof. intros H. destruct (exists_last_or b) as [->|(x & c & ->)]; [congruence|]. rewrite last_last. apply in_or_app. right. left. reflexivity. Qed.
Lemma find_zero f (p : list Z) : sv_findByte p f 0 = -1 /\ none f p \/ exists a c b, p = a ++ c :: b /\ sv_findByte p f 0 = zlen a /\ none f a /\ f c = true.
Proof.
  unfold sv_findByte. change (Z.to_nat 0) with 0%nat. cbn [skipn]. destruct (find_split f p 0) as [C|(a & c & b & E & E2 & N & H)]; [left; exact C|]. right. exists a, c, b. rewrite E2. repeat split; [exact E|exact N|exact H].
Qed.
Lemma offset_app (a b : list Z) : sv_offsetHead (a ++ b) (zlen a) = Some b.
Proof. unfold sv_offsetHead. rewrite zlen_app. pose proof (zlen_nonneg b). replace (zlen a <=? zlen a + zlen b) with true by lia. replace (Z.to_nat (zlen a)) with (length a) by (unfold zlen; lia). rewrite skipn_app, skipn_all, Nat.sub_diag. reflexivity. Qed.
Lemma skipSeps_ok p : (exists a, p = a ++ skipSeps w p /\ Forall (fun c => sep c = true) a) /\ match skipSeps w p with c :: _ => sep c = false | [] => True end.
Proof.
  induction p as [|c p ((a & E & F) & H)]; cbn [skipSeps]; [split; [exists []; auto|exact I]|]. destruct (sep c) eqn:Ec; [|split; [exists []; auto|exact Ec]].
  split; [|exact H]. exists (c :: a). split; [cbn [app]; congruence|constructor; assumption].
Qed.
Lemma endsSep_seps l : l <> [] -> Forall (fun c => sep c = true) l -> endsSep w l = true.
Proof. intros Hn F. apply Forall_rev in F. unfold endsSep. destruct (rev l) as [|c r] eqn:E; [apply (f_equal (@rev Z)) in E; rewrite rev_involutive in E; cbn in E; congruence|]. inversion F. assumption. Qed.
Lemma splitLoop_ok : forall fuel p, (length p <= fuel)%nat -> (match p with c :: _ => sep c = false | [] => False end) ->
  splitLoop w fuel p = Some (names sep p ++ if endsSep w p then [[]] else []).
Proof.
  induction fuel as [|fuel IH]; intros p Hf Hp; destruct p as [|c0 p0]; [contradiction|cbn [length] in Hf; lia|contradiction|]. cbn [splitLoop]. rewrite Hp. set (p := c0 :: p0) in *.
  destruct (find_zero sep p) as [(-> & N)|(a & s & b & Ep & -> & N & Hs)].
  - cbn [Z.ltb Z.compare]. rewrite names_one by (try exact N; discriminate). rewrite endsSep_name by (split; [discriminate|exact N]). reflexivity.
  - pose proof (zlen_nonneg a). replace (zlen a <? 0) with false by lia. assert (Ha : a <> []) by (intros ->; unfold p in Ep; cbn [app] in Ep; inversion Ep; subst; congruence).
    assert (Lp : length p = (length a + S (length b))%nat) by (rewrite Ep, app_length; reflexivity).
    assert (Np : names sep p = a :: names sep b) by (rewrite Ep; apply names_word; assumption). assert (L1 : sv_left p (zlen a) = Some a) by (rewrite Ep; apply left_app). assert (L2 : sv_offsetHead p (zlen a) = Some (s :: b)) by (rewrite Ep; apply offset_app). rewrite L1, L2.
    destruct (find_zero (fun c => negb (sep c)) (s :: b)) as [(-> & N2)|(a2 & c2 & b2 & Eb & -> & N2 & Hc2)].
    + cbn [Z.ltb Z.compare]. apply none_neg in N2. rewrite Np, names_all_seps by (inversion N2; assumption). rewrite Ep, endsSep_app by discriminate. rewrite endsSep_seps by (try exact N2; discriminate). reflexivity.
    + pose proof (zlen_nonneg a2). replace (zlen a2 <? 0) with false by lia. rewrite Eb, offset_app. apply negb_true_iff in Hc2. apply none_neg in N2. assert (Lb : length (s :: b) = (length a2 + S (length b2))%nat) by (rewrite Eb, app_length; reflexivity). cbn [length] in Lb.
      assert (La : (1 <= length a)%nat) by (destruct a; [congruence|cbn [length]; lia]). rewrite (IH (c2 :: b2)) by (try exact Hc2; cbn [length]; lia).
      rewrite Np. assert (Nb : names sep b = names sep (c2 :: b2)). { rewrite <- (names_sep sep s b Hs), Eb. apply names_seps. exact N2. } rewrite Nb. rewrite Ep, endsSep_app by discriminate. rewrite Eb, endsSep_app by discriminate. reflexivity.
Qed.
Lemma namesOf_name n : okName n -> plain w n = true /\ full w n = false /\ namesOf w n = [n].
Proof.
  intros H. destruct (read_plain n [] false ltac:(repeat constructor; apply H)) as (A & B & C & _). cbn [joined trail app] in A, B, C. rewrite app_nil_r in A, B, C. auto.
Qed.
Lemma plain_nil : plain w [] = true /\ full w [] = false /\ namesOf w [] = [].
Proof. unfold plain, full, namesOf, anchorOf. destruct w; auto. Qed.
Definition extra (p : list Z) : list (list Z) := if endsSep w p then [[]] else [].
Lemma resolve_names cwd ns p : forall at_, Forall okName ns -> fold_left (resolve w cwd) (ns ++ extra p) at_ = (fst at_, fold_left go ns (snd at_)).
Proof.
  induction ns as [|n ns IH]; intros at_ H; cbn [app fold_left].
  - unfold extra. destruct (endsSep w p); cbn [fold_left]; [rewrite resolve_nil|]; destruct at_; reflexivity.
  - inversion H; subst. destruct (namesOf_name n ltac:(assumption)) as (A & _ & C). rewrite resolve_plain, C by exact A. rewrite IH by assumption. reflexivity.
Qed.
Lemma noDrives_ok p : noDrives w p = true -> Forall okName (namesOf w p).
Proof.
  intros H. apply Forall_forall. intros n Hn. split; [|exact (noDrives_in p n H Hn)]. rewrite namesOf_eq in Hn. destruct (anchorOf w p); eapply Forall_forall in Hn; try exact Hn; apply names_free.
Qed.
(** What the path is split to. *)
Lemma splitFull_shape p : exists first rest, splitFull w p = Some (first ++ (match rest with [] => [] | _ => names sep rest ++ extra rest end)) /\ names sep rest = namesOf w p /\ (exists pre, p = pre ++ rest) /\ match rest with c :: _ => sep c = false | [] => True end /\
  (anchorOf w p = Here /\ first = [] /\ rest = p \/ exists r, first = [r] /\ anchorOf w r = anchorOf w p /\ anchorOf w p <> Here /\ namesOf w r = [] /\ exists q, p = r ++ q).
Proof.
  assert (R : forall rest, match rest with c :: _ => sep c = false | [] => True end -> match rest with [] => Some [] | _ => splitLoop w (length rest) rest end = Some (match rest with [] => [] | _ => names sep rest ++ extra rest end)).
  { intros [|c r] H; [reflexivity|]. apply splitLoop_ok; [lia|exact H]. }
  assert (G : forall first rest, match rest with c :: _ => sep c = false | [] => True end -> match rest with [] => Some first | _ => match splitLoop w (length rest) rest with Some r => Some (first ++ r) | None => None end end = Some (first ++ (match rest with [] => [] | _ => names sep rest ++ extra rest end))).
  { intros first rest H. specialize (R rest H). destruct rest; [rewrite app_nil_r; reflexivity|]. rewrite R. reflexivity. }
  unfold splitFull. destruct (hasDriveLetter w p) eqn:Ed.
  - assert (Ew : w = true) by (unfold hasDriveLetter in Ed; destruct w; [reflexivity|discriminate]). assert (Hp : exists d r, p = d :: colon :: r /\ letter d = true).
    { unfold hasDriveLetter in Ed. rewrite Ew in Ed. cbn [andb] in Ed. destruct p as [|d [|c r]]; try discriminate. apply andb_true_iff in Ed. destruct Ed as (A & B). apply Z.eqb_eq in B. subst c. exists d, r. auto. }
    destruct Hp as (d & r & Ep & Hd). destruct (isAbsolute w p) eqn:Ea.
    + assert (Hs : exists s q, r = s :: q /\ sep s = true). { unfold isAbsolute in Ea. rewrite Ew, Ep in Ea. apply andb_true_iff in Ea. destruct Ea as (_ & Ea). destruct r as [|s q]; [discriminate|]. exists s, q. rewrite Ew. auto. }
      destruct Hs as (s & q & Er & Hs). destruct (skipSeps_ok q) as ((a & E & F) & H). rewrite Ep, Er. cbn [firstn skipn]. rewrite (G [[d; colon; s]] _ H). exists [[d; colon; s]], (skipSeps w q). split; [reflexivity|].
      assert (As : forall l, anchorOf w (d :: colon :: s :: l) = DriveRoot d) by (intros l; unfold anchorOf; rewrite Ew, Hd, Z.eqb_refl; cbn [andb]; rewrite sepOf_eq, <- Ew, Hs; reflexivity).
      split; [rewrite namesOf_eq, As; cbn [skipn]; rewrite names_sep by exact Hs; rewrite E at 2; symmetry; apply names_seps; exact F|]. split; [exists ([d; colon; s] ++ a); rewrite <- app_assoc, <- E; reflexivity|]. split; [exact H|].
      right. exists [d; colon; s]. split; [reflexivity|]. split; [rewrite !As; reflexivity|]. split; [rewrite As; discriminate|]. split; [rewrite namesOf_eq, As; cbn [skipn]; apply names_all_seps; repeat constructor; exact Hs|exists q; reflexivity].
    + assert (Hr : match r with c :: _ => sep c = false | [] => True end). { destruct r as [|s q]; [exact I|]. unfold isAbsolute in Ea. rewrite Ed, Ew, Ep in Ea. cbn [andb] in Ea. rewrite <- Ew in Ea. exact Ea. }
      rewrite Ep. cbn [firstn skipn]. rewrite (G [[d; colon]] _ Hr). exists [[d; colon]], r. split; [reflexivity|].
      assert (As : anchorOf w (d :: colon :: r) = OnDrive d). { unfold anchorOf. rewrite Ew, Hd, Z.eqb_refl. cbn [andb]. destruct r as [|s q]; [reflexivity|]. rewrite sepOf_eq, <- Ew, Hr. reflexivity. }
      assert (As0 : anchorOf w [d; colon] = OnDrive d) by (unfold anchorOf; rewrite Ew, Hd, Z.eqb_refl; reflexivity).
      split; [rewrite namesOf_eq, As; reflexivity|]. split; [exists [d; colon]; reflexivity|]. split; [exact Hr|]. right. exists [d; colon]. split; [reflexivity|]. split; [congruence|]. split; [rewrite As; discriminate|]. split; [rewrite namesOf_eq, As0; reflexivity|exists r; reflexivity].
  - destruct p as [|c r]; [exists [], []; split; [reflexivity|]; destruct plain_nil as (P1 & _ & P3); split; [symmetry; exact P3|]; split; [exists []; reflexivity|]; split; [exact I|]; [left; split; [unfold plain in P1; destruct (anchorOf w []); congruence|auto]]|].
    destruct (sep c) eqn:Ec.
    + destruct (skipSeps_ok r) as ((a & E & F) & H). rewrite (G [[c]] _ H). exists [[c]], (skipSeps w r). split; [reflexivity|]. destruct (sep_not_letter c Ec) as (Hle & _).
      assert (As : forall l, anchorOf w (c :: l) = Root). { intros l. unfold anchorOf. rewrite !sepOf_eq, Ec. destruct w; [|reflexivity]. destruct l; [reflexivity|]. rewrite Hle. reflexivity. }
      split; [rewrite namesOf_eq, As, names_sep by exact Ec; rewrite E at 2; symmetry; apply names_seps; exact F|]. split; [exists (c :: a); cbn [app]; rewrite <- E; reflexivity|]. split; [exact H|]. right. exists [c]. split; [reflexivity|]. split; [rewrite !As; reflexivity|]. split; [rewrite As; discriminate|]. split; [rewrite namesOf_eq, As; apply names_all_seps; repeat constructor; exact Ec|exists r; reflexivity].
    + rewrite (G [] (c :: r) Ec). exists [], (c :: r). split; [reflexivity|]. assert (As : anchorOf w (c :: r) = Here).
      { apply anchor_here; [exact Ec|]. intros Ew. destruct r as [|e r]; [exact I|]. unfold hasDriveLetter in Ed. rewrite Ew in Ed. exact Ed. }
      split; [rewrite namesOf_eq, As; reflexivity|]. split; [exists []; reflexivity|]. split; [exact Ec|]. left. auto.
Qed.
Lemma names_or_nil rest : match rest with [] => [] | _ => names sep rest ++ extra rest end = names sep rest ++ extra rest.
Proof. destruct rest; [unfold extra; reflexivity|reflexivity]. Qed.
Theorem splitFull_meaning p : noDrives w p = true -> exists cs, splitFull w p = Some cs /\ forall cwd at_, fold_left (resolve w cwd) cs at_ = resolve w cwd at_ p.
Proof.
  intros ND. pose proof (noDrives_ok p ND) as OK. destruct (splitFull_shape p) as (first & rest & E & En & (pre & Epre) & Hc & C). rewrite names_or_nil in E. eexists. split; [exact E|]. intros cwd at_. rewrite fold_left_app, resolve_names by (rewrite En; exact OK). rewrite En.
  destruct C as [(A & -> & _)|(r & -> & A & _ & N & _)]; cbn [fold_left]; unfold resolve; [rewrite A; reflexivity|]. rewrite A, N. destruct (anchorOf w p); reflexivity.
Qed.
(** The components: a root first, if the path has one, then the names, then an empty one if the path ends in a
    separator that is not part of the root. *)
Lemma endsSep_last p : endsSep w p = nonempty p && sepOf w (last p 0).
Proof. destruct (exists_last_or p) as [->|(a & c & ->)]; [reflexivity|]. unfold endsSep. rewrite rev_app_distr, last_last, sepOf_eq. cbn [rev app]. destruct a; reflexivity. Qed.
Theorem splitFull_names p : exists first, splitFull w p = Some (first ++ namesOf w p ++ (if nonempty (namesOf w p) && sepOf w (last p 0) then [[]] else [])) /\
  (first = [] /\ plain w p = true \/ exists r q, first = [r] /\ p = r ++ q /\ plain w p = false /\ anchorOf w r = anchorOf w p /\ namesOf w r = []).
Proof.
  destruct (splitFull_shape p) as (first & rest & E & En & (pre & Epre) & Hc & C). rewrite names_or_nil in E. exists first. split.
  - rewrite E, En. do 3 f_equal. unfold extra. rewrite <- En. destruct rest as [|c r]; [cbn; reflexivity|]. assert (Hn : nonempty (names sep (c :: r)) = true).
    { destruct (names sep (c :: r)) eqn:En2; [|reflexivity]. exfalso. unfold names in En2. cbn [pieces] in En2. rewrite Hc in En2. destruct (pieces sep r); discriminate. }
    rewrite Hn. cbn [andb]. rewrite <- (endsSep_app pre (c :: r)) by discriminate. rewrite <- Epre, endsSep_last. destruct p as [|z p]; [destruct pre; discriminate|]. reflexivity.
  - destruct C as [(A & -> & _)|(r & -> & A & NH & N & q & Eq)]; [left; unfold plain; rewrite A; auto|right]. exists r, q. split; [reflexivity|]. split; [exact Eq|].
    split; [|auto]. unfold plain. destruct (anchorOf w p); congruence.
Qed.
Lemma route_names ns t : forall r acc, Forall okName ns -> (t = [] \/ t = [[]]) -> route w r acc (ns ++ t) = (r, acc ++ ns).
Proof.
  intros r acc H Ht. assert (P : Forall (fun c => full w c = false) (ns ++ t)).
  { apply Forall_app. split; [eapply Forall_impl; [|exact H]; intros n Hn; apply namesOf_name; exact Hn|]. destruct plain_nil as (_ & F & _). destruct Ht as [-> | ->]; repeat constructor; exact F. }
  rewrite route_plain by exact P. f_equal. f_equal. rewrite flat_map_app. replace (flat_map (namesOf w) t) with (@nil (list Z)) by (destruct plain_nil as (_ & _ & F); destruct Ht as [-> | ->]; [reflexivity|cbn [flat_map]; rewrite F; reflexivity]).
  rewrite app_nil_r. clear P Ht. induction ns as [|n ns IH]; [reflexivity|]. inversion H; subst. cbn [flat_map]. destruct (namesOf_name n ltac:(assumption)) as (_ & _ & ->). cbn [app]. rewrite IH by assumption. reflexivity.
Qed.
Lemma sound_name n : okName n -> zlen n < 2 ^ 31 -> sound w n = true.
Proof.
  intros H L. destruct (namesOf_name n H) as (A & _ & C). unfold sound. rewrite A, orb_true_r. cbn [andb]. replace (zlen n <? 2 ^ 31) with true by lia. rewrite andb_true_r. unfold noDrives. rewrite C. cbn [forallb]. destruct w_cases as [Ew|Ew]; rewrite Ew; [|reflexivity]. cbn [negb orb]. destruct H as (_ & D). specialize (D Ew). destruct n as [|x [|y n]]; [reflexivity|reflexivity|]. rewrite D. reflexivity.
Qed.
Lemma names_len p n : In n (names sep p) -> zlen n <= zlen p.
Proof.
  unfold names. intros H. apply filter_In in H. destruct H as (H & _). revert n H. induction p as [|c p IH]; intros n H; cbn [pieces] in H.
  - destruct H as [<- |[]]. apply Z.le_refl.
  - rewrite zlen_cons. pose proof (zlen_nonneg p). destruct (sep c).
    + destruct H as [<- |H]; [unfold zlen at 1; cbn [length]; lia|specialize (IH n H); lia].
    + destruct (pieces sep p) as [|x xs] eqn:E; [exfalso; exact (pieces_nn sep p E)|]. destruct H as [<- |H]; [rewrite zlen_cons; specialize (IH x (or_introl eq_refl)); lia|specialize (IH n (or_intror H)); lia].
Qed.
Theorem splitFull_join p : sound w p = true -> p <> [] -> stays (if full w p then 0 else 1) (namesOf w p) = true ->
  exists cs q, splitFull w p = Some cs /\ joinAndNormalize w cs = Some q /\ full w q = full w p /\ forall cwd at_, resolve w cwd at_ q = resolve w cwd at_ p.
Proof.
  intros Hs Hp St. assert (Hs' := Hs). unfold sound in Hs. apply andb_true_iff in Hs. destruct Hs as (Hs & Hl). apply andb_true_iff in Hs. destruct Hs as (Hfp & ND). pose proof (noDrives_ok p ND) as OK.
  destruct (splitFull_meaning p ND) as (cs & E & M). destruct (splitFull_names p) as (first & E' & C). rewrite E in E'. inversion E' as [E'']. clear E'.
  set (t := if nonempty (namesOf w p) && sepOf w (last p 0) then [[]] else []) in *. assert (Ht : t = [] \/ t = [[]]) by (unfold t; destruct (nonempty (namesOf w p) && sepOf w (last p 0)); auto).
  assert (Hr : route w false [] cs = (full w p, namesOf w p)).
  { rewrite E''. destruct C as [(-> & P)|(r & q & -> & Eq & P & A & N)].
    - cbn [app]. rewrite route_names by assumption. unfold full. unfold plain in P. destruct (anchorOf w p); try discriminate. reflexivity.
    - cbn [app route]. assert (F : full w p = true) by (rewrite P, orb_false_r in Hfp; exact Hfp). assert (F' : full w r = true) by (unfold full; rewrite A; exact F). rewrite F', route_names by assumption. rewrite N, F. reflexivity. }
  assert (Hls : Forall (fun n => zlen n < 2 ^ 31) (namesOf w p)).
  { apply Forall_forall. intros n Hn. apply Z.ltb_lt in Hl. rewrite namesOf_eq in Hn. assert (zlen (skipn 2 p) <= zlen p) by (unfold zlen; rewrite skipn_length; lia). destruct (anchorOf w p); apply names_len in Hn; lia. }
  assert (Sn : forallb (sound w) (namesOf w p) = true). { apply forallb_forall. intros n Hn. rewrite Forall_forall in OK, Hls. apply sound_name; [apply OK|apply Hls]; exact Hn. }
  assert (Ss : forallb (sound w) cs = true).
  { rewrite E'', !forallb_app, Sn. cbn [andb]. destruct plain_nil as (P1 & P2 & P3). assert (St' : forallb (sound w) t = true). { destruct Ht as [-> | ->]; [reflexivity|]. cbn [forallb]. unfold sound, noDrives. rewrite P1, P3, orb_true_r. cbn [forallb]. rewrite orb_true_r. reflexivity. }
    rewrite St', andb_true_r. destruct C as [(-> & P)|(r & q & -> & Eq & P & A & N)]; [reflexivity|]. cbn [forallb]. unfold sound, full, plain, noDrives. rewrite A, N. cbn [forallb]. unfold full, plain in Hfp. rewrite Hfp, orb_true_r. cbn [andb]. rewrite andb_true_r. apply Z.ltb_lt. apply Z.ltb_lt in Hl. rewrite Eq, zlen_app in Hl. pose proof (zlen_nonneg q). lia. }
  assert (Hcs : cs <> []).
  { rewrite E''. destruct C as [(-> & P)|(r & q & -> & _)]; [|discriminate]. cbn [app]. destruct (namesOf w p) eqn:En; [|discriminate]. exfalso. rewrite namesOf_eq in En. unfold plain in P. destruct (anchorOf w p) eqn:Ea; try discriminate.
    destruct p as [|c p']; [congruence|]. unfold names in En. cbn [pieces] in En. assert (Ec : sep c = false). { unfold anchorOf in Ea. rewrite !sepOf_eq in Ea. destruct w_cases as [Ew|Ew]; rewrite Ew in *; [|destruct (isSepByte false c); [discriminate|reflexivity]]. destruct p' as [|e p']; [destruct (isSepByte true c); [discriminate|reflexivity]|]. destruct (letter c && (e =? colon)); [destruct p'; [discriminate|]; destruct (sepOf true _); discriminate|]. destruct (isSepByte true c); [discriminate|reflexivity]. }
    rewrite Ec in En. destruct (pieces sep p'); discriminate. }
  destruct (join_meaning cs Hcs Ss) as (q & Q1 & Q2 & Q3); [rewrite Hr; exact St|]. exists cs, q. split; [exact E|]. split; [exact Q1|]. rewrite Hr in Q2. split; [exact Q2|]. intros cwd at_. rewrite Q3. apply M.
Qed.

(* ---- extensions ---- *)
Lemma last_piece d d' l m : d ++ l = d' ++ m -> none sep l -> none sep m -> (d = [] \/ sep (last d 0) = true) -> (d' = [] \/ sep (last d' 0) = true) -> l = m.
Proof.
  assert (K : forall x k y, (x ++ k = [] \/ sep (last (x ++ k) 0) = true) -> none sep (k ++ y) -> k = []).
  { intros x k y H N. destruct k as [|z k]; [reflexivity|]. exfalso. destruct H as [H|H]; [destruct x; discriminate|]. rewrite last_app_nn in H by discriminate. apply Forall_app in N. destruct N as (N & _). pose proof (proj1 (Forall_forall _ _) N _ (last_in (z :: k) 0 ltac:(discriminate))) as G. cbv beta in G. congruence. }
  intros E Nl Nm Hd Hd'. apply app_eq_app in E. destruct E as (k & [(-> & ->)|(-> & ->)]).
  - rewrite (K d' k l Hd Nm). reflexivity.
  - rewrite (K d k m Hd' Nl). reflexivity.
Qed.
Theorem splitExt_ok p : zlen p < 2 ^ 31 -> exists stem ext, splitExt w p = Some (stem, ext) /\ p = stem ++ ext /\
  (ext = [] \/ exists e, ext = dot :: e /\ Forall (fun c => c <> dot /\ sepOf w c = false) e /\ stem <> [] /\ sepOf w (last stem 0) = false) /\
  (ext = [] -> forall d n e, p = d ++ n ++ dot :: e -> (d = [] \/ sepOf w (last d 0) = true) -> Forall (fun c => sepOf w c = false) (n ++ e) -> n = []).
Proof.
  intros Hl. unfold splitExt. destruct (rfindByte_default_split sep p Hl) as (r & -> & C).
  assert (G : exists d l, p = d ++ l /\ none sep l /\ (d = [] \/ sep (last d 0) = true) /\ (if 0 <=? r then sv_subStr1 p (r + 1) else Some p) = Some l).
  { destruct C as [(-> & N)|(a & c & b & Ep & -> & N & Hc)].
    - exists [], p. cbn [Z.leb Z.compare app]. auto.
    - exists (a ++ [c]), b. rewrite last_last. split; [rewrite <- app_assoc; exact Ep|]. split; [exact N|]. split; [auto|]. pose proof (zlen_nonneg a). replace (0 <=? zlen a) with true by lia. replace (zlen a + 1) with (zlen (a ++ [c])) by (rewrite zlen_app; reflexivity). rewrite Ep. change (a ++ c :: b) with (a ++ [c] ++ b). rewrite app_assoc. apply sub_app. }
  destruct G as (d & l & Ep & N & Hd & ->). assert (Ll : zlen l < 2 ^ 31) by (rewrite Ep, zlen_app in Hl; pose proof (zlen_nonneg d); lia).
  destruct (rfindByte_default_split (fun c => c =? dot) l Ll) as (k & -> & K). 
  assert (Short : forall x y, l = x ++ y -> sv_shortenedBy p (zlen l - zlen x) = Some (d ++ x) /\ sv_subStr1 l (zlen x) = Some y).
  { intros x y El. split; [|rewrite El; apply sub_app]. rewrite Ep, El, app_assoc. replace (zlen (x ++ y) - zlen x) with (zlen y) by (rewrite zlen_app; lia). unfold sv_shortenedBy. rewrite (zlen_app (d ++ x) y). pose proof (zlen_nonneg (d ++ x)). replace (zlen y <=? zlen (d ++ x) + zlen y) with true by lia. replace (Z.to_nat (zlen (d ++ x) + zlen y - zlen y)) with (length (d ++ x)) by (unfold zlen; lia). rewrite firstn_app, firstn_all, Nat.sub_diag. cbn [firstn]. rewrite app_nil_r. reflexivity. }
  assert (Same : sv_shortenedBy p (zlen l - zlen l) = Some p /\ sv_subStr1 l (zlen l) = Some []) by (rewrite Ep at 2; apply Short; symmetry; apply app_nil_r).
  (* the last name of the path is [l] *)
  assert (Last : forall d' n e, p = d' ++ n ++ dot :: e -> (d' = [] \/ sepOf w (last d' 0) = true) -> Forall (fun c => sepOf w c = false) (n ++ e) -> l = n ++ dot :: e).
  { intros d' n e E1 E2 E3. apply (last_piece d d'); [congruence|exact N| |exact Hd|destruct E2 as [E2|E2]; [auto|right; rewrite <- sepOf_eq; exact E2]].
    apply Forall_app in E3. destruct E3 as (F1 & F2). assert (FF : forall q, Forall (fun c => sepOf w c = false) q -> none sep q) by (intros q Hq; eapply Forall_impl; [|exact Hq]; intros z Hz; rewrite <- sepOf_eq; exact Hz).
    apply Forall_app. split; [apply FF; exact F1|]. constructor; [unfold isSepByte, dot, slash, backslash; destruct w; reflexivity|apply FF; exact F2]. }
  destruct K as [(-> & Nd)|(x & c & y & El & -> & Nd & Hc)].
  - cbn [Z.ltb Z.compare orb]. destruct Same as (-> & ->). exists p, []. split; [reflexivity|]. split; [symmetry; apply app_nil_r|]. split; [auto|]. intros _ d' n e E1 E2 E3. specialize (Last d' n e E1 E2 E3). exfalso. rewrite Last in Nd. apply Forall_app in Nd. destruct Nd as (_ & Nd). inversion Nd. discriminate.
  - apply Z.eqb_eq in Hc. subst c. destruct x as [|x0 x].
    + cbn [Z.ltb Z.compare orb zlen length Z.of_nat Z.eqb]. destruct Same as (-> & ->). exists p, []. split; [reflexivity|]. split; [symmetry; apply app_nil_r|]. split; [auto|]. intros _ d' n e E1 E2 E3. specialize (Last d' n e E1 E2 E3). rewrite El in Last. destruct n as [|n0 n]; [reflexivity|]. exfalso. cbn [app] in Last. inversion Last; subst. apply Forall_app in Nd. destruct Nd as (_ & Nd). inversion Nd. discriminate.
    + set (x1 := x0 :: x) in *. assert (0 < zlen x1) by (unfold x1, zlen; cbn [length]; lia). replace (zlen x1 <? 0) with false by lia. replace (zlen x1 =? 0) with false by lia. cbn [orb]. destruct (Short x1 (dot :: y) El) as (-> & ->). exists (d ++ x1), (dot :: y). split; [reflexivity|]. split; [rewrite <- app_assoc, <- El; exact Ep|]. split; [|discriminate]. right. exists y. split; [reflexivity|].
      rewrite El in N. apply Forall_app in N. destruct N as (Nx & Ny). inversion Ny; subst. split; [|split].
      * apply Forall_forall. intros z Hz. split; [intros ->; pose proof (proj1 (Forall_forall _ _) Nd dot Hz) as G; discriminate|rewrite sepOf_eq; exact (proj1 (Forall_forall (fun c => sep c = false) y) ltac:(assumption) z Hz)].
      * unfold x1. destruct d; discriminate.
      * rewrite last_app_nn by discriminate. rewrite sepOf_eq. eapply Forall_forall in Nx; [exact Nx|]. apply last_in. discriminate.
Qed.
Lemma route_exists cs : forall r ns, fst (route w r ns cs) = r || existsb (full w) cs.
Proof. induction cs as [|c cs IH]; intros r ns; cbn [route existsb]; [rewrite orb_false_r; reflexivity|]. destruct (full w c); rewrite IH; [rewrite orb_true_r; reflexivity|reflexivity]. Qed.
Theorem join_meaning_full cs : cs <> [] -> forallb (sound w) cs = true -> stays (if fst (route w false [] cs) then 0 else 1) (snd (route w false [] cs)) = true ->
  exists q, joinAndNormalize w cs = Some q /\ full w q = existsb (full w) cs /\ forall cwd at_, resolve w cwd at_ q = fold_left (resolve w cwd) cs at_.
Proof. intros H1 H2 H3. destruct (join_meaning cs H1 H2 H3) as (q & Q1 & Q2 & Q3). exists q. rewrite route_exists in Q2. auto. Qed.
Theorem join_tidy_text cs : cs <> [] -> forallb (sound w) cs = true -> exists q, joinAndNormalize w cs = Some q /\ tidy w q /\
  (q = (if w then [46; 92] else [46; 47]) \/ (zlen q < 2 ^ 31 -> joinAndNormalize w [q] = Some q)).
Proof. intros H1 H2. destruct (join_tidy cs H1 H2) as (q & Q1 & Q2 & Q3). exists q. split; [exact Q1|]. split; [exact Q2|]. destruct Q3 as [->|Q3]; [left; unfold dot, sepByte, slash, backslash; destruct w; reflexivity|right; exact Q3]. Qed.
End Proofs.
(** Converting between formats. *)
Theorem from_ok (w srcW : bool) p : w <> srcW ->
  length (from w srcW p) = length p /\ forall i, (i < length p)%nat ->
  (sepOf srcW (nth i p 0) = true -> nth i (from w srcW p) 0 = if w then backslash else slash) /\ (sepOf srcW (nth i p 0) = false -> nth i (from w srcW p) 0 = nth i p 0).
Proof.
  intros H. unfold from. replace (Bool.eqb w srcW) with false by (destruct w, srcW; cbn; congruence). split; [apply map_length|]. intros i Hi.
  set (f := fun c => if isSepByte srcW c then sepByte w else c). rewrite (nth_indep (map f p) 0 (f 0)) by (rewrite map_length; exact Hi). rewrite map_nth. unfold f. rewrite sepOf_eq. split; intros ->; reflexivity.
Qed.
(** From the format of Windows, or of names without a backslash, the names stay the same. *)
Theorem from_names (w srcW : bool) p : (srcW = true \/ Forall (fun c => c <> backslash) p) -> names (sepOf w) (from w srcW p) = names (sepOf srcW) p.
Proof.
  intros H. unfold names. f_equal. destruct (Bool.eqb w srcW) eqn:E.
  - apply Bool.eqb_prop in E. subst w. unfold from. rewrite Bool.eqb_reflx. reflexivity.
  - unfold from. rewrite E. induction p as [|c p IH]; [reflexivity|]. cbn [map pieces]. rewrite IH by (destruct H as [H|H]; [auto|right; inversion H; assumption]).
    assert (S1 : sepOf w (if isSepByte srcW c then sepByte w else c) = isSepByte srcW c).
    { rewrite sepOf_eq. destruct (isSepByte srcW c) eqn:Ec; [unfold isSepByte, sepByte; destruct w; reflexivity|]. unfold isSepByte in *. destruct H as [H|H].
      - subst srcW. destruct w; [discriminate|]. cbn [andb] in *. lia.
      - inversion H; subst. destruct w, srcW; cbn [andb] in *; lia. }
    rewrite S1, (sepOf_eq srcW c). destruct (isSepByte srcW c); reflexivity.
Qed.
