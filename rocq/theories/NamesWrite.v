(* Proofs that written names read back, and about signatures. *)
From Verif Require Import Base ScanModel ScanSpec StringViewModel NumTextModel NumTextSpec NumTextProofs
  NamesModel NamesSpec NamesProofs NamesMore.

Lemma dotted_join a b : dotted a b = join [a; b].
Proof. reflexivity. Qed.
Lemma dotted_snoc comps b : comps <> [] -> dotted (join comps) b = join (comps ++ [b]).
Proof.
  unfold dotted. induction comps as [|c comps IH]; [congruence|]. intros _. destruct comps as [|d comps]; [reflexivity|].
  change (join (c :: d :: comps)) with (c ++ 46 :: join (d :: comps)).
  change (join ((c :: d :: comps) ++ [b])) with (c ++ 46 :: join ((d :: comps) ++ [b])).
  rewrite <- IH by discriminate. now rewrite <- app_assoc.
Qed.
Lemma spells_dotted s comps b : spells s comps -> ident 2 b -> spells (dotted s b) (comps ++ [b]).
Proof.
  intros (Hn & Hf & ->) Hb. split; [destruct comps; discriminate|]. split; [apply Forall_app; auto|]. now apply dotted_snoc.
Qed.
Lemma spells_one a : ident 2 a -> spells a [a].
Proof. intros H. split; [discriminate|]. split; [auto|reflexivity]. Qed.
Lemma spells_bytes s comps : spells s comps -> bytes_ok s.
Proof. intros (_ & H & ->). now apply join_bytes. Qed.

(** Reading the full names of modules and externs. *)
Theorem full_target reg r t : unique_repos reg -> good_names reg -> In r reg -> In t (rtargets r) ->
  findTarget reg (depFullName (rname r) t) = Ret (Some (rname r, t)) false.
Proof.
  intros Hu Hg Hr Ht. destruct (Hg r Hr) as (G1 & G2 & _). rewrite Forall_forall in G2.
  assert (Hs : spells (depFullName (rname r) t) [rname r; t]) by (apply (spells_dotted _ [_]); [now apply spells_one|auto]).
  apply findTarget_spec; [exact Hu|eapply spells_bytes; exact Hs|]. exists [rname r; t]. split; [exact Hs|].
  left. exists r. cbn. auto.
Qed.
Theorem full_extern reg r n i : unique_repos reg -> good_names reg -> In r reg -> first_at (fun d => d = n) (rexterns r) i ->
  findExtern reg (depFullName (rname r) n) = Ret (Some (rname r, i)) false.
Proof.
  intros Hu Hg Hr Hi. destruct (Hg r Hr) as (G1 & _ & G2 & _). rewrite Forall_forall in G2.
  assert (Hin : In n (rexterns r)). { apply first_at_in in Hi. destruct Hi as (x & Hx & ->). exact Hx. }
  assert (Hs : spells (depFullName (rname r) n) [rname r; n]) by (apply (spells_dotted _ [_]); [now apply spells_one|auto]).
  apply findExtern_spec; [exact Hu|eapply spells_bytes; exact Hs|]. exists [rname r; n], []. split; [exact Hs|].
  split; [|split; congruence]. exists r, n. cbn. auto.
Qed.

(** Short names. *)
Lemma shortDep_cases reg r n : In r reg -> unique_repos reg ->
  (shortDepName reg (rname r) n = dotted (rname r) n /\ exists r', In r' reg /\ r' <> r /\ In n (rexterns r')) \/
  (shortDepName reg (rname r) n = n /\ forall r', In r' reg -> In n (rexterns r') -> r' = r).
Proof.
  intros Hr Hu. unfold shortDepName. destruct (existsb _ reg) eqn:E.
  - left. split; [reflexivity|]. apply existsb_exists in E. destruct E as (r' & Hr' & E). apply andb_true_iff in E.
    destruct E as [E1 E2]. apply negb_true_iff, name_eqb_neq in E1. exists r'. split; [exact Hr'|]. split; [congruence|].
    apply findExternImm_no. unfold findExternImm. destruct (find_at _ _ _); congruence.
  - right. split; [reflexivity|]. intros r' Hr' Hin. destruct (name_eqb (rname r') (rname r)) eqn:En.
    + apply name_eqb_eq in En. now apply (unique_eq reg).
    + exfalso. rewrite <- not_true_iff_false in E. apply E. apply existsb_exists. exists r'. split; [exact Hr'|].
      rewrite En. cbn [negb andb]. apply findExternImm_no in Hin. unfold findExternImm in Hin.
      destruct (find_at _ _ _); congruence.
Qed.
(** The components of an extern's short name. *)
Lemma short_extern_named reg r n i : unique_repos reg -> good_names reg -> In r reg -> first_at (fun d => d = n) (rexterns r) i ->
  ~ is_repo reg n -> exists comps, spells (shortDepName reg (rname r) n) comps /\ extern_named reg comps (rname r, i).
Proof.
  intros Hu Hg Hr Hi Hno. destruct (Hg r Hr) as (G1 & _ & G2 & _). rewrite Forall_forall in G2.
  assert (Hin : In n (rexterns r)). { apply first_at_in in Hi. destruct Hi as (x & Hx & ->). exact Hx. }
  destruct (shortDep_cases reg r n Hr Hu) as [(-> & _)|(-> & Hon)].
  - exists [rname r; n]. split; [apply (spells_dotted _ [_]); [now apply spells_one|auto]|]. exists r, n. cbn. auto.
  - exists [n]. split; [apply spells_one; auto|]. exists r, n. cbn. split; [exact Hr|]. split; [reflexivity|]. split; [exact Hi|].
    right. split; [reflexivity|]. split; [exact Hno|]. split; [exact Hr|]. auto.
Qed.
Theorem short_extern reg r n i : unique_repos reg -> good_names reg -> In r reg -> first_at (fun d => d = n) (rexterns r) i ->
  ~ is_repo reg n -> findExtern reg (shortDepName reg (rname r) n) = Ret (Some (rname r, i)) false.
Proof.
  intros Hu Hg Hr Hi Hno. destruct (short_extern_named reg r n i Hu Hg Hr Hi Hno) as (comps & Hs & He).
  apply findExtern_spec; [exact Hu|eapply spells_bytes; exact Hs|]. exists comps, []. rewrite app_nil_r.
  split; [exact Hs|]. split; [exact He|]. split; congruence.
Qed.
(** The short name of a module looks at externs only: it reads back exactly when it is qualified, or
    is no repo's name and no other repo has such a module. *)
Theorem short_target reg r t : unique_repos reg -> good_names reg -> In r reg -> In t (rtargets r) ->
  (findTarget reg (shortDepName reg (rname r) t) = Ret (Some (rname r, t)) false <->
   (exists r', In r' reg /\ r' <> r /\ In t (rexterns r')) \/
   (~ is_repo reg t /\ forall r', In r' reg -> In t (rtargets r') -> r' = r)).
Proof.
  intros Hu Hg Hr Ht. destruct (Hg r Hr) as (G1 & G2 & _). rewrite Forall_forall in G2.
  destruct (shortDep_cases reg r t Hr Hu) as [(-> & H)|(-> & Hon)].
  - split; [intros _; left; exact H|]. intros _. now apply full_target.
  - pose proof (spells_one t (G2 t Ht)) as Hs. pose proof (proj1 (findTarget_spec reg t (rname r, t) Hu (spells_bytes _ _ Hs))) as F.
    rewrite F. split.
    + intros (comps & Hc & Hn). rewrite (spells_inj _ _ _ Hc Hs) in Hn. right.
      destruct Hn as [(r' & _ & E & _)|(_ & Hno & r' & (Hr' & Ho & Hu') & E)]; [discriminate|]. cbn in *.
      split; [exact Hno|]. assert (r = r') as -> by (apply (unique_eq reg); auto). exact Hu'.
    + intros [(r' & Hr' & Hne & Hin)|(Hno & Hu')]; [exfalso; apply Hne; auto|].
      exists [t]. split; [exact Hs|]. right. cbn. split; [reflexivity|]. split; [exact Hno|]. exists r. split; [|reflexivity].
      split; [exact Hr|]. auto.
Qed.

(** Full names of providers. *)
Theorem full_provider reg er n i r p j : unique_repos reg -> good_names reg -> In er reg -> In r reg ->
  first_at (fun d => d = n) (rexterns er) i -> first_at (fun x => x = ((rname er, i), p)) (rproviders r) j ->
  (getExternProvider reg (provFullName (rname er) n (rname r) p) = Ret (Some (rname r, j)) false <->
   r <> er \/ (~ is_repo reg p /\ forall r', In r' reg -> In ((rname er, i), p) (rproviders r') -> r' = r)).
Proof.
  intros Hu Hg Her Hr Hi Hj. destruct (Hg r Hr) as (G1 & _ & _ & G2). destruct (Hg er Her) as (G3 & _ & G4 & _).
  rewrite Forall_forall in G2, G4.
  assert (Hn : In n (rexterns er)). { apply first_at_in in Hi. destruct Hi as (x & Hx & ->). exact Hx. }
  assert (Hp : In ((rname er, i), p) (rproviders r)). { apply first_at_in in Hj. destruct Hj as (x & Hx & ->). exact Hx. }
  pose proof (G2 _ Hp) as Gp. cbn [snd] in Gp.
  assert (Hen : extern_named reg [rname er; n] (rname er, i)). { exists er, n. cbn. auto. }
  unfold provFullName. destruct (name_eqb (rname r) (rname er)) eqn:E.
  - apply name_eqb_eq in E. assert (r = er) as -> by (apply (unique_eq reg); auto).
    assert (Hs : spells (dotted (dotted (rname er) n) p) [rname er; n; p]).
    { apply (spells_dotted _ [_; _]); [|exact Gp]. apply (spells_dotted _ [_]); [now apply spells_one|auto]. }
    pose proof (proj1 (getExternProvider_spec reg _ Hu (spells_bytes _ _ Hs)) (rname er, j)) as F. rewrite F. split.
    + intros (ec & pc & e & Hs' & He & Hpn). pose proof (spells_inj _ _ _ Hs' Hs) as Ec. right.
      pose proof Hpn as (r' & p' & Hr' & Ef & Hf & D). cbn [fst snd] in Ef, Hf.
      assert (Eec : ec = [rname er; n]).
      { pose proof (extern_bwd reg ec pc e Hu He) as B1. pose proof (extern_bwd reg [rname er; n] [p] _ Hu Hen) as B2.
        rewrite Ec in B1. cbn [app] in B2. rewrite B1 in B2. injection B2 as -> ->. apply (app_inv_tail [p]). exact Ec. }
      rewrite Eec in Ec. cbn [app] in Ec. injection Ec as ->.
      assert (e = (rname er, i)) as ->.
      { pose proof (extern_bwd reg ec [p] e Hu He) as B1. rewrite Eec in B1. pose proof (extern_bwd reg [rname er; n] [p] _ Hu Hen) as B2. rewrite B1 in B2. now injection B2 as ->. }
      destruct D as [D|(D & Hno & (_ & _ & Ho))]; [discriminate|]. injection D as ->. split; [exact Hno|].
      assert (er = r') as -> by (apply (unique_eq reg); auto). exact Ho.
    + intros [H|(Hno & Ho)]; [congruence|]. exists [rname er; n], [p], (rname er, i). split; [exact Hs|]. split; [exact Hen|].
      exists er, p. cbn. split; [exact Hr|]. split; [reflexivity|]. split; [exact Hj|]. right. split; [reflexivity|]. split; [exact Hno|].
      split; [exact Hr|]. auto.
  - apply name_eqb_neq in E. split; [intros _; left; congruence|]. intros _.
    assert (Hs : spells (dotted (dotted (dotted (rname er) n) (rname r)) p) [rname er; n; rname r; p]).
    { apply (spells_dotted _ [_; _; _]); [|exact Gp]. apply (spells_dotted _ [_; _]); [|exact G1].
      apply (spells_dotted _ [_]); [now apply spells_one|auto]. }
    apply (getExternProvider_spec reg _ Hu (spells_bytes _ _ Hs)).
    exists [rname er; n], [rname r; p], (rname er, i). split; [exact Hs|]. split; [exact Hen|]. exists r, p. cbn. auto.
Qed.

(** Short names of providers. *)
Theorem short_provider reg er n i r p j : unique_repos reg -> good_names reg -> In er reg -> In r reg ->
  first_at (fun d => d = n) (rexterns er) i -> first_at (fun x => x = ((rname er, i), p)) (rproviders r) j ->
  ~ is_repo reg n -> ~ is_repo reg p ->
  getExternProvider reg (shortProvName reg (rname er, i) n (rname r) p) = Ret (Some (rname r, j)) false.
Proof.
  intros Hu Hg Her Hr Hi Hj Hnn Hnp. destruct (Hg r Hr) as (G1 & _ & _ & G2). rewrite Forall_forall in G2.
  assert (Hp : In ((rname er, i), p) (rproviders r)). { apply first_at_in in Hj. destruct Hj as (x & Hx & ->). exact Hx. }
  pose proof (G2 _ Hp) as Gp. cbn [snd] in Gp.
  destruct (short_extern_named reg er n i Hu Hg Her Hi Hnn) as (comps & Hs & He).
  unfold shortProvName. cbn [fst]. destruct (existsb _ reg) eqn:E.
  - assert (Hs' : spells (dotted (dotted (shortDepName reg (rname er) n) (rname r)) p) (comps ++ [rname r; p])).
    { change [rname r; p] with ([rname r] ++ [p]). rewrite app_assoc. apply spells_dotted; [|exact Gp]. now apply spells_dotted. }
    apply (getExternProvider_spec reg _ Hu (spells_bytes _ _ Hs')). exists comps, [rname r; p], (rname er, i).
    split; [exact Hs'|]. split; [exact He|]. exists r, p. cbn. auto.
  - assert (Hs' : spells (dotted (shortDepName reg (rname er) n) p) (comps ++ [p])) by (now apply spells_dotted).
    apply (getExternProvider_spec reg _ Hu (spells_bytes _ _ Hs')). exists comps, [p], (rname er, i).
    split; [exact Hs'|]. split; [exact He|]. exists r, p. cbn. split; [exact Hr|]. split; [reflexivity|]. split; [exact Hj|].
    right. split; [reflexivity|]. split; [exact Hnp|]. split; [exact Hr|]. split; [exact Hp|].
    intros r' Hr' Hin. destruct (name_eqb (rname r') (rname r)) eqn:En.
    + apply name_eqb_eq in En. now apply (unique_eq reg).
    + exfalso. rewrite <- not_true_iff_false in E. apply E. apply existsb_exists. exists r'. split; [exact Hr'|].
      rewrite En. cbn [negb andb]. apply findProviderImm_no in Hin. destruct (findProviderImm _ _ _); congruence.
Qed.

(** Signatures. *)
Lemma denotes_len l n : denotes 16 l n -> forall c r, l = c :: r -> c <> 48 -> 16 ^ Z.of_nat (length r) <= n.
Proof.
  induction 1 as [|l n c d H IH Hc Hd]; intros c0 r E Hc0; [discriminate|].
  destruct l as [|x l].
  - injection E as <- <-. inversion H; [|destruct l; discriminate]. subst. cbn. unfold char_digit in Hc. lia.
  - injection E as <- <-. specialize (IH x l eq_refl Hc0). rewrite app_length. cbn [length].
    replace (Z.of_nat (length l + 1)) with (Z.of_nat (length l) + 1) by lia. rewrite Z.pow_add_r by lia.
    unfold char_digit in Hc. lia.
Qed.
Lemma denotes_zeros k : denotes 16 (repeat 48 k) 0.
Proof.
  induction k as [|k IH]; [constructor|]. cbn [repeat]. rewrite repeat_cons.
  change 0 with (0 * 16 + 0). constructor; [exact IH|left; lia|lia].
Qed.
Lemma denotes_pad k l n : denotes 16 l n -> denotes 16 (repeat 48 k ++ l) n.
Proof.
  induction 1 as [|l n c d H IH Hc Hd]; [rewrite app_nil_r; apply denotes_zeros|]. rewrite app_assoc. now constructor.
Qed.
Lemma sigWord_ok w : 0 <= w < 2 ^ 64 -> exists l, sigWord w = Some l /\ length l = 16%nat /\ denotes 16 l w.
Proof.
  intros Hw. destruct (print_u64_canonical w 16 false Hw ltac:(lia)) as (d & Ed & Hd & Hz & Hnz).
  unfold sigWord. rewrite Ed. change (sv_repeat [48] 16) with (Some (repeat 48 16)).
  assert (Hl : (length d <= 16)%nat).
  { destruct (Z.eq_dec w 0) as [->|Hne]; [rewrite (Hz eq_refl); cbn; lia|]. destruct (Hnz Hne) as (c & r & -> & Hc).
    pose proof (denotes_len _ _ Hd c r eq_refl Hc) as P. cbn [length].
    destruct (Nat.le_gt_cases (S (length r)) 16) as [H|H]; [exact H|]. exfalso.
    pose proof (Z.pow_le_mono_r 16 16 (Z.of_nat (length r)) ltac:(lia) ltac:(lia)). lia. }
  unfold sv_right. assert (Hz16 : zlen (repeat 48 16 ++ d) = 16 + Z.of_nat (length d)).
  { unfold zlen. rewrite app_length, repeat_length. lia. }
  rewrite Hz16. destruct (16 <=? 16 + Z.of_nat (length d)) eqn:E; [|apply Z.leb_gt in E; lia].
  replace (Z.to_nat (16 + Z.of_nat (length d) - 16)) with (length d) by lia.
  exists (skipn (length d) (repeat 48 16 ++ d)). split; [reflexivity|]. split.
  - rewrite skipn_length, app_length, repeat_length. lia.
  - assert (Er : repeat 48 16 = repeat 48 (length d) ++ repeat 48 (16 - length d)) by (rewrite <- repeat_app; f_equal; lia).
    rewrite Er, <- app_assoc, skipn_app, repeat_length, Nat.sub_diag. cbn [skipn].
    rewrite (skipn_all2 (repeat 48 (length d))) by (rewrite repeat_length; lia). now apply denotes_pad.
Qed.
Theorem signature_roundtrip hi lo : 0 <= hi < 2 ^ 64 -> 0 <= lo < 2 ^ 64 ->
  exists s, signatureToString hi lo = Some s /\ length s = 32%nat /\ denotes 16 s (hi * 2 ^ 64 + lo) /\
            parseSignatureString s = Some (hi, lo).
Proof.
  intros Hh Hl. destruct (sigWord_ok hi Hh) as (a & Ea & La & Da). destruct (sigWord_ok lo Hl) as (b & Eb & Lb & Db).
  unfold signatureToString. rewrite Ea, Eb. exists (a ++ b). split; [reflexivity|].
  assert (L : length (a ++ b) = 32%nat) by (rewrite app_length; lia). split; [exact L|]. split.
  - replace (2 ^ 64) with (16 ^ Z.of_nat (length b)) by (rewrite Lb; reflexivity). clear - Da Db.
    induction Db as [|l n c d H IH Hc Hd]; [rewrite app_nil_r; cbn; replace (hi * 1 + 0) with hi by lia; exact Da|].
    rewrite app_assoc. rewrite app_length. cbn [length]. replace (Z.of_nat (length l + 1)) with (Z.of_nat (length l) + 1) by lia.
    rewrite Z.pow_add_r by lia.
    replace (hi * (16 ^ Z.of_nat (length l) * 16 ^ 1) + (n * 16 + d)) with ((hi * 16 ^ Z.of_nat (length l) + n) * 16 + d) by lia.
    now constructor.
  - unfold parseSignatureString. rewrite L. cbn [negb Z.eqb]. change (Z.of_nat 32 =? 32) with true. cbn [negb].
    unfold sv_left, sv_subStr1, zlen. rewrite L. change (16 <=? Z.of_nat 32) with true. cbn iota. change (Z.to_nat 16) with 16%nat.
    rewrite firstn_app, skipn_app, La, Nat.sub_diag, (firstn_all2 a) by lia. rewrite (skipn_all2 a) by lia. cbn [firstn skipn app].
    rewrite app_nil_r.
    assert (Pa : forall l n, denotes 16 l n -> length l = 16%nat -> 0 <= n < 2 ^ 64 -> parse_u64 l 16 = Some {| pval := n; prest := []; perr := false |}).
    { intros l n D Ln Hn. pose proof (parse_u64_digits 16 l n [] ltac:(lia) D ltac:(destruct l; discriminate) I) as P.
      rewrite app_nil_r in P. rewrite P. destruct (n <? 2 ^ 64) eqn:E; [reflexivity|]. apply Z.ltb_ge in E. lia. }
    rewrite (Pa a hi Da La Hh), (Pa b lo Db Lb Hl). reflexivity.
Qed.
(** Anything not 32 bytes long is read as no signature; reading never fails. *)
Theorem signature_total s : (length s <> 32%nat -> parseSignatureString s = Some (0, 0)) /\ parseSignatureString s <> None.
Proof.
  assert (H : length s <> 32%nat -> parseSignatureString s = Some (0, 0)).
  { intros H. unfold parseSignatureString. destruct (Z.of_nat (length s) =? 32) eqn:E; [apply Z.eqb_eq in E; lia|reflexivity]. }
  split; [exact H|]. destruct (Nat.eq_dec (length s) 32) as [E|E]; [|rewrite (H E); discriminate].
  unfold parseSignatureString, sv_left, sv_subStr1, zlen. rewrite E. change (Z.of_nat 32 =? 32) with true. cbn [negb].
  change (16 <=? Z.of_nat 32) with true. cbn iota. unfold parse_u64. change ((0 <? 16) && (16 <=? 36)) with true. cbn iota.
  destruct (u64_loop (firstn _ _) _ _ _ _) as [[[? ?] a] b]. destruct (u64_loop (skipn _ _) _ _ _ _) as [[[? ?] c] d].
  destruct (negb a || b), (negb c || d); discriminate.
Qed.
