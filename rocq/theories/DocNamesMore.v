(* Lookup, chains, qualified names, errors and destruction. *)
From Verif Require Import Base StringViewModel StringViewSpec StringViewProofs DocNamesModel DocNamesSpec DocNamesProofs.

Lemma parent_alive s i p : wf s -> parent_of s i = Some p -> (p < i)%nat /\ sig s p <> None.
Proof.
  intros W H. apply sig_of_parent in H as (kd & x & H). destruct (w_parent s W _ _ _ _ H) as (_ & H1 & pp & k' & x' & H2 & _).
  split; [exact H1|congruence].
Qed.

Lemma lookup_ok s x : wf s -> zlen x < 2 ^ 31 -> forall fuel i, (i < fuel)%nat ->
  exists r, lookup fuel s i x true = Some r /\ means s i x r.
Proof.
  intros W Hx. induction fuel as [|fuel IH]; intros i Hi; [lia|]. cbn. pose proof (child_ok s i x W Hx) as Hc.
  destruct (child s i x) as [k|]; [exists (Some k); split; [reflexivity|apply means_here, Hc]|].
  destruct (parent_of s i) as [p|] eqn:Ep.
  - destruct (parent_alive s i p W Ep) as [Hlt _]. destruct (IH p) as (r & H1 & H2); [lia|]. exists r. split; [exact H1|].
    apply means_outer with (p := p); assumption.
  - exists None. split; [reflexivity|]. apply means_nothing; assumption.
Qed.

Lemma means_alive s i x k : means s i x (Some k) -> sig s k <> None.
Proof.
  intros H. remember (Some k) as r eqn:E. revert E. induction H as [i x j Hd|i x p r H Hp Hm IH|i x H Hp].
  - intros [= ->]. apply declares_sig in Hd as (? & Hd & _). congruence.
  - intros E. apply IH, E.
  - discriminate.
Qed.

Lemma chain_false s : wf s -> forall r k, Forall (fun x => zlen x < 2 ^ 31) r ->
  exists res, chain_loop s false k r = Some res /\ forall e, res = Some e -> into s k r e.
Proof.
  intros W. induction r as [|x r IH]; intros k Hf.
  - exists (Some k). split; [reflexivity|]. intros e [= <-]. constructor.
  - inversion Hf as [|? ? Hx Hr]; subst. cbn [chain_loop negb andb].
    destruct (isScope (kind_of s k)) eqn:Es; cbn [negb]; [|exists None; split; [reflexivity|discriminate]].
    cbn [lookup]. pose proof (child_ok s k x W Hx) as Hc. destruct (child s k x) as [j|]; [|exists None; split; [reflexivity|discriminate]].
    destruct (IH j Hr) as (res & H1 & H2). exists res. split; [exact H1|]. intros e He.
    apply into_child with (k := j); [|exact Hc|apply H2, He].
    destruct (kind_of s k) as [[]|]; try discriminate Es; auto.
Qed.

Lemma chain_ok s i x rest : wf s -> sig s i <> None -> Forall (fun x => zlen x < 2 ^ 31) (x :: rest) ->
  exists res, lookupChain s i (x :: rest) = Some res /\
  forall e, res = Some e -> exists k, means s i x (Some k) /\ into s k rest e.
Proof.
  intros W Hi Hf. inversion Hf as [|? ? Hx Hr]; subst. unfold lookupChain. cbn [chain_loop negb andb].
  assert (Hlt : (i < S (next s))%nat) by (destruct (sig s i) as [v|] eqn:E; [apply (w_next s W) in E; lia|contradiction]).
  destruct (lookup_ok s x W Hx (S (next s)) i Hlt) as (r & H1 & H2). rewrite H1.
  destruct r as [k|]; [|exists None; split; [reflexivity|discriminate]].
  destruct (chain_false s W rest k Hr) as (res & H3 & H4). exists res. split; [exact H3|]. intros e He. exists k. split; [exact H2|apply H4, He].
Qed.

Definition distinct (s : docs) : Prop := forall p x k j, declares s p x k -> declares s p x j -> k = j.

Lemma means_one s i x r : distinct s -> means s i x r -> forall r', means s i x r' -> r = r'.
Proof.
  intros U H. induction H as [i x k Hd|i x p r Hn Hp Hm IH|i x Hn Hp]; intros r' H'; inversion H'; subst; try congruence.
  - f_equal. eapply U; eassumption.
  - exfalso. eapply H; exact Hd.
  - exfalso. eapply H; exact Hd.
  - exfalso. eapply Hn; eassumption.
  - apply IH. congruence.
  - exfalso. eapply Hn; eassumption.
Qed.

Lemma chain_false_all s : wf s -> distinct s -> forall r k e, Forall (fun x => zlen x < 2 ^ 31) r ->
  into s k r e -> chain_loop s false k r = Some (Some e).
Proof.
  intros W U r k e Hf Hi. induction Hi as [i|i x r k e Hk Hd Hi IH]; [reflexivity|].
  inversion Hf as [|? ? Hx Hr]; subst. cbn [chain_loop negb andb].
  replace (isScope (kind_of s i)) with true by (destruct Hk as [-> | ->]; reflexivity). cbn [negb lookup].
  pose proof (child_ok s i x W Hx) as Hc. destruct (child s i x) as [j|]; [|destruct (Hc k Hd)].
  rewrite (U i x j k Hc Hd). apply IH, Hr.
Qed.

Lemma chain_iff s i x rest e : wf s -> distinct s -> sig s i <> None -> Forall (fun x => zlen x < 2 ^ 31) (x :: rest) ->
  (lookupChain s i (x :: rest) = Some (Some e) <-> exists k, means s i x (Some k) /\ into s k rest e).
Proof.
  intros W U Hi Hf. split.
  - intros H. destruct (chain_ok s i x rest W Hi Hf) as (res & H1 & H2). rewrite H in H1. injection H1 as <-. apply H2. reflexivity.
  - intros (k & Hm & Hin). inversion Hf as [|? ? Hx Hr]; subst. unfold lookupChain. cbn [chain_loop negb andb].
    assert (Hlt : (i < S (next s))%nat) by (destruct (sig s i) as [v|] eqn:E; [apply (w_next s W) in E; lia|contradiction]).
    destruct (lookup_ok s x W Hx (S (next s)) i Hlt) as (r & H1 & H2). rewrite H1.
    rewrite (means_one s i x r U H2 _ Hm). apply chain_false_all; assumption.
Qed.

(** ** Qualified names *)
Lemma address_alive s i a : wf s -> address s i a -> i <> 0%nat /\ a <> [].
Proof.
  intros W H. assert (Hz : forall e p, at_ s i = Some e -> parentOf e = Some p -> i <> 0%nat).
  { intros e p He Hp ->. destruct (w_root s W) as [x Hx]. unfold sig in Hx. rewrite He in Hx. cbn in Hx. congruence. }
  inversion H; subst; (split; [eapply Hz; eassumption|]); [discriminate|]. intros E. apply app_eq_nil in E as [_ E]. discriminate E.
Qed.

Lemma qualified_joined s i a : wf s -> address s i a -> forall fuel, (i < fuel)%nat ->
  qualifiedID fuel s i = Some (joined [58; 58] a).
Proof.
  intros W H. induction H as [i e He Hp|i e p a He Hp Ha IH]; intros fuel Hf; (destruct fuel as [|fuel]; [lia|]); cbn [qualifiedID].
  - assert (E : parent_of s i = Some 0%nat) by (unfold parent_of; rewrite He; exact Hp). rewrite E.
    destruct (w_root s W) as [x0 H0]. rewrite (parent_sig _ _ _ _ _ H0). unfold name_of. rewrite He. reflexivity.
  - assert (E : parent_of s i = Some p) by (unfold parent_of; rewrite He; exact Hp). rewrite E.
    destruct (parent_alive s i p W E) as [Hlt Hal].
    destruct (address_alive s p a W Ha) as [Hp0 Hne].
    destruct (sig s p) as [[[pp kd] x]|] eqn:Es; [|contradiction]. rewrite (parent_sig _ _ _ _ _ Es).
    destruct (w_parent s W _ _ _ _ Es) as (_ & Hpp). destruct pp as [q|]; [|contradiction].
    rewrite IH by lia. f_equal. unfold name_of. rewrite He. clear - Hne.
    induction a as [|w a IH]; [contradiction|]. destruct a as [|v a]; [reflexivity|].
    change (joined [58; 58] ((w :: v :: a) ++ [nameOf e])) with (w ++ [58; 58] ++ joined [58; 58] ((v :: a) ++ [nameOf e])).
    rewrite <- IH by discriminate. change (joined [58; 58] (w :: v :: a)) with (w ++ [58; 58] ++ joined [58; 58] (v :: a)).
    rewrite <- !app_assoc. reflexivity.
Qed.

Lemma split_qualified a : Forall (fun w => w <> [] /\ ~ In 58 w) a -> sv_splitByte 58 (joined [58; 58] a) = a.
Proof.
  intros H. eapply words_unique; [apply sv_splitByte_words|].
  induction H as [|w ws [Hw Hn] H IH]; [constructor|]. destruct ws as [|v ws]; [apply words_last; assumption|].
  change (joined [58; 58] (w :: v :: ws)) with (w ++ 58 :: (58 :: joined [58; 58] (v :: ws))).
  apply words_cons; [exact Hw|exact Hn|]. apply words_sep, IH.
Qed.

Lemma chain_snoc s f r a x : chain_loop s f r (a ++ [x]) =
  match chain_loop s f r a with
  | Some (Some k) => chain_loop s (match a with [] => f | _ => false end) k [x]
  | o => o
  end.
Proof.
  revert f r. induction a as [|y a IH]; intros f r; [reflexivity|]. cbn [app chain_loop].
  destruct (negb f && negb (isScope (kind_of s r))); [reflexivity|].
  destruct (lookup (S (next s)) s r y f) as [[k|]|]; [|reflexivity|reflexivity]. rewrite IH.
  destruct a; reflexivity.
Qed.

Lemma scope_declared s i p e : wf s -> at_ s i = Some e -> parentOf e = Some p -> kindOf e <> Member -> declares s p (nameOf e) i.
Proof. intros W He Hp Hk. exists e. repeat split; try assumption. intros (E & _). contradiction. Qed.

Lemma resolve_address s i a : wf s -> address s i a -> alone s i -> (exists p x, declares s p x i) ->
  kind_of s i <> Some FunctionParam -> chain_loop s true 0 a = Some (Some i).
Proof.
  intros W H. induction H as [i e He Hp|i e p a He Hp Ha IH]; intros Hal Hd Hk.
  - assert (Hdi : declares s 0 (nameOf e) i).
    { destruct Hd as (p & x & Hd). pose proof Hd as (e1 & E1 & E2 & E3 & _). rewrite He in E1. injection E1 as <-. congruence. }
    assert (Hx : zlen (nameOf e) < 2 ^ 31).
    { apply (w_parent s W i (parentOf e) (kindOf e) (nameOf e)). unfold sig. rewrite He. reflexivity. }
    cbn [chain_loop negb andb lookup]. pose proof (child_ok s 0 (nameOf e) W Hx) as Hc.
    destruct (child s 0 (nameOf e)) as [k|]; [|destruct (Hc i Hdi)].
    inversion Hal as [|i1 e1 p1 E1 E2 Hone _]; subst; [destruct (address_alive s 0 _ W (address_top s 0 e He Hp)) as [F _]; congruence|].
    assert (e1 = e) by congruence. subst e1. assert (p1 = 0%nat) by congruence. subst p1. rewrite (Hone k Hc). reflexivity.
  - assert (Hi0 : i <> 0%nat) by (apply (address_alive s i _ W (address_in s i e p a He Hp Ha))).
    inversion Hal as [|i1 e1 p1 E1 E2 Hone Halp]; subst; [contradiction|].
    assert (e1 = e) by congruence. subst e1. assert (p1 = p) by congruence. subst p1.
    assert (Hsi : sig s i = Some (Some p, kindOf e, nameOf e)) by (unfold sig; rewrite He; cbn; congruence).
    destruct (w_parent s W _ _ _ _ Hsi) as (Hx & Hlt & pp & kd & x' & Hsp & Hsc).
    assert (Hscope : scopeKind kd) by (apply Hsc; intros E; apply Hk; rewrite (kind_sig _ _ _ _ _ Hsi), E; reflexivity).
    rewrite chain_snoc. rewrite IH.
    + destruct (address_alive s p a W Ha) as [_ Hne]. destruct a as [|y a]; [contradiction|]. cbn [chain_loop negb andb].
      replace (isScope (kind_of s p)) with true by (rewrite (kind_sig _ _ _ _ _ Hsp); destruct Hscope as [-> | ->]; reflexivity).
      cbn [negb lookup]. pose proof (child_ok s p (nameOf e) W Hx) as Hc.
      assert (Hdi : declares s p (nameOf e) i).
      { destruct Hd as (p1 & x & Hd). pose proof Hd as (e1 & F1 & F2 & F3 & _). rewrite He in F1. injection F1 as <-. congruence. }
      destruct (child s p (nameOf e)) as [k|]; [|destruct (Hc i Hdi)]. rewrite (Hone k Hc). reflexivity.
    + exact Halp.
    + destruct (address_alive s p a W Ha) as [Hp0 _]. destruct (w_parent s W _ _ _ _ Hsp) as (_ & Hpp).
      destruct pp as [q|]; [|contradiction]. exists q, x'. apply declares_sig. exists kd. split; [exact Hsp|].
      intros (E & _). destruct Hscope; congruence.
    + rewrite (kind_sig _ _ _ _ _ Hsp). destruct Hscope as [-> | ->]; discriminate.
Qed.

Lemma qualified_ok s i a : wf s -> address s i a -> Forall (fun w => w <> [] /\ ~ In 58 w) a -> alone s i ->
  (exists p x, declares s p x i) -> kind_of s i <> Some FunctionParam ->
  exists t, qualifiedID (S (next s)) s i = Some t /\ t = joined [58; 58] a /\ resolve s t = Some (Some i).
Proof.
  intros W Ha Hn Hal Hd Hk. exists (joined [58; 58] a).
  assert (Hlt : (i < S (next s))%nat).
  { destruct Hd as (p & x & Hd). apply declares_sig in Hd as (kd & Hd & _). apply (w_next s W) in Hd. lia. }
  split; [apply qualified_joined; assumption|]. split; [reflexivity|].
  unfold resolve. rewrite split_qualified by exact Hn. unfold lookupChain.
  destruct (address_alive s i a W Ha) as [_ Hne]. destruct a as [|w a]; [contradiction|]. apply resolve_address; assumption.
Qed.

(** ** Errors about names already defined *)
Fixpoint run (s : docs) (x : list Z) (ks : list nat) : list nat :=
  match ks with k :: r => if same (name_of s k) x then k :: run s x r else [] | [] => [] end.
Lemma run_length s x ks : List.length (run s x ks) = equalRun s x ks.
Proof. induction ks as [|k r IH]; [reflexivity|]. cbn. destruct (same (name_of s k) x); [cbn; f_equal; exact IH|reflexivity]. Qed.
Lemma run_in s x ks k : In k (run s x ks) -> In k ks /\ name_of s k = x.
Proof.
  induction ks as [|j r IH]; [intros []|]. cbn. destruct (same (name_of s j) x) eqn:E; [|intros []].
  intros [->|H]; [split; [left; reflexivity|apply same_true, E]|]. destruct (IH H). split; [right|]; assumption.
Qed.
Lemma run_app s x a k b : Forall (fun i => name_of s i = x) a -> name_of s k = x -> In k (run s x (a ++ k :: b)).
Proof.
  intros Hf Hk. induction Hf as [|j r Hj Hf IH]; cbn.
  - rewrite (proj2 (same_true _ _) Hk). left. reflexivity.
  - rewrite (proj2 (same_true _ _) Hj). right. exact IH.
Qed.
Lemma run_nodup s x ks : NoDup ks -> NoDup (run s x ks).
Proof.
  induction 1 as [|k r Hn H IH]; [constructor|]. cbn. destruct (same (name_of s k) x); constructor; [|exact IH].
  intros Hin. apply Hn. apply run_in in Hin. apply Hin.
Qed.

Lemma told_ok s p x : wf s -> zlen x < 2 ^ 31 ->
  exists ks, NoDup ks /\ (forall k, In k ks <-> declares s p x k) /\ alreadyDefined s p x = List.length ks.
Proof.
  intros W Hx. exists (run s x (fromGE s x (kids_of s p))). split; [|split].
  - apply run_nodup. pose proof (w_nodup s W p) as H. rewrite (up_from s x) in H. clear - H.
    induction (upToGE s x (kids_of s p)) as [|k r IH]; [exact H|]. cbn in H. inversion H. apply IH. assumption.
  - intros k. split.
    + intros H. apply run_in in H as [H Hn]. apply fromGE_in in H. apply (w_kids s W) in H as (y & Hd).
      pose proof (declares_name _ _ _ _ Hd). congruence.
    + intros Hd. pose proof (declares_name _ _ _ _ Hd) as Hn.
      assert (Hin : In k (kids_of s p)) by (apply (w_kids s W); exists x; exact Hd).
      destruct (from_first s x (kids_of s p) k W (kids_alive s p W) Hx (order_names _ _ (kids_alive s p W) (w_order s W p)) Hin Hn) as (a & b & E & Hf).
      rewrite E. apply run_app; assumption.
  - unfold alreadyDefined. symmetry. apply run_length.
Qed.

(** ** Namespaces *)
Lemma enter_ok s p x : wf s -> zlen x < 2 ^ 31 ->
  match enterNamespace s p x with
  | Reenters n => declares s p x n /\ kind_of s n = Some Namespace
  | IsNew => forall k, ~ declares s p x k
  | Crashes => exists k, declares s p x k /\ kind_of s k <> Some Namespace
  end.
Proof.
  intros W Hx. unfold enterNamespace. pose proof (child_ok s p x W Hx) as Hc. destruct (child s p x) as [k|]; [|exact Hc].
  destruct (kind_of s k) as [[]|] eqn:E; [split; assumption| | | |]; exists k; (split; [exact Hc|congruence]).
Qed.

(** ** Destruction *)
Lemma drop_declares s e p ks D : wf s -> parent_of s e = Some p -> kind_of s p = Some Namespace -> unregistered s e p = Some ks ->
  (forall i, D i = true <-> i = e \/ exists q, parent_of s i = Some q /\ D q = true) ->
  forall q x k, declares (mkDocs (fun i => if D i then None else setKids s p ks i) (next s)) q x k <-> declares s q x k /\ D k = false.
Proof.
  intros W Hp Hk Hu HD q x k. set (s' := mkDocs _ _).
  assert (Hsig : forall i, sig s' i = if D i then None else sig s i).
  { intros i. unfold sig at 1, s'. cbn. destruct (D i); [reflexivity|apply sig_setKids]. }
  destruct (D k) eqn:Ek.
  - split; [|intros (_ & E); discriminate E]. intros Hd. apply declares_sig in Hd as (kd & Hd & _). rewrite Hsig, Ek in Hd. discriminate Hd.
  - split.
    + intros Hd. split; [|reflexivity]. apply (declares_ext s s' q x k); [rewrite Hsig, Ek; reflexivity| |exact Hd].
      rewrite Hsig. destruct (D q) eqn:Eq; [|reflexivity]. apply declares_sig in Hd as (kd & Hd & _). rewrite Hsig, Ek in Hd.
      apply parent_sig in Hd. rewrite (proj2 (HD k)) in Ek; [discriminate Ek|]. right. exists q. split; assumption.
    + intros (Hd & _). apply (declares_ext s s' q x k); [rewrite Hsig, Ek; reflexivity| |exact Hd].
      rewrite Hsig. destruct (D q) eqn:Eq; [|reflexivity]. apply declares_sig in Hd as (kd & Hd & _).
      apply parent_sig in Hd. rewrite (proj2 (HD k)) in Ek; [discriminate Ek|]. right. exists q. split; assumption.
Qed.

(** ** There is always a place for a new name *)
Lemma less_lex a b : zlen a < 2 ^ 31 -> zlen b < 2 ^ 31 -> (less a b = true <-> lex_lt a b).
Proof. intros Ha Hb. unfold less. rewrite Z.ltb_lt. apply compare_lt; assumption. Qed.

Lemma from_ge s x ks : wf s -> alive s ks -> zlen x < 2 ^ 31 ->
  StronglySorted (fun i j => less (name_of s j) (name_of s i) = false) ks ->
  Forall (fun i => less (name_of s i) x = true) (upToGE s x ks) /\ Forall (fun i => less (name_of s i) x = false) (fromGE s x ks).
Proof.
  intros W Ha Hx Ho. revert Ha. induction Ho as [|j r H IH Hf]; intros Ha; cbn; [split; constructor|].
  destruct (less (name_of s j) x) eqn:E.
  - destruct IH as [A B]; [intros i Hi; apply Ha; right; exact Hi|]. split; [constructor; assumption|exact B].
  - split; [constructor|]. constructor; [exact E|]. apply Forall_forall. intros i Hi. rewrite Forall_forall in Hf. specialize (Hf i Hi).
    assert (Hj : zlen (name_of s j) < 2 ^ 31) by (apply short; [exact W|apply Ha; left; reflexivity]).
    assert (Hi2 : zlen (name_of s i) < 2 ^ 31) by (apply short; [exact W|apply Ha; right; exact Hi]).
    destruct (less (name_of s i) x) eqn:E2; [|reflexivity]. exfalso.
    destruct (less x (name_of s j)) eqn:E3.
    + apply less_lex in E2, E3; try assumption. pose proof (lex_trans _ _ _ E2 E3) as E4. apply less_lex in E4; [congruence|assumption|assumption].
    + pose proof (less_spec _ _ Hx Hj E3 E) as E5. rewrite <- E5 in Hf. congruence.
Qed.

Lemma place s p k x : wf s -> sig s p <> None -> zlen x < 2 ^ 31 -> exists a b, kids_of s p = a ++ b /\
  ordered (at_ (added s p k x (a ++ next s :: b))) (a ++ next s :: b).
Proof.
  intros W Hp Hx. exists (upToGE s x (kids_of s p)), (fromGE s x (kids_of s p)). split; [apply up_from|].
  set (ks := upToGE s x (kids_of s p) ++ next s :: fromGE s x (kids_of s p)). set (s' := added s p k x ks).
  pose proof (order_names _ _ (kids_alive s p W) (w_order s W p)) as Ho.
  destruct (from_ge s x (kids_of s p) W (kids_alive s p W) Hx Ho) as [HA HB].
  assert (Hnm : forall i a, In i (kids_of s p) -> at_ s' i = Some a -> nameOf a = name_of s i).
  { intros i a Hi Hat. pose proof (kids_alive s p W i Hi) as Hal. destruct (sig s i) as [[[pp kd] y]|] eqn:E; [|contradiction].
    assert (E2 : sig s' i = Some (pp, kd, y)).
    { unfold s'. rewrite sig_added. destruct (Nat.eqb_spec i (next s)) as [->|]; [apply (w_next s W) in E; lia|exact E]. }
    unfold sig in E2. rewrite Hat in E2. cbn in E2. injection E2 as _ _ <-. symmetry. exact (name_sig _ _ _ _ _ E). }
  assert (Hnew : forall a, at_ s' (next s) = Some a -> nameOf a = x) by (intros a; unfold s'; cbn; rewrite Nat.eqb_refl; intros [= <-]; reflexivity).
  assert (Hsh : forall i, In i (kids_of s p) -> zlen (name_of s i) < 2 ^ 31) by (intros i Hi; apply short; [exact W|exact (kids_alive s p W i Hi)]).
  assert (Hup : forall i, In i (upToGE s x (kids_of s p)) -> In i (kids_of s p)) by (intros i Hi; rewrite (up_from s x); apply in_or_app; left; exact Hi).
  assert (Hfr : forall i, In i (fromGE s x (kids_of s p)) -> In i (kids_of s p)) by (intros i; apply fromGE_in).
  rewrite (up_from s x (kids_of s p)) in Ho. rewrite Forall_forall in HA, HB.
  unfold ordered. fold ks s'. unfold ks. revert Ho HA HB Hup Hfr.
  generalize (upToGE s x (kids_of s p)) as u. generalize (fromGE s x (kids_of s p)) as f. intros f u Ho HA HB Hup Hfr.
  induction u as [|j u IH]; cbn in *.
  - constructor.
    + clear HB. induction Ho as [|i r H IH Hf]; [constructor|]. constructor; [apply IH; intros y Hy; apply Hfr; right; exact Hy|].
      apply Forall_forall. intros y Hy a b Ea Eb. rewrite (Hnm i a (Hfr i (or_introl eq_refl)) Ea), (Hnm y b (Hfr y (or_intror Hy)) Eb).
      rewrite Forall_forall in Hf. apply Hf, Hy.
    + apply Forall_forall. intros y Hy a b Ea Eb. rewrite (Hnew a Ea), (Hnm y b); [apply HB, Hy|apply Hfr, Hy|exact Eb].
  - inversion Ho as [|? ? H1 H2]; subst. rewrite Forall_forall in H2. constructor.
    + apply IH; [exact H1|intros; apply HA; right; assumption|intros; apply Hup; right; assumption].
    + apply Forall_forall. intros y Hy a b Ea Eb. assert (Hj : In j (kids_of s p)) by (apply Hup; left; reflexivity).
      rewrite (Hnm j a Hj Ea). apply in_app_iff in Hy as [Hy|[<-|Hy]].
      * rewrite (Hnm y b); [apply H2, in_or_app; left; exact Hy|apply Hup; right; exact Hy|exact Eb].
      * rewrite (Hnew b Eb). destruct (less x (name_of s j)) eqn:E; [|reflexivity]. exfalso.
        pose proof (HA j (or_introl eq_refl)) as E2. apply less_lex in E, E2; try (apply Hsh, Hj); try exact Hx.
        pose proof (lex_trans _ _ _ E E2) as E3. apply less_lex in E3; try exact Hx. rewrite less_irrefl in E3 by exact Hx. discriminate E3.
      * rewrite (Hnm y b); [apply H2, in_or_app; right; exact Hy|apply Hfr, Hy|exact Eb].
Qed.
