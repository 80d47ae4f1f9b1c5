(* Proofs about registration. *)
From Verif Require Import Base ScanSpec NamesModel NamesSpec NamesProofs NamesMore NamesWrite RepoModel RepoSpec RepoProofs.

Lemma update_split reg n f : is_repo reg n -> exists a r b, reg = a ++ r :: b /\ rname r = n /\ update_repo reg n f = a ++ f r :: b.
Proof.
  induction reg as [|x reg IH]; intros (r & Hr & En); [destruct Hr|]. cbn [update_repo].
  destruct (name_eqb (rname x) n) eqn:E.
  - apply name_eqb_eq in E. exists [], x, reg. auto.
  - apply name_eqb_neq in E. destruct Hr as [<-|Hr]; [contradiction|]. destruct IH as (a & y & b & E1 & E2 & E3); [exists r; auto|].
    exists (x :: a), y, b. cbn [app]. rewrite E3. split; [now f_equal|auto].
Qed.
Lemma split_unique_repo reg a r b a' r' b' : unique_repos reg -> reg = a ++ r :: b -> reg = a' ++ r' :: b' -> rname r = rname r' ->
  a = a' /\ r = r' /\ b = b'.
Proof.
  intros Hu E1 E2 En. assert (r = r') as <-. { apply (unique_eq reg); auto; [rewrite E1|rewrite E2]; apply in_elt. }
  apply unique_nodup in Hu. rewrite E1 in E2, Hu. clear E1 En. revert a' E2 Hu. induction a as [|x a IH]; intros [|x' a'] E Hd; cbn [app] in E.
  - injection E as ->. auto.
  - injection E as <- ->. inversion Hd; subst. exfalso. apply H1. apply in_elt.
  - injection E as -> <-. inversion Hd; subst. exfalso. apply H1. apply in_elt.
  - injection E as <- E. inversion Hd; subst. destruct (IH a' E H2) as (-> & _ & ->). auto.
Qed.
Lemma update_update reg n f g : (forall r, rname (f r) = rname r) -> update_repo (update_repo reg n f) n g = update_repo reg n (fun r => g (f r)).
Proof.
  intros Hf. induction reg as [|x reg IH]; [reflexivity|]. cbn [update_repo]. destruct (name_eqb (rname x) n) eqn:E; cbn [update_repo].
  - now rewrite Hf, E.
  - now rewrite E, IH.
Qed.
Lemma registered_old reg this e p reg' : unique_repos reg -> is_repo reg this ->
  (registered reg this [] e p reg' <-> update_repo reg this (add_provider e p) = reg').
Proof.
  intros Hu Ht. destruct (update_split reg this (add_provider e p) Ht) as (a & r & b & E1 & E2 & E3). rewrite E3. split.
  - intros (a' & r' & b' & F1 & F2 & F3). destruct (split_unique_repo reg a r b a' r' b' Hu E1 F1 ltac:(congruence)) as (<- & <- & <-).
    rewrite F3, app_nil_r. reflexivity.
  - intros <-. exists a, r, b. rewrite app_nil_r. auto.
Qed.
Lemma registered_new reg this n e p reg' : unique_repos reg -> is_repo reg this ->
  (registered reg this [n] e p reg' <-> update_repo (update_repo reg this (add_extern n)) this (add_provider e p) = reg').
Proof.
  intros Hu Ht. rewrite update_update by reflexivity.
  destruct (update_split reg this (fun r => add_provider e p (add_extern n r)) Ht) as (a & r & b & E1 & E2 & E3). rewrite E3. split.
  - intros (a' & r' & b' & F1 & F2 & F3). destruct (split_unique_repo reg a r b a' r' b' Hu E1 F1 ltac:(congruence)) as (<- & <- & <-).
    rewrite F3. reflexivity.
  - intros <-. exists a, r, b. auto.
Qed.

Lemma dot_in p : existsb (Z.eqb 46) p = true <-> In 46 p.
Proof.
  rewrite existsb_exists. split; [intros (x & Hx & E); apply Z.eqb_eq in E; now subst|]. intros H. exists 46. auto.
Qed.
Lemma num_externs_eq reg r : unique_repos reg -> In r reg -> num_externs reg (rname r) = length (rexterns r).
Proof. intros Hu Hr. unfold num_externs. now rewrite (find_repo_in reg r Hu Hr). Qed.

Definition provider_of (reg : registry) (this en pn : name) (reg' : registry) : Prop :=
  exists comps new e, spells en comps /\ registered reg this new e pn reg' /\
   ((new = [] /\ extern_in_scope reg this comps e) \/
    (exists n r, new = [n] /\ (forall e', ~ extern_in_scope reg this comps e') /\ In r reg /\ rname r = this /\
       e = (this, length (rexterns r)) /\ ((comps = [n] /\ ~ scope reg this n) \/ comps = [this; n]))).

Theorem addProvider_spec reg this en pn reg' : unique_repos reg -> closed reg -> is_repo reg this -> bytes_ok en ->
  (addExternProvider reg this en pn = Some reg' <-> ~ In 46 pn /\ provider_of reg this en pn reg').
Proof.
  intros Hu Hc Ht Hb. pose proof Ht as (rt & Hrt & Ert).
  assert (Hdot : forall c (x : option registry), (if existsb (Z.eqb 46) pn then None else x) = Some c <-> ~ In 46 pn /\ x = Some c).
  { intros c x. pose proof (dot_in pn) as D. destruct (existsb (Z.eqb 46) pn); split; try discriminate.
    - intros [A _]. exfalso. apply A. now apply D.
    - intros A. split; [|exact A]. intros B. apply D in B. discriminate.
    - tauto. }
  unfold addExternProvider. destruct (splitName en) as [|c0 comps1] eqn:Es.
  { split; [discriminate|]. intros (_ & comps & new & e & Hs & _). apply split_of_spells in Hs as Hs'. destruct Hs as (Hn & _). congruence. }
  pose proof (proj1 (split_spec en (c0 :: comps1) Hb ltac:(discriminate)) Es) as Hsp.
  pose proof (fun e rest => extern_named_step reg this c0 comps1 e rest Hu Hc Ht) as M.
  assert (Q : provider_of reg this en pn reg' <->
     (exists e, (exists comps, c0 :: comps1 = comps ++ [] /\ extern_in_scope reg this comps e) /\ registered reg this [] e pn reg') \/
     ((forall e, ~ exists comps, c0 :: comps1 = comps ++ [] /\ extern_in_scope reg this comps e) /\
      exists n, registered reg this [n] (this, length (rexterns rt)) pn reg' /\ ((c0 :: comps1 = [n] /\ ~ scope reg this n) \/ c0 :: comps1 = [this; n]))).
  { split.
    - intros (comps & new & e & Hs & Hr & [(-> & He)|(n & r & -> & Hno & Hr1 & Er & -> & D)]).
      + pose proof (spells_inj _ _ _ Hs Hsp) as ->. left. exists e. split; [|exact Hr]. exists (c0 :: comps1). rewrite app_nil_r. auto.
      + pose proof (spells_inj _ _ _ Hs Hsp) as ->. right. assert (r = rt) as -> by (apply (unique_eq reg); auto; congruence). split.
        * intros e' (cs & Ec & He). rewrite app_nil_r in Ec. subst cs. now apply (Hno e').
        * exists n. auto.
    - intros [(e & (cs & Ec & He) & Hr)|(Hno & n & Hr & D)].
      + rewrite app_nil_r in Ec. subst cs. exists (c0 :: comps1), [], e. auto.
      + exists (c0 :: comps1), [n], (this, length (rexterns rt)). split; [exact Hsp|]. split; [exact Hr|]. right. exists n, rt.
        split; [reflexivity|]. split; [intros e' He; apply (Hno e'); exists (c0 :: comps1); rewrite app_nil_r; auto|]. auto. }
  rewrite Q. clear Q. unfold findOrCreateExtern.
  assert (Nu : num_externs reg this = length (rexterns rt)) by (rewrite <- Ert; now apply num_externs_eq).
  destruct (findChildRepo reg this c0) as [ch|] eqn:Ech.
  - apply findChildRepo_spec in Ech; auto. destruct Ech as (Hch & Hcn & Hsc). destruct comps1 as [|c1 comps2].
    + split; [discriminate|]. intros (_ & [(e & He & _)|(_ & n & _ & [(E & Hns)|E])]).
      * apply M in He. destruct He.
      * injection E as ->. contradiction.
      * discriminate.
    + destruct (findExternImm ch c1) as [e|] eqn:Ee.
      * destruct comps2 as [|c2 comps2].
        -- rewrite Hdot. apply and_iff_compat_l. split.
           ++ intros E. left. exists e. split; [now apply M|]. apply registered_old; auto. congruence.
           ++ intros [(e' & He & Hr)|(Hno & _)]; [|exfalso; apply (Hno e); now apply M].
              apply M in He. destruct He as [He _]. injection He as <-. f_equal. now apply registered_old.
        -- split; [discriminate|]. intros (_ & [(e' & He & _)|(_ & n & _ & [(E & _)|E])]); [apply M in He; destruct He; discriminate|discriminate|discriminate].
      * destruct (name_eqb (rname ch) this) eqn:En; cbn [andb].
        -- apply name_eqb_eq in En. assert (ch = rt) as -> by (apply (unique_eq reg); auto; congruence). assert (c0 = this) as -> by congruence.
           unfold create_extern. rewrite Nu. destruct comps2 as [|c2 comps2].
           ++ rewrite Hdot. apply and_iff_compat_l. split.
              ** intros E. right. split; [intros e He; apply M in He; destruct He as [He _]; discriminate|]. exists c1.
                 split; [|now right]. apply registered_new; auto. congruence.
              ** intros [(e' & He & Hr)|(_ & n & Hr & [(E & _)|E])]; [apply M in He; destruct He; discriminate|discriminate|].
                 injection E as <-. f_equal. now apply registered_new.
           ++ split; [discriminate|]. intros (_ & [(e' & He & _)|(_ & n & _ & [(E & _)|E])]); [apply M in He; destruct He; discriminate|discriminate|discriminate].
        -- apply name_eqb_neq in En. split; [discriminate|]. intros (_ & [(e' & He & _)|(_ & n & _ & [(E & _)|E])]); [apply M in He; destruct He; discriminate|discriminate|].
           injection E as E _. congruence.
  - apply findChildRepo_none in Ech; auto. assert (Hne : c0 <> this) by (intros ->; apply Ech; constructor).
    destruct (findExternRecursive reg this c0) as [e|] eqn:Ee.
    + destruct comps1 as [|c1 comps2].
      * rewrite Hdot. apply and_iff_compat_l. split.
        -- intros E. left. exists e. split; [now apply M|]. apply registered_old; auto. congruence.
        -- intros [(e' & He & Hr)|(Hno & _)]; [|exfalso; apply (Hno e); now apply M].
           apply M in He. destruct He as [He _]. injection He as <-. f_equal. now apply registered_old.
      * split; [discriminate|]. intros (_ & [(e' & He & _)|(_ & n & _ & [(E & _)|E])]); [apply M in He; destruct He; discriminate|discriminate|].
        injection E as E _. congruence.
    + unfold create_extern. rewrite Nu. destruct comps1 as [|c1 comps2].
      * rewrite Hdot. apply and_iff_compat_l. split.
        -- intros E. right. split; [intros e He; apply M in He; destruct He as [He _]; discriminate|]. exists c0.
           split; [|left; auto]. apply registered_new; auto. congruence.
        -- intros [(e' & He & Hr)|(_ & n & Hr & [(E & _)|E])]; [apply M in He; destruct He; discriminate| |discriminate].
           injection E as <-. f_equal. now apply registered_new.
      * split; [discriminate|]. intros (_ & [(e' & He & _)|(_ & n & _ & [(E & _)|E])]); [apply M in He; destruct He; discriminate|discriminate|].
        injection E as E _. congruence.
Qed.

(** Registration changes neither names nor children, so scopes stay. *)
Definition same_shape (reg reg' : registry) : Prop := map (fun r => (rname r, rchildren r)) reg = map (fun r => (rname r, rchildren r)) reg'.
Lemma same_shape_trans a b c : same_shape a b -> same_shape b c -> same_shape a c.
Proof. unfold same_shape. congruence. Qed.
Lemma same_shape_sym a b : same_shape a b -> same_shape b a.
Proof. unfold same_shape. congruence. Qed.
Lemma same_shape_names reg reg' : same_shape reg reg' -> map rname reg = map rname reg'.
Proof. intros H. apply (f_equal (map fst)) in H. rewrite !map_map in H. exact H. Qed.
Lemma same_shape_child reg reg' a b : same_shape reg reg' -> child reg a b -> child reg' a b.
Proof.
  intros H (r & Hr & <- & Hb). apply (in_map (fun r => (rname r, rchildren r))) in Hr. rewrite H in Hr. apply in_map_iff in Hr.
  destruct Hr as (r' & E & Hr'). injection E as E1 E2. exists r'. split; [exact Hr'|]. split; [exact E1|]. now rewrite E2.
Qed.
Lemma same_shape_repo reg reg' n : same_shape reg reg' -> is_repo reg n -> is_repo reg' n.
Proof. intros H. rewrite !is_repo_map, (same_shape_names _ _ H). auto. Qed.
Lemma same_shape_wf reg reg' : same_shape reg reg' -> unique_repos reg /\ closed reg -> unique_repos reg' /\ closed reg'.
Proof.
  intros H [Hu Hc]. split; [unfold unique_repos; rewrite <- (same_shape_names _ _ H); exact Hu|].
  intros a b Hab. apply (same_shape_repo reg); [exact H|]. apply (Hc a). apply (same_shape_child reg' reg); [now apply same_shape_sym|exact Hab].
Qed.
Lemma update_shape reg n f : (forall r, rname (f r) = rname r /\ rchildren (f r) = rchildren r) -> same_shape reg (update_repo reg n f).
Proof.
  intros Hf. unfold same_shape. induction reg as [|x reg IH]; [reflexivity|]. cbn [update_repo]. destruct (name_eqb (rname x) n); cbn [map].
  - destruct (Hf x) as [-> ->]. reflexivity.
  - now rewrite IH.
Qed.
Lemma registered_shape reg this new e p reg' : registered reg this new e p reg' -> same_shape reg reg'.
Proof. intros (a & r & b & -> & _ & ->). unfold same_shape. rewrite !map_app. reflexivity. Qed.
Lemma addTarget_split reg this t reg' : addTargetInstantiator reg this t = Some reg' ->
  exists a r b, reg = a ++ r :: b /\ rname r = this /\ ~ In t (rtargets r) /\
    reg' = a ++ Repo (rname r) (rtargets r ++ [t]) (rexterns r) (rproviders r) (rchildren r) :: b.
Proof.
  unfold addTargetInstantiator. destruct (find_repo reg this) as [r|] eqn:E; [|discriminate].
  destruct (existsb (name_eqb t) (rtargets r)) eqn:Em; [discriminate|]. intros H. injection H as <-.
  revert r E Em. induction reg as [|x reg IH]; intros r E Em; [discriminate|]. unfold find_repo in E. cbn [find] in E. cbn [update_repo].
  destruct (name_eqb (rname x) this) eqn:En.
  - injection E as ->. apply name_eqb_eq in En. exists [], r, reg. split; [reflexivity|]. split; [exact En|]. split; [now apply mem_out|reflexivity].
  - destruct (IH r E Em) as (a & y & b & E1 & E2 & E3 & E4). exists (x :: a), y, b. cbn [app]. rewrite E4, E1. auto.
Qed.
Lemma first_exists r n : In n (rexterns r) -> exists i, first_at (fun d => d = n) (rexterns r) i.
Proof.
  intros H. apply findExternImm_no in H. destruct (findExternImm r n) as [e|] eqn:E; [|congruence].
  apply findExternImm_some in E. exists (snd e). tauto.
Qed.

Definition wf (reg : registry) : Prop := unique_repos reg /\ closed reg /\ distinct_targets reg /\ sound_providers reg.
Lemma wf_call reg c reg' : wf reg -> call_ok reg c -> run_call reg c = Some reg' -> wf reg' /\ same_shape reg reg'.
Proof.
  intros (Hu & Hc & Hd & Hs) Ho H. destruct c as [this t|this en pn]; cbn [run_call call_ok] in *.
  - apply addTarget_split in H. destruct H as (a & r & b & -> & En & Hni & ->).
    set (r1 := Repo (rname r) (rtargets r ++ [t]) (rexterns r) (rproviders r) (rchildren r)).
    assert (Sh : same_shape (a ++ r :: b) (a ++ r1 :: b)) by (unfold same_shape; rewrite !map_app; reflexivity).
    split; [|exact Sh]. destruct (same_shape_wf _ _ Sh (conj Hu Hc)) as [Hu' Hc']. split; [exact Hu'|]. split; [exact Hc'|]. split.
    + intros x Hx. apply in_app_or in Hx. destruct Hx as [Hx|[<-|Hx]].
      * apply Hd. apply in_or_app. now left.
      * cbn [rtargets r1]. rewrite <- (rev_involutive (rtargets r ++ [t])), rev_app_distr. apply NoDup_rev. cbn. constructor; [now rewrite <- in_rev|].
        apply NoDup_rev. apply Hd. apply in_elt.
      * apply Hd. apply in_or_app. right. now right.
    + assert (T : forall x, In x (a ++ r1 :: b) -> exists y, In y (a ++ r :: b) /\ rproviders y = rproviders x).
      { intros x Hx. apply in_app_or in Hx. destruct Hx as [Hx|[<-|Hx]]; [exists x|exists r|exists x]; (split; [|reflexivity]); apply in_or_app; auto; right; [now left|now right]. }
      assert (T' : forall x, In x (a ++ r :: b) -> exists y, In y (a ++ r1 :: b) /\ rname y = rname x /\ rexterns y = rexterns x).
      { intros x Hx. apply in_app_or in Hx. destruct Hx as [Hx|[<-|Hx]]; [exists x|exists r1|exists x]; (split; [|auto]); apply in_or_app; auto; right; [now left|now right]. }
      intros x e p Hx Hp. destruct (T x Hx) as (y & Hy & Ey). rewrite <- Ey in Hp. destruct (Hs y e p Hy Hp) as (er & n & A & B & C).
      destruct (T' er A) as (z & Hz & Z1 & Z2). exists z, n. rewrite Z1, Z2. auto.
  - destruct Ho as [Ht Hb]. apply addProvider_spec in H; auto. destruct H as (_ & comps & new & e & Hsp & Hr & D).
    pose proof (registered_shape _ _ _ _ _ _ Hr) as Sh. split; [|exact Sh]. destruct (same_shape_wf _ _ Sh (conj Hu Hc)) as [Hu' Hc'].
    split; [exact Hu'|]. split; [exact Hc'|].
    destruct Hr as (a & r & b & -> & En & ->). set (r1 := Repo (rname r) (rtargets r) (rexterns r ++ new) (rproviders r ++ [(e, pn)]) (rchildren r)) in *.
    assert (T : forall x, In x (a ++ r1 :: b) -> x = r1 \/ In x (a ++ r :: b)).
    { intros x Hx. apply in_app_or in Hx. destruct Hx as [Hx|[<-|Hx]]; [right|left; reflexivity|right]; apply in_or_app; auto. right. now right. }
    assert (T' : forall x i n, In x (a ++ r :: b) -> nth_error (rexterns x) i = Some n ->
                   exists y, In y (a ++ r1 :: b) /\ rname y = rname x /\ nth_error (rexterns y) i = Some n).
    { intros x i n Hx Hn. apply in_app_or in Hx. destruct Hx as [Hx|[<-|Hx]].
      - exists x. split; [apply in_or_app; now left|auto].
      - exists r1. split; [apply in_elt|]. split; [reflexivity|]. cbn [rexterns r1]. rewrite nth_error_app1; [exact Hn|]. apply nth_error_Some. congruence.
      - exists x. split; [apply in_or_app; right; now right|auto]. }
    split.
    + intros x Hx. destruct (T x Hx) as [->|Hx']; [cbn [rtargets r1]; apply Hd; apply in_elt|now apply Hd].
    + intros x e' p' Hx Hp. assert (Hold : In x (a ++ r :: b) /\ In (e', p') (rproviders x) \/ In (e', p') (rproviders r) \/ e' = e).
      { destruct (T x Hx) as [->|Hx']; [|now left]. right. cbn [rproviders r1] in Hp. apply in_app_or in Hp. destruct Hp as [Hp|[Hp|[]]]; [now left|].
        injection Hp as <- _. now right. }
      assert (G : forall y, In y (a ++ r :: b) -> In (e', p') (rproviders y) ->
                 exists er n, In er (a ++ r1 :: b) /\ rname er = fst e' /\ nth_error (rexterns er) (snd e') = Some n).
      { intros y Hy Hyp. destruct (Hs y e' p' Hy Hyp) as (er & n & A & B & C). destruct (T' er (snd e') n A C) as (z & Z0 & Z1 & Z2).
        exists z, n. rewrite Z1. auto. }
      destruct Hold as [[Ho1 Ho2]|[Ho| ->]]; [now apply (G x)|apply (G r); [apply in_elt|exact Ho]|].
      destruct D as [(_ & He)|(n & r0 & -> & _ & Hr0 & Er0 & -> & _)].
      * destruct He as (er & n & Her & Ef & ((z & Hz & ->) & _) & _). destruct (T' er (snd e) n Her Hz) as (y & Y0 & Y1 & Y2). exists y, n. rewrite Y1. auto.
      * assert (r0 = r) as -> by (apply (unique_eq (a ++ r :: b)); auto; [apply in_elt|congruence]).
        exists r1, n. cbn [rname rexterns r1 fst snd]. split; [apply in_elt|]. split; [exact En|]. rewrite nth_error_app2, Nat.sub_diag by lia. reflexivity.
Qed.
Lemma call_ok_shape reg reg' c : same_shape reg reg' -> call_ok reg c -> call_ok reg' c.
Proof. intros Sh. destruct c; cbn [call_ok]; [apply same_shape_repo; exact Sh|]. intros [A B]. split; [eapply same_shape_repo; eauto|exact B]. Qed.
Theorem wf_run reg cs reg' : wf reg -> Forall (call_ok reg) cs -> run_calls reg cs = Some reg' -> wf reg' /\ same_shape reg reg'.
Proof.
  revert reg. induction cs as [|c cs IH]; intros reg Hw Hc H; cbn [run_calls] in H.
  - injection H as <-. split; [exact Hw|reflexivity].
  - destruct (run_call reg c) as [reg1|] eqn:E; [|discriminate]. inversion Hc as [|? ? Hc1 Hc2]; subst.
    destruct (wf_call reg c reg1 Hw Hc1 E) as [Hw1 Sh1]. destruct (IH reg1 Hw1) as [Hw2 Sh2]; auto.
    + eapply Forall_impl; [|exact Hc2]. intros x. now apply call_ok_shape.
    + split; [exact Hw2|]. eapply same_shape_trans; eauto.
Qed.

(** Without ambiguous names, no repo gets two externs of one name. *)
Lemma distinct_call reg c reg' : wf reg -> distinct_externs reg -> call_ok reg c ->
  match c with AddProvider this e p => forall n, spells e [n] -> ~ ambiguous reg this n | AddTarget _ _ => True end ->
  run_call reg c = Some reg' -> distinct_externs reg'.
Proof.
  intros (Hu & Hc & Hd & Hs) He Ho Ha H. destruct c as [this t|this en pn]; cbn [run_call call_ok] in *.
  - apply addTarget_split in H. destruct H as (a & r & b & -> & En & Hni & ->). intros x Hx. apply in_app_or in Hx. destruct Hx as [Hx|[<-|Hx]].
    + apply He. apply in_or_app. now left.
    + cbn [rexterns]. apply He. apply in_elt.
    + apply He. apply in_or_app. right. now right.
  - destruct Ho as [Ht Hb]. apply addProvider_spec in H; auto. destruct H as (_ & comps & new & e & Hsp & Hr & D).
    destruct Hr as (a & r & b & -> & En & ->).
    assert (K : NoDup (rexterns r ++ new)).
    { assert (Hin : In r (a ++ r :: b)) by apply in_elt. specialize (He r Hin).
      destruct D as [(-> & _)|(n & r0 & -> & Hno & Hr0 & Er0 & -> & Dn)]; [now rewrite app_nil_r|].
      assert (Hn : ~ In n (rexterns r)).
      { intros Hn. destruct (first_exists r n Hn) as (i & Hi). apply (Hno (this, i)). exists r, n. cbn [fst snd]. split; [exact Hin|]. split; [congruence|]. split; [exact Hi|].
        destruct Dn as [(-> & Hns)| ->]; [|left; rewrite En; split; [constructor|reflexivity]]. right. split; [reflexivity|]. split; [exact Hns|].
        split; [exact Hin|]. split; [split; [rewrite En; constructor|exact Hn]|]. intros r' Hr' (Sc & Hn').
        destruct (name_eqb (rname r') (rname r)) eqn:Er; [apply name_eqb_eq in Er; now apply (unique_eq (a ++ r :: b))|]. apply name_eqb_neq in Er.
        exfalso. apply (Ha n Hsp). exists r', r. split; [congruence|]. split; [exact Hr'|]. split; [exact Hin|]. split; [exact Sc|]. split; [rewrite En; constructor|auto]. }
      rewrite <- (rev_involutive (rexterns r ++ [n])), rev_app_distr. apply NoDup_rev. cbn. constructor; [now rewrite <- in_rev|now apply NoDup_rev]. }
    intros x Hx. apply in_app_or in Hx. destruct Hx as [Hx|[<-|Hx]].
    + apply He. apply in_or_app. now left.
    + exact K.
    + apply He. apply in_or_app. right. now right.
Qed.
Theorem distinct_run reg cs reg' : wf reg -> distinct_externs reg -> Forall (call_ok reg) cs -> unambiguous_run reg cs ->
  run_calls reg cs = Some reg' -> distinct_externs reg'.
Proof.
  revert reg. induction cs as [|c cs IH]; intros reg Hw He Hc Ha H; cbn [run_calls] in H.
  - injection H as <-. exact He.
  - destruct (run_call reg c) as [reg1|] eqn:E; [|discriminate]. inversion Hc as [|? ? Hc1 Hc2]; subst. destruct Ha as [Ha1 Ha2].
    destruct (wf_call reg c reg1 Hw Hc1 E) as [Hw1 Sh1]. apply (IH reg1); auto.
    + now apply (distinct_call reg c).
    + eapply Forall_impl; [|exact Hc2]. intros x. now apply call_ok_shape.
Qed.

(** With distinct externs, every provider has a name that finds it. *)
Lemma nodup_first {A} (l : list A) : NoDup l -> forall i x, nth_error l i = Some x -> first_at (fun d => d = x) l i.
Proof.
  intros Hd i x Hx. split; [exists x; auto|]. intros j y Hj Hy ->. rewrite NoDup_nth_error in Hd.
  assert (j = i); [|lia]. apply Hd; [|congruence]. apply nth_error_Some. congruence.
Qed.
Theorem provider_reachable reg r e p j : unique_repos reg -> good_names reg -> distinct_externs reg -> sound_providers reg ->
  In r reg -> first_at (fun x => x = (e, p)) (rproviders r) j ->
  exists er n, In er reg /\ rname er = fst e /\ nth_error (rexterns er) (snd e) = Some n /\
    getExternProvider reg (join [rname er; n; rname r; p]) = Ret (Some (rname r, j)) false.
Proof.
  intros Hu Hg Hd Hs Hr Hj. assert (Hp : In (e, p) (rproviders r)). { apply first_at_in in Hj. destruct Hj as (x & Hx & ->). exact Hx. }
  destruct (Hs r e p Hr Hp) as (er & n & Her & Een & Hn). exists er, n. split; [exact Her|]. split; [exact Een|]. split; [exact Hn|].
  destruct (Hg r Hr) as (G1 & _ & _ & G2). destruct (Hg er Her) as (G3 & _ & G4 & _). rewrite Forall_forall in G2, G4.
  pose proof (G2 _ Hp) as Gp. cbn [snd] in Gp. pose proof (G4 _ (nth_error_In _ _ Hn)) as Gn.
  assert (Hsp : spells (join [rname er; n; rname r; p]) ([rname er; n] ++ [rname r; p])).
  { split; [discriminate|]. split; [|reflexivity]. cbn [app]. auto. }
  apply (getExternProvider_spec reg _ Hu (spells_bytes _ _ Hsp)). exists [rname er; n], [rname r; p], e. split; [exact Hsp|]. split.
  - exists er, n. split; [exact Her|]. split; [now symmetry|]. split; [|now left]. apply nodup_first; [now apply Hd|exact Hn].
  - exists r, p. split; [exact Hr|]. split; [reflexivity|]. split; [exact Hj|]. now left.
Qed.
(** What no name finds: an extern, or a provider, behind another of the same name. *)
Theorem shadowed_extern reg r i i' n s : unique_repos reg -> bytes_ok s -> In r reg -> (i < i')%nat ->
  nth_error (rexterns r) i = Some n -> nth_error (rexterns r) i' = Some n ->
  (forall l, findExtern reg s <> Ret (Some (rname r, i')) l) /\
  (forall q r' p, getExternProvider reg s = Ret (Some q) false -> In r' reg -> fst q = rname r' ->
     nth_error (rproviders r') (snd q) <> Some ((rname r, i'), p)).
Proof.
  intros Hu Hb Hr Hlt Hi Hi'.
  assert (K : forall comps, ~ extern_named reg comps (rname r, i')).
  { intros comps (x & m & Hx & Ef & ((y & Hy & Ey) & Hno) & _). cbn [fst snd] in *. assert (x = r) as -> by (apply (unique_eq reg); auto).
    apply (Hno i n Hlt Hi). congruence. }
  split.
  - intros l E. apply findExtern_spec in E; auto. destruct E as (comps & extra & _ & He & _). now apply (K comps).
  - intros q r' p E Hr' Eq Hn. apply getExternProvider_spec in E; auto. destruct E as (ec & pc & e & _ & He & (x & m & Hx & Ef & ((y & Hy & Ey) & _) & _)).
    assert (x = r') as -> by (apply (unique_eq reg); auto; congruence). rewrite Hn in Hy. injection Hy as <-. injection Ey as <- _. now apply (K ec).
Qed.
Theorem shadowed_provider reg r j j' q s : unique_repos reg -> bytes_ok s -> In r reg -> (j < j')%nat ->
  nth_error (rproviders r) j = Some q -> nth_error (rproviders r) j' = Some q ->
  getExternProvider reg s <> Ret (Some (rname r, j')) false.
Proof.
  intros Hu Hb Hr Hlt Hj Hj' E. apply getExternProvider_spec in E; auto.
  destruct E as (ec & pc & e & _ & He & (x & m & Hx & Ef & ((y & Hy & Ey) & Hno) & _)). cbn [fst snd] in *.
  assert (x = r) as -> by (apply (unique_eq reg); auto). apply (Hno j q Hlt Hj). congruence.
Qed.
