(* Proofs about lookups inside a repo. *)
From Verif Require Import Base ScanSpec NamesModel NamesSpec NamesProofs NamesMore NamesWrite RepoModel RepoSpec.

Lemma mem_in n l : existsb (name_eqb n) l = true <-> In n l.
Proof.
  rewrite existsb_exists. split; [intros (x & Hx & E); apply name_eqb_eq in E; now subst|].
  intros H. exists n. split; [exact H|apply name_eqb_refl].
Qed.
Lemma mem_out n l : existsb (name_eqb n) l = false <-> ~ In n l.
Proof. rewrite <- mem_in, not_true_iff_false. reflexivity. Qed.
Lemma is_repo_map reg n : is_repo reg n <-> In n (map rname reg).
Proof. rewrite in_map_iff. split; intros (r & A & B); exists r; auto. Qed.
Lemma children_child reg a b : unique_repos reg -> (In b (children reg a) <-> child reg a b).
Proof.
  intros Hu. unfold children. split.
  - destruct (find_repo reg a) as [r|] eqn:E; [|intros []]. apply find_repo_some in E. intros H. exists r. tauto.
  - intros (r & Hr & <- & H). now rewrite (find_repo_in reg r Hu Hr).
Qed.

(** The number of repos not yet checked. *)
Definition unseen (reg : registry) (c : list name) : nat :=
  length (filter (fun x => negb (existsb (name_eqb x) c)) (map rname reg)).
Lemma filter_len_le {A} (f g : A -> bool) l : (forall x, f x = true -> g x = true) -> (length (filter f l) <= length (filter g l))%nat.
Proof.
  intros H. induction l as [|x l IH]; cbn [filter]; [lia|]. destruct (f x) eqn:E.
  - rewrite (H x E). cbn. lia.
  - destruct (g x); cbn; lia.
Qed.
Lemma filter_len_lt {A} (f g : A -> bool) l x : (forall x, f x = true -> g x = true) -> In x l -> f x = false -> g x = true ->
  (length (filter f l) < length (filter g l))%nat.
Proof.
  intros H. induction l as [|y l IH]; [intros []|]. intros [<-|Hx] Ef Eg; cbn [filter].
  - rewrite Ef, Eg. cbn. pose proof (filter_len_le f g l H). lia.
  - specialize (IH Hx Ef Eg). destruct (f y) eqn:E; [rewrite (H y E); cbn; lia|]. destruct (g y); cbn; lia.
Qed.
Lemma unseen_app reg c d : (unseen reg (c ++ d) <= unseen reg c)%nat.
Proof.
  apply filter_len_le. intros x H. apply negb_true_iff in H. apply negb_true_iff. apply mem_out. apply mem_out in H.
  intros Hin. apply H. apply in_or_app. auto.
Qed.
Lemma unseen_snoc reg c r : is_repo reg r -> ~ In r c -> (unseen reg (c ++ [r]) < unseen reg c)%nat.
Proof.
  intros Hr Hn. apply (filter_len_lt _ _ _ r).
  - intros x H. apply negb_true_iff in H. apply negb_true_iff. apply mem_out. apply mem_out in H. intros Hin. apply H. apply in_or_app. auto.
  - now apply is_repo_map.
  - apply negb_false_iff, mem_in, in_or_app. right. now left.
  - apply negb_true_iff. now apply mem_out.
Qed.
Lemma unseen_nil reg : unseen reg [] = length reg.
Proof.
  unfold unseen. cbn [existsb negb]. rewrite <- (map_length rname reg). induction (map rname reg); cbn; auto.
Qed.

(** Steps of the visit away from repos where it stops. *)
Inductive free_path (stop : name -> bool) (reg : registry) (a : name) : name -> Prop :=
| fp_self : free_path stop reg a a
| fp_step b c : stop a = false -> child reg a b -> free_path stop reg b c -> free_path stop reg a c.

Definition visit_ok (stop : name -> bool) (reg : registry) (roots : list name) (c out : list name) : Prop :=
  exists new, out = c ++ new /\ NoDup out /\ (forall x, In x roots -> In x out) /\
    (forall x, In x new -> exists r, In r roots /\ free_path stop reg r x) /\
    (forall x b, In x new -> stop x = false -> child reg x b -> In b out) /\
    (forall x, In x new -> is_repo reg x).

Lemma visit_correct stop reg : unique_repos reg -> closed reg -> forall fuel r c,
  is_repo reg r -> (unseen reg c < fuel)%nat -> NoDup c -> visit_ok stop reg [r] c (visit fuel stop reg r c).
Proof.
  intros Hu Hc. induction fuel as [|fuel IH]; intros r c Hr Hf Hd; [lia|]. cbn [visit].
  destruct (existsb (name_eqb r) c) eqn:Em.
  - apply mem_in in Em. exists []. rewrite app_nil_r. split; [reflexivity|]. split; [exact Hd|].
    split; [intros x [<-|[]]; exact Em|]. split; [intros x []|]. split; intros x; [intros b []|intros []].
  - apply mem_out in Em. pose proof (unseen_snoc reg c r Hr Em) as Hlt.
    assert (Hd1 : NoDup (c ++ [r])). { rewrite <- (rev_involutive (c ++ [r])), rev_app_distr. apply NoDup_rev. cbn. constructor; [now rewrite <- in_rev|now apply NoDup_rev]. }
    destruct (stop r) eqn:Es.
    + exists [r]. split; [reflexivity|]. split; [exact Hd1|].
      split; [intros x [<-|[]]; apply in_or_app; right; now left|].
      split; [intros x [<-|[]]; exists r; split; [now left|constructor]|].
      split; [intros x b [<-|[]] E; congruence|]. intros x [<-|[]]. exact Hr.
    + assert (F : forall cs d, (forall x, In x cs -> is_repo reg x) -> (unseen reg d < fuel)%nat -> NoDup d ->
                    visit_ok stop reg cs d (fold_left (fun c ch => visit fuel stop reg ch c) cs d)).
      { induction cs as [|x cs IHc]; intros d Hcs Hfd Hdd; cbn [fold_left].
        - exists []. rewrite app_nil_r. split; [reflexivity|]. split; [exact Hdd|]. split; [intros y []|]. split; [intros y []|]. split; intros y; [intros b []|intros []].
        - destruct (IH x d (Hcs x (or_introl eq_refl)) Hfd Hdd) as (n1 & E1 & D1 & R1 & P1 & C1 & K1). rewrite E1 in *.
          destruct (IHc (d ++ n1)) as (n2 & E2 & D2 & R2 & P2 & C2 & K2).
          { intros y Hy. apply Hcs. now right. }
          { pose proof (unseen_app reg d n1). lia. }
          { exact D1. }
          exists (n1 ++ n2). rewrite E2 in *. rewrite <- app_assoc in *. split; [reflexivity|]. split; [exact D2|].
          split; [intros y [<-|Hy]; [rewrite app_assoc; apply in_or_app; left; apply R1; now left|now apply R2]|].
          split. { intros y Hy. apply in_app_or in Hy. destruct Hy as [Hy|Hy].
            - destruct (P1 y Hy) as (z & [<-|[]] & Hz). exists x. split; [now left|exact Hz].
            - destruct (P2 y Hy) as (z & Hz1 & Hz). exists z. split; [now right|exact Hz]. }
          split. { intros y b Hy Hst Hch. apply in_app_or in Hy. destruct Hy as [Hy|Hy].
            - rewrite app_assoc. apply in_or_app. left. now apply (C1 y).
            - now apply (C2 y). }
          intros y Hy. apply in_app_or in Hy. destruct Hy as [Hy|Hy]; auto. }
      destruct (F (children reg r) (c ++ [r])) as (n2 & E2 & D2 & R2 & P2 & C2 & K2).
      { intros x Hx. apply (Hc r). now apply children_child. }
      { lia. }
      { exact Hd1. }
      exists (r :: n2). rewrite E2 in *. rewrite <- app_assoc in *. cbn [app] in *. split; [reflexivity|]. split; [exact D2|].
      split; [intros x [<-|[]]; apply in_or_app; right; now left|].
      split. { intros x [<-|Hx]; [exists r; split; [now left|constructor]|]. destruct (P2 x Hx) as (z & Hz & Hp). exists r. split; [now left|].
        eapply fp_step; [exact Es| |exact Hp]. now apply children_child. }
      split. { intros x b [<-|Hx] Hst Hch; [apply R2; now apply children_child|now apply (C2 x)]. }
      intros x [<-|Hx]; auto.
Qed.

Lemma scope_trans reg a b c : scope reg a b -> scope reg b c -> scope reg a c.
Proof. intros H1 H2. induction H2; [exact H1|]. eapply scope_child; eauto. Qed.
Lemma free_scope stop reg a b : free_path stop reg a b -> scope reg a b.
Proof.
  induction 1 as [|a b c Hs Hc Hp IH]; [constructor|]. eapply scope_trans; [|exact IH]. eapply scope_child; [constructor|exact Hc].
Qed.
Lemma scope_repo reg a b : closed reg -> is_repo reg a -> scope reg a b -> is_repo reg b.
Proof. intros Hc Ha H. destruct H as [|b c H1 H2]; [exact Ha|]. now apply (Hc b). Qed.

Lemma visited_ok stop reg this : unique_repos reg -> closed reg -> is_repo reg this ->
  visit_ok stop reg [this] [] (visited stop reg this).
Proof. intros Hu Hc Ht. apply visit_correct; auto; [rewrite unseen_nil; lia|constructor]. Qed.
(** A visit without stops calls back the scope, each repo once. *)
Lemma visited_scope reg this : unique_repos reg -> closed reg -> is_repo reg this ->
  NoDup (visited (fun _ => false) reg this) /\ forall x, In x (visited (fun _ => false) reg this) <-> scope reg this x.
Proof.
  intros Hu Hc Ht. destruct (visited_ok (fun _ => false) reg this Hu Hc Ht) as (new & E & D & R & P & C & K). cbn [app] in E. rewrite E in *.
  split; [exact D|]. intros x. split.
  - intros Hx. destruct (P x Hx) as (r & [<-|[]] & Hp). eapply free_scope; exact Hp.
  - intros H. induction H as [|b c H IH Hb]; [apply R; now left|]. now apply (C b).
Qed.
Lemma child_found reg this n : unique_repos reg -> closed reg -> is_repo reg this ->
  (In n (visited (name_eqb n) reg this) <-> scope reg this n).
Proof.
  intros Hu Hc Ht. destruct (visited_ok (name_eqb n) reg this Hu Hc Ht) as (new & E & D & R & P & C & K). cbn [app] in E. rewrite E in *.
  split.
  - intros Hx. destruct (P n Hx) as (r & [<-|[]] & Hp). eapply free_scope; exact Hp.
  - intros H. assert (G : forall y, scope reg this y -> In y new \/ In n new).
    { intros y Hy. induction Hy as [|b c H1 IH Hb]; [left; apply R; now left|]. destruct IH as [IH|IH]; [|now right].
      destruct (name_eqb n b) eqn:Eb; [apply name_eqb_eq in Eb; subst b; now right|]. left. now apply (C b). }
    destruct (G n H); auto.
Qed.
Lemma findChildRepo_spec reg this n r : unique_repos reg -> closed reg -> is_repo reg this ->
  (findChildRepo reg this n = Some r <-> In r reg /\ rname r = n /\ scope reg this n).
Proof.
  intros Hu Hc Ht. unfold findChildRepo. pose proof (child_found reg this n Hu Hc Ht) as F. rewrite <- mem_in in F.
  destruct (existsb (name_eqb n) (visited (name_eqb n) reg this)).
  - split; [intros H; apply find_repo_some in H; tauto|]. intros (Hr & <- & _). now apply find_repo_in.
  - split; [discriminate|]. intros (_ & _ & H). apply F in H. discriminate.
Qed.
Lemma findChildRepo_none reg this n : unique_repos reg -> closed reg -> is_repo reg this ->
  (findChildRepo reg this n = None <-> ~ scope reg this n).
Proof.
  intros Hu Hc Ht. destruct (findChildRepo reg this n) as [r|] eqn:E.
  - apply findChildRepo_spec in E; auto. split; [discriminate|tauto].
  - split; [|reflexivity]. intros _ H. destruct (scope_repo reg this n Hc Ht H) as (r & Hr & Hn).
    assert (findChildRepo reg this n = Some r) by (apply findChildRepo_spec; auto). congruence.
Qed.

(** The repos of the scope, as a list. *)
Lemma visited_repos_in reg this r : unique_repos reg -> closed reg -> is_repo reg this ->
  (In r (visited_repos reg this) <-> In r reg /\ scope reg this (rname r)).
Proof.
  intros Hu Hc Ht. destruct (visited_scope reg this Hu Hc Ht) as [_ Hs]. unfold visited_repos. rewrite in_flat_map. split.
  - intros (x & Hx & H). destruct (find_repo reg x) as [r'|] eqn:E; [|destruct H]. destruct H as [<-|[]].
    apply find_repo_some in E. destruct E as [E1 <-]. split; [exact E1|]. now apply Hs.
  - intros (Hr & H). exists (rname r). split; [now apply Hs|]. rewrite (find_repo_in reg r Hu Hr). now left.
Qed.
Lemma visited_repos_unique reg this : unique_repos reg -> closed reg -> is_repo reg this -> unique_repos (visited_repos reg this).
Proof.
  intros Hu Hc Ht. destruct (visited_scope reg this Hu Hc Ht) as [Hd Hs].
  assert (E : map rname (visited_repos reg this) = visited (fun _ => false) reg this); [|unfold unique_repos; rewrite E; exact Hd].
  unfold visited_repos. assert (A : forall x, In x (visited (fun _ => false) reg this) -> is_repo reg x).
  { intros x Hx. apply Hs in Hx. now apply (scope_repo reg this). }
  clear Hs Hd. induction (visited (fun _ => false) reg this) as [|x l IH]; [reflexivity|]. cbn [flat_map]. rewrite map_app, IH by (intros y Hy; apply A; now right).
  destruct (A x (or_introl eq_refl)) as (r & Hr & <-). rewrite (find_repo_in reg r Hu Hr). reflexivity.
Qed.
Lemma only_in_visited (offers : repo -> Prop) reg this r : unique_repos reg -> closed reg -> is_repo reg this ->
  (only_in offers (visited_repos reg this) r <-> only_in_scope offers reg this r).
Proof.
  intros Hu Hc Ht. unfold only_in_scope, only_in. rewrite (visited_repos_in reg this r Hu Hc Ht). split.
  - intros ((A & B) & O & U). split; [exact A|]. split; [auto|]. intros r' Hr' (S' & O'). apply U; [|exact O']. now apply visited_repos_in.
  - intros (A & (B & O) & U). split; [auto|]. split; [exact O|]. intros r' Hr' O'. apply (visited_repos_in reg this r' Hu Hc Ht) in Hr'.
    destruct Hr'. apply U; auto.
Qed.
Lemma findExternRecursive_spec reg this n e : unique_repos reg -> closed reg -> is_repo reg this ->
  (findExternRecursive reg this n = Some e <->
   exists r, only_in_scope (fun r' => In n (rexterns r')) reg this r /\ fst e = rname r /\ first_at (fun d => d = n) (rexterns r) (snd e)).
Proof.
  intros Hu Hc Ht. unfold findExternRecursive.
  pose proof (scan_one _ _ (visited_repos reg this) e (visited_repos_unique reg this Hu Hc Ht) (fun r => findExternImm_no r n)) as S1.
  assert (E : (exists r, only_in_scope (fun r' => In n (rexterns r')) reg this r /\ fst e = rname r /\ first_at (fun d => d = n) (rexterns r) (snd e)) <->
              (exists r, only_in (fun r => In n (rexterns r)) (visited_repos reg this) r /\ findExternImm r n = Some e)).
  { split; intros (r & A & B); exists r; (split; [apply only_in_visited; assumption|]); now apply findExternImm_some. }
  rewrite E, <- S1. destruct (scan_repos _ _ None false) as [x [|]]; split; intros Q; try discriminate; [subst x; reflexivity|now injection Q as ->].
Qed.
Lemma findTargetRecursive_spec reg this n t : unique_repos reg -> closed reg -> is_repo reg this ->
  (findTargetRecursive reg this n = Some t <->
   exists r, only_in_scope (fun r' => In n (rtargets r')) reg this r /\ t = (rname r, n)).
Proof.
  intros Hu Hc Ht. unfold findTargetRecursive.
  pose proof (scan_one _ _ (visited_repos reg this) t (visited_repos_unique reg this Hu Hc Ht) (fun r => findTargetImm_no r n)) as S1.
  assert (E : (exists r, only_in_scope (fun r' => In n (rtargets r')) reg this r /\ t = (rname r, n)) <->
              (exists r, only_in (fun r => In n (rtargets r)) (visited_repos reg this) r /\ findTargetImm r n = Some t)).
  { split; intros (r & A & B); exists r.
    - split; [now apply only_in_visited|]. apply findTargetImm_some. split; [exact B|]. destruct A as (_ & (_ & A) & _). exact A.
    - split; [now apply only_in_visited|]. now apply findTargetImm_some in B. }
  rewrite E, <- S1. destruct (scan_repos _ _ None false) as [x [|]]; split; intros Q; try discriminate; [subst x; reflexivity|now injection Q as ->].
Qed.

(** Dependencies of modules. *)
Lemma module_named_step reg this c0 comps1 t : unique_repos reg -> closed reg -> is_repo reg this ->
  (match findChildRepo reg this c0 with
   | Some ch => match comps1 with [] => False | c1 :: _ => findTargetImm ch c1 = Some t end
   | None => findTargetRecursive reg this c0 = Some t
   end <-> exists comps extra, c0 :: comps1 = comps ++ extra /\ module_in_scope reg this comps t).
Proof.
  intros Hu Hc Ht. destruct (findChildRepo reg this c0) as [ch|] eqn:E.
  - apply findChildRepo_spec in E; auto. destruct E as (Hch & Ech & Hsc). split.
    + destruct comps1 as [|c1 comps2]; [intros []|]. intros H. apply findTargetImm_some in H. destruct H as [-> H].
      exists [c0; c1], comps2. split; [reflexivity|]. left. exists ch. cbn. subst c0. auto.
    + intros (comps & extra & Ec & [(r & Hr & Hs & -> & Hin & Ef)|(-> & Hn & _)]).
      * cbn [app] in Ec. injection Ec as -> ->. apply findTargetImm_some. assert (ch = r) as -> by (apply (unique_eq reg); auto).
        destruct t as [a b]. cbn in *. subst. auto.
      * cbn [app] in Ec. injection Ec as -> _. contradiction.
  - apply findChildRepo_none in E; auto. rewrite (findTargetRecursive_spec reg this c0 t Hu Hc Ht). split.
    + intros (r & Ho & ->). exists [c0], comps1. split; [reflexivity|]. right. cbn. split; [reflexivity|]. split; [exact E|]. exists r. auto.
    + intros (comps & extra & Ec & [(r & Hr & Hs & -> & Hin & Ef)|(-> & Hn & r & Ho & Ef)]).
      * cbn [app] in Ec. injection Ec as -> _. contradiction.
      * cbn [app] in Ec. injection Ec as -> _. exists r. split; [exact Ho|]. destruct t as [a b]. cbn in *. now subst.
Qed.
Theorem moduleDep_spec reg this s : unique_repos reg -> closed reg -> is_repo reg this -> bytes_ok s ->
  (forall t, moduleDep reg this s = Ret (Some t) false <->
     exists comps extra, spells s (comps ++ extra) /\ module_in_scope reg this comps t) /\
  (forall t l, moduleDep reg this s = Ret t l -> l = match t with Some _ => false | None => true end) /\
  moduleDep reg this s <> Crash.
Proof.
  intros Hu Hc Ht Hb. split; [|split].
  - intros t. unfold moduleDep. destruct (splitName s) as [|c0 comps1] eqn:Es.
    + split; [discriminate|]. intros (comps & extra & Hs & _). apply split_of_spells in Hs as Hs'. destruct Hs as (Hn & _). congruence.
    + pose proof (proj1 (split_spec s (c0 :: comps1) Hb ltac:(discriminate)) Es) as Hsp.
      pose proof (module_named_step reg this c0 comps1 t Hu Hc Ht) as M.
      assert (E : (exists comps extra, spells s (comps ++ extra) /\ module_in_scope reg this comps t) <->
                  (exists comps extra, c0 :: comps1 = comps ++ extra /\ module_in_scope reg this comps t)).
      { split; intros (a & b & A & B); exists a, b; (split; [|exact B]); [now apply (spells_inj s)|now rewrite <- A]. }
      rewrite E, <- M. destruct (findChildRepo reg this c0) as [ch|].
      * destruct comps1 as [|c1 ?]; [split; [discriminate|intros []]|]. destruct (findTargetImm ch c1); split; intros Q; try discriminate; now injection Q as ->.
      * destruct (findTargetRecursive reg this c0); split; intros Q; try discriminate; now injection Q as ->.
  - intros t l. unfold moduleDep. destruct (splitName s) as [|c0 comps1]; [intros Q; injection Q as <- <-; reflexivity|].
    destruct (findChildRepo reg this c0) as [ch|].
    + destruct comps1 as [|c1 ?]; [intros Q; injection Q as <- <-; reflexivity|]. destruct (findTargetImm ch c1); intros Q; injection Q as <- <-; reflexivity.
    + destruct (findTargetRecursive reg this c0); intros Q; injection Q as <- <-; reflexivity.
  - unfold moduleDep. destruct (splitName s) as [|c0 comps1]; [discriminate|].
    destruct (findChildRepo reg this c0) as [ch|].
    + destruct comps1 as [|c1 ?]; [discriminate|]. destruct (findTargetImm ch c1); discriminate.
    + destruct (findTargetRecursive reg this c0); discriminate.
Qed.

(** Externs in scope. *)
Lemma extern_named_step reg this c0 comps1 e rest : unique_repos reg -> closed reg -> is_repo reg this ->
  (match findChildRepo reg this c0 with
   | Some ch => match comps1 with [] => False | c1 :: comps2 => findExternImm ch c1 = Some e /\ rest = comps2 end
   | None => findExternRecursive reg this c0 = Some e /\ rest = comps1
   end <-> exists comps, c0 :: comps1 = comps ++ rest /\ extern_in_scope reg this comps e).
Proof.
  intros Hu Hc Ht. destruct (findChildRepo reg this c0) as [ch|] eqn:E.
  - apply findChildRepo_spec in E; auto. destruct E as (Hch & Ech & Hsc). split.
    + destruct comps1 as [|c1 comps2]; [intros []|]. intros [H ->]. apply findExternImm_some in H. destruct H as [H1 H2].
      exists [c0; c1]. split; [reflexivity|]. exists ch, c1. subst c0. auto 10.
    + intros (comps & Ec & (r & n & Hr & Ef & Hf & [(Hs & ->)|(-> & Hn & _)])).
      * cbn [app] in Ec. injection Ec as -> ->. split; [|reflexivity]. apply findExternImm_some. assert (ch = r) as -> by (apply (unique_eq reg); auto). auto.
      * cbn [app] in Ec. injection Ec as -> _. contradiction.
  - apply findChildRepo_none in E; auto. rewrite (findExternRecursive_spec reg this c0 e Hu Hc Ht). split.
    + intros [(r & Ho & Ef & Hf) ->]. exists [c0]. split; [reflexivity|]. exists r, c0. pose proof Ho as (Hr & _). auto 10.
    + intros (comps & Ec & (r & n & Hr & Ef & Hf & [(Hs & ->)|(-> & Hn & Ho)])).
      * cbn [app] in Ec. injection Ec as -> _. contradiction.
      * cbn [app] in Ec. injection Ec as -> ->. split; [|reflexivity]. exists r. auto.
Qed.
Theorem externDep_spec reg this s : unique_repos reg -> closed reg -> is_repo reg this -> bytes_ok s ->
  (forall e, externDep reg this s = Ret (Some e) false <-> exists comps, spells s comps /\ extern_in_scope reg this comps e) /\
  (externDep reg this s = Ret None true <-> forall comps e, spells s comps -> ~ extern_in_scope reg this comps e).
Proof.
  intros Hu Hc Ht Hb.
  assert (K : forall e, externDep reg this s = Ret (Some e) false <-> exists comps, spells s comps /\ extern_in_scope reg this comps e).
  { intros e. unfold externDep. destruct (splitName s) as [|c0 comps1] eqn:Es.
    - split; [discriminate|]. intros (comps & Hs & _). apply split_of_spells in Hs as Hs'. destruct Hs as (Hn & _). congruence.
    - pose proof (proj1 (split_spec s (c0 :: comps1) Hb ltac:(discriminate)) Es) as Hsp.
      pose proof (extern_named_step reg this c0 comps1 e [] Hu Hc Ht) as M.
      assert (E : (exists comps, spells s comps /\ extern_in_scope reg this comps e) <->
                  (exists comps, c0 :: comps1 = comps ++ [] /\ extern_in_scope reg this comps e)).
      { split; intros (a & A & B); exists a; (split; [|exact B]); rewrite ?app_nil_r in *; [now apply (spells_inj s)|now rewrite <- A]. }
      rewrite E, <- M. unfold findOrCreateExtern. destruct (findChildRepo reg this c0) as [ch|].
      + destruct comps1 as [|c1 comps2]; [split; [discriminate|intros []]|]. destruct (findExternImm ch c1) as [e'|].
        * destruct comps2; split; intros Q; try discriminate; [injection Q as ->; auto|destruct Q as [Q _]; now injection Q as ->|destruct Q; discriminate].
        * rewrite andb_false_r. split; [discriminate|intros [Q _]; discriminate].
      + destruct (findExternRecursive reg this c0) as [e'|].
        * destruct comps1; split; intros Q; try discriminate; [injection Q as ->; auto|destruct Q as [Q _]; now injection Q as ->|destruct Q; discriminate].
        * split; [discriminate|intros [Q _]; discriminate]. }
  assert (D : (exists e, externDep reg this s = Ret (Some e) false) \/ externDep reg this s = Ret None true).
  { unfold externDep. destruct (splitName s) as [|c0 comps1]; [now right|]. unfold findOrCreateExtern.
    destruct (findChildRepo reg this c0) as [ch|].
    - destruct comps1 as [|c1 comps2]; [now right|]. destruct (findExternImm ch c1) as [e'|]; [destruct comps2; [left; now exists e'|now right]|].
      rewrite andb_false_r. now right.
    - destruct (findExternRecursive reg this c0) as [e'|]; [destruct comps1; [left; now exists e'|now right]|now right]. }
  split; [exact K|]. split.
  - intros E comps e Hs He. rewrite (proj2 (K e)) in E; [discriminate|]. exists comps. auto.
  - intros H. destruct D as [(e & E)|E]; [|exact E]. apply K in E. destruct E as (comps & A & B). exfalso. now apply (H comps e).
Qed.
