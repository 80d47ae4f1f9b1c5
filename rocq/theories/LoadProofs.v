(* Proofs about loading repos. *)
From Verif Require Import Base NamesModel NamesProofs LoadModel LoadSpec.

Definition names (s : state) : list name := map fst (stRepos s).

Lemma isThere_iff s n : isThere s n = true <-> In n (names s).
Proof.
  unfold isThere, names. rewrite existsb_exists, in_map_iff. split.
  - intros (x & I & E). apply name_eqb_eq in E. eauto.
  - intros (x & E & I). exists x. split; [exact I|]. apply name_eqb_eq. exact E.
Qed.
Lemma isThere_not s n : isThere s n = false <-> ~ In n (names s).
Proof. rewrite <- isThere_iff. destruct (isThere s n); split; congruence. Qed.
Lemma mem_iff (d : name) l : existsb (name_eqb d) l = true <-> In d l.
Proof.
  rewrite existsb_exists. split.
  - intros (x & I & E). apply name_eqb_eq in E. subst x. exact I.
  - intros I. exists d. split; [exact I|apply name_eqb_refl].
Qed.
Lemma mem_not (d : name) l : existsb (name_eqb d) l = false <-> ~ In d l.
Proof. rewrite <- mem_iff. destruct (existsb (name_eqb d) l); split; congruence. Qed.

Lemma names_insert s n : names (insert s n) = names s ++ [n].
Proof. unfold names, insert. cbn. rewrite map_app. reflexivity. Qed.
Lemma names_append s n c : names (appendChild s n c) = names s.
Proof.
  unfold names, appendChild. cbn. rewrite map_map. apply map_ext. intros [a b]. cbn.
  destruct (name_eqb a n); reflexivity.
Qed.

Lemma find_app_l {A} (f : A -> bool) l x : find f (l ++ [x]) = match find f l with Some y => Some y | None => if f x then Some x else None end.
Proof. induction l as [|a l IH]; cbn; [reflexivity|]. destruct (f a); [reflexivity|exact IH]. Qed.

Lemma children_insert_same s n : ~ In n (names s) -> childRepos (insert s n) n = [].
Proof.
  intros N. unfold childRepos, insert. cbn. rewrite find_app_l. cbn. rewrite name_eqb_refl.
  destruct (find (fun x => name_eqb (fst x) n) (stRepos s)) as [x|] eqn:F; [|reflexivity].
  exfalso. apply find_some in F. destruct F as [I E]. apply name_eqb_eq in E. apply N. unfold names.
  apply in_map_iff. eauto.
Qed.
Lemma children_insert_other s n x : x <> n -> childRepos (insert s n) x = childRepos s x.
Proof.
  intros N. unfold childRepos, insert. cbn. rewrite find_app_l. cbn.
  destruct (find (fun y => name_eqb (fst y) x) (stRepos s)); [reflexivity|].
  rewrite (proj2 (name_eqb_neq n x)) by congruence. reflexivity.
Qed.
Lemma children_append s n c x :
  In n (names s) -> childRepos (appendChild s n c) x = if name_eqb x n then childRepos s n ++ [c] else childRepos s x.
Proof.
  unfold childRepos, appendChild, names. cbn. induction (stRepos s) as [|[a b] l IH]; cbn [map fst In find]; [intros []|].
  intros [E|I].
  - cbn in E. subst a. rewrite name_eqb_refl. cbn [fst snd find].
    destruct (name_eqb x n) eqn:E.
    + apply name_eqb_eq in E. subst x. rewrite name_eqb_refl. reflexivity.
    + apply name_eqb_neq in E. rewrite (proj2 (name_eqb_neq n x)) by congruence.
      clear IH. induction l as [|[a' b'] l IH]; cbn [map find fst]; [reflexivity|].
      destruct (name_eqb a' n) eqn:E2; cbn [fst]; (destruct (name_eqb a' x) eqn:E3; [|exact IH]).
      * apply name_eqb_eq in E2, E3. congruence.
      * reflexivity.
  - specialize (IH I). destruct (name_eqb a n) eqn:E1; cbn [fst find].
    + apply name_eqb_eq in E1. subst a. destruct (name_eqb x n) eqn:E2.
      * apply name_eqb_eq in E2. subst x. rewrite name_eqb_refl. reflexivity.
      * apply name_eqb_neq in E2. rewrite (proj2 (name_eqb_neq n x)) by congruence. exact IH.
    + apply name_eqb_neq in E1. destruct (name_eqb a x) eqn:E3.
      * apply name_eqb_eq in E3. subst a. rewrite (proj2 (name_eqb_neq x n)) by congruence. reflexivity.
      * rewrite IH. destruct (name_eqb x n) eqn:E4; [|reflexivity].
        reflexivity.
Qed.

Section Load.
Variable dlls : list name.
Variable info : name -> infoFile.
Variable dll : name -> bool.

Local Notation deps := (dependencies info).
Local Notation needs := (needs info).
Local Notation spoiled := (spoiled info).
Local Notation loadable := (loadable dlls info dll).
Local Notation instantiate := (instantiate dlls info dll).

Lemma needs_trans a b c : needs a b -> needs b c -> needs a c.
Proof. induction 1; intros; [assumption|]. eapply needs_step; eauto. Qed.
Lemma spoiled_up a b : In b (deps a) -> spoiled b -> spoiled a.
Proof. intros I (x & N & M). exists x. split; [|exact M]. eapply needs_step; eauto. Qed.

(** Repos not yet inserted. *)
Definition left (s : state) : nat := length (filter (fun d => negb (isThere s d)) dlls).

Lemma filter_le (f g : name -> bool) l : (forall x, In x l -> f x = true -> g x = true) -> (length (filter f l) <= length (filter g l))%nat.
Proof.
  induction l as [|a l IH]; intros H; [cbn; lia|]. cbn. assert (IH' := IH (fun x I => H x (or_intror I))).
  destruct (f a) eqn:F; [rewrite (H a (or_introl eq_refl) F); cbn; lia|]. destruct (g a); cbn; lia.
Qed.
Lemma filter_lt (f g : name -> bool) l n : (forall x, In x l -> f x = true -> g x = true) -> In n l -> f n = false -> g n = true ->
  (length (filter f l) < length (filter g l))%nat.
Proof.
  induction l as [|a l IH]; intros H I F G; [destruct I|]. cbn. pose proof (filter_le f g l (fun x I => H x (or_intror I))) as L.
  destruct I as [->|I].
  - rewrite F, G. cbn. lia.
  - pose proof (IH (fun x I => H x (or_intror I)) I F G). destruct (f a) eqn:FA; [rewrite (H a (or_introl eq_refl) FA); cbn; lia|].
    destruct (g a); cbn; lia.
Qed.
Lemma filter_len (f : name -> bool) l : (length (filter f l) <= length l)%nat.
Proof. induction l as [|a l IH]; cbn; [lia|]. destruct (f a); cbn; lia. Qed.
Lemma left_mono s s' : incl (names s) (names s') -> (left s' <= left s)%nat.
Proof.
  intros H. apply filter_le. intros x _. rewrite !negb_true_iff, !isThere_not. auto.
Qed.
Lemma left_insert s n : In n dlls -> ~ In n (names s) -> (left (insert s n) < left s)%nat.
Proof.
  intros I N. apply (filter_lt _ _ dlls n); [|exact I| |].
  - intros x _. rewrite !negb_true_iff, !isThere_not, names_insert, in_app_iff. tauto.
  - apply negb_false_iff, isThere_iff. rewrite names_insert, in_app_iff. cbn. auto.
  - apply negb_true_iff, isThere_not. exact N.
Qed.

Record Inv (s : state) (stack : list name) : Prop := {
  i_names : NoDup (names s);
  i_dlls : incl (names s) dlls;
  i_where : forall n, In n (names s) -> In n (stRegistered s) \/ In n stack \/ spoiled n;
  i_reg : incl (stRegistered s) (names s);
  i_stack : incl stack (names s);
  i_once : NoDup (stRegistered s);
  i_apart : forall n, In n stack -> ~ In n (stRegistered s);
  i_order : forall l1 n l2, stRegistered s = l1 ++ n :: l2 ->
    loadable n /\ childRepos s n = deps n /\ forall d, In d (deps n) -> In d l1 \/ needs d n \/ spoiled d;
  i_errs : forall n, In n (stErrors s) <-> In n (names s) /\ info n = Malformed;
  i_told : NoDup (stErrors s);
  i_path : NoDup stack }.

Definition Out {A} (n : name) (s : state) (stack : list name) (ok : A -> Prop) (r : result A) : Prop :=
  match r with
  | Ends _ => exists x, In x dlls /\ ~ loadable x
  | Deep => False
  | Returns o s' => Inv s' stack /\ incl (names s) (names s') /\ In n (names s') /\
      (forall x, In x (names s) -> childRepos s' x = childRepos s x) /\ ok o
  end.
Definition okay (n : name) (o : option name) : Prop := match o with None => spoiled n | Some m => m = n end.

Lemma nodup_snoc {A} (l : list A) x : NoDup l -> ~ In x l -> NoDup (l ++ [x]).
Proof.
  intros H N.
  induction H as [|a l I H IH]; cbn; [constructor; [intros []|constructor]|].
  constructor.
  - rewrite in_app_iff. cbn. intros [X|[X|[]]]; [tauto|]. subst. apply N. left. reflexivity.
  - apply IH. intros X. apply N. right. exact X.
Qed.

Lemma split_last {A} (l l1 l2 : list A) x n : l ++ [x] = l1 ++ n :: l2 ->
  (l = l1 /\ n = x /\ l2 = []) \/ exists l3, l2 = l3 ++ [x] /\ l = l1 ++ n :: l3.
Proof.
  intros E. destruct l2 as [|y l2] using rev_ind.
  - apply app_inj_tail in E. destruct E as [E1 E2]. subst. left. auto.
  - clear IHl2. right. exists l2. change (l1 ++ n :: l2 ++ [y]) with (l1 ++ (n :: l2) ++ [y]) in E.
    rewrite app_assoc in E. apply app_inj_tail in E. destruct E as [E1 E2]. subst. auto.
Qed.

Lemma inv_insert s stack n : Inv s stack -> In n dlls -> ~ In n (names s) -> info n <> Malformed -> Inv (insert s n) (n :: stack).
Proof.
  intros [A B C D E F G H I J P] N M K. split; rewrite ?names_insert; try assumption.
  - apply nodup_snoc; assumption.
  - intros x X. apply in_app_iff in X. destruct X as [X|[<-|[]]]; [apply B, X|exact N].
  - intros x X. apply in_app_iff in X. destruct X as [X|[<-|[]]]; [|right; left; left; reflexivity].
    destruct (C x X) as [Y|[Y|Y]]; [left; exact Y|right; left; right; exact Y|right; right; exact Y].
  - intros x X. apply in_app_iff. left. apply D, X.
  - intros x [<-|X]; apply in_app_iff; [right; left; reflexivity|left; apply E, X].
  - intros x [<-|X]; [intros Y; apply M, D, Y|apply G, X].
  - intros l1 x l2 X. destruct (H l1 x l2 X) as (H1 & H2 & H3). split; [exact H1|]. split; [|exact H3].
    rewrite children_insert_other; [exact H2|]. intros ->. apply M, D. cbn [insert stRegistered] in X. rewrite X. apply in_app_iff. right. left. reflexivity.
  - intros x. rewrite in_app_iff. cbn [insert stErrors In]. rewrite I. split; [tauto|]. intros [[X|[<-|[]]] Y]; [auto|contradiction].
  - constructor; [intros X; apply M, E, X|exact P].
Qed.

Lemma inv_load s s0 stack n : Inv s (n :: stack) -> In n dlls -> childRepos s n = deps n -> info n <> Unreadable -> NoDup (deps n) ->
  incl (deps n) dlls -> (forall d, In d (deps n) -> In d (stRegistered s) \/ needs d n \/ spoiled d) -> ~ In n (names s0) ->
  incl (names s0) (names s) -> (forall x, In x (names s0) -> childRepos s x = childRepos s0 x) ->
  Out n s0 stack (okay n) (loadDll dll n s).
Proof.
  intros [A B C D E F G H I J P] N Ch U ND Inc Dn N0 Mono Keep. unfold loadDll.
  destruct (dll n) eqn:L; [|exists n; split; [exact N|]; intros (_ & _ & _ & X); congruence].
  assert (Nn : In n (names s)) by (apply E; left; reflexivity).
  inversion P as [|? ? P1 P2]; subst.
  cbn [Out]. split; [|split; [exact Mono|split; [exact Nn|split; [exact Keep|reflexivity]]]].
  split; try assumption; cbn [register stRegistered stErrors].
  - intros x X. destruct (C x X) as [Y|[[<-|Y]|Y]].
    + left. apply in_app_iff. left. exact Y.
    + left. apply in_app_iff. right. left. reflexivity.
    + right. left. exact Y.
    + right. right. exact Y.
  - intros x X. apply in_app_iff in X. destruct X as [X|[<-|[]]]; [apply D, X|exact Nn].
  - intros x X. apply E. right. exact X.
  - apply nodup_snoc; [exact F|]. apply G. left. reflexivity.
  - intros x X Y. apply in_app_iff in Y. destruct Y as [Y|[<-|[]]]; [apply (G x); [right; exact X|exact Y]|contradiction].
  - intros l1 x l2 X. apply split_last in X. destruct X as [(<- & -> & ->)|(l3 & -> & X)].
    + split; [|split; [exact Ch|exact Dn]]. split; [exact U|]. split; [exact ND|]. split; [exact Inc|exact L].
    + exact (H l1 x l3 X).
Qed.

(** The loop over the dependencies, as the inner fixpoint of [instantiate]. *)
Fixpoint depLoop (k : nat) (n : name) (l : list name) (s : state) : result (option name) :=
  match l with
  | [] => loadDll dll n s
  | d :: l =>
    if existsb (name_eqb d) dlls then
      match instantiate k d s with
      | Returns (Some child) s2 =>
        if existsb (name_eqb child) (childRepos s2 n) then Ends (Duplicate n d)
        else depLoop k n l (appendChild s2 n child)
      | Returns None s2 => Returns None s2
      | r => r
      end
    else Ends (NoSuchRepo n d)
  end.
Lemma instantiate_S k n s : instantiate (S k) n s =
  if isThere s n then Returns (Some n) s
  else match info n with
       | Unreadable => Ends (CantRead n)
       | Malformed => Returns None (logError (insert s n) n)
       | NoInfo => loadDll dll n (insert s n)
       | DependsOn l => depLoop k n l (insert s n)
       end.
Proof.
  cbn [LoadModel.instantiate]. destruct (isThere s n); [reflexivity|]. cbv zeta. destruct (info n) as [| | |l]; try reflexivity.
  generalize (insert s n) as s1. induction l as [|d l IH]; intros s1; [reflexivity|]. cbn [depLoop].
  destruct (existsb (name_eqb d) dlls); [|reflexivity]. destruct (instantiate k d s1) as [why| |[c|] s2]; try reflexivity.
  destruct (existsb (name_eqb c) (childRepos s2 n)); [reflexivity|]. apply IH.
Qed.

Lemma inv_append s stack n c : Inv s (n :: stack) -> Inv (appendChild s n c) (n :: stack).
Proof.
  intros [A B C D E F G H I J P]. split; rewrite ?names_append; try assumption.
  intros l1 x l2 X. destruct (H l1 x l2 X) as (H1 & H2 & H3). split; [exact H1|]. split; [|exact H3].
  assert (Nn : In n (names s)) by (apply E; left; reflexivity).
  rewrite (children_append s n c x Nn). destruct (name_eqb x n) eqn:Q; [|exact H2].
  apply name_eqb_eq in Q. subst x. exfalso. apply (G n); [left; reflexivity|]. cbn [appendChild stRegistered] in X. rewrite X.
  apply in_app_iff. right. left. reflexivity.
Qed.

Section Step.
Variable k : nat.
Hypothesis IHk : forall n s stack, (left s < k)%nat -> Inv s stack -> In n dlls -> (forall x, In x stack -> needs x n) ->
  Out n s stack (okay n) (instantiate k n s).

Lemma loop_ok n l : forall pre s s0 stack, deps n = pre ++ l -> info n <> Unreadable -> In n dlls ->
  (forall x, In x stack -> needs x n) -> Inv s (n :: stack) -> (left s < k)%nat ->
  childRepos s n = pre -> NoDup pre -> incl pre dlls ->
  (forall d, In d pre -> In d (stRegistered s) \/ needs d n \/ spoiled d) -> ~ In n (names s0) ->
  incl (names s0) (names s) -> (forall x, In x (names s0) -> childRepos s x = childRepos s0 x) ->
  Out n s0 stack (okay n) (depLoop k n l s).
Proof.
  induction l as [|d l IH]; intros pre s s0 stack E U N St V L Ch ND Inc Dn N0 Mono Keep; cbn [depLoop].
  - rewrite app_nil_r in E. subst pre. apply inv_load; assumption.
  - assert (Dd : In d (deps n)) by (rewrite E; apply in_app_iff; right; left; reflexivity).
    destruct (existsb (name_eqb d) dlls) eqn:M.
    2: { apply mem_not in M. exists n. split; [exact N|]. intros (_ & _ & X & _). exact (M (X d Dd)). }
    apply mem_iff in M.
    assert (Sd : forall x, In x (n :: stack) -> needs x d).
    { intros x [<-|X]; [eapply needs_step; [exact Dd|apply needs_self]|].
      eapply needs_trans; [apply St, X|]. eapply needs_step; [exact Dd|apply needs_self]. }
    pose proof (IHk d s (n :: stack) L V M Sd) as R. destruct (instantiate k d s) as [why| |[c|] s2]; cbn [Out] in R; [exact R|exact R| |].
    + destruct R as (V2 & Mo2 & Nd & Ke2 & Oc). cbn in Oc. subst c.
      assert (Nn : In n (names s)) by (apply (i_stack _ _ V); left; reflexivity).
      rewrite (Ke2 n Nn), Ch.
      destruct (existsb (name_eqb d) pre) eqn:Q.
      { apply mem_iff in Q. exists n. split; [exact N|]. intros (_ & X & _). rewrite E in X.
        apply NoDup_remove_2 in X. apply X. apply in_app_iff. left. exact Q. }
      apply mem_not in Q.
      apply (IH (pre ++ [d])); try assumption.
      * rewrite <- app_assoc. exact E.
      * apply inv_append, V2.
      * unfold left in *. eapply Nat.le_lt_trans; [|exact L]. apply left_mono. rewrite names_append. exact Mo2.
      * rewrite (children_append s2 n d n (Mo2 n Nn)), name_eqb_refl, (Ke2 n Nn), Ch. reflexivity.
      * apply nodup_snoc; assumption.
      * intros x X. apply in_app_iff in X. destruct X as [X|[<-|[]]]; [apply Inc, X|exact M].
      * intros x X. cbn [appendChild stRegistered]. apply in_app_iff in X. destruct X as [X|[<-|[]]].
        -- destruct (Dn x X) as [Y|Y]; [|right; exact Y].
           assert (Xn : In x (names s2)) by (apply Mo2, (i_reg _ _ V), Y).
           destruct (i_where _ _ V2 x Xn) as [Z|[[<-|Z]|Z]]; [left; exact Z|right; left; apply needs_self|right; left; apply St, Z|right; right; exact Z].
        -- destruct (i_where _ _ V2 d Nd) as [Z|[[<-|Z]|Z]]; [left; exact Z|right; left; apply needs_self|right; left; apply St, Z|right; right; exact Z].
      * intros x X. rewrite names_append. apply Mo2, Mono, X.
      * intros x X. rewrite (children_append s2 n d x (Mo2 n Nn)). rewrite (proj2 (name_eqb_neq x n)) by congruence.
        rewrite (Ke2 x (Mono x X)). apply Keep, X.
    + destruct R as (V2 & Mo2 & Nd & Ke2 & Oc). cbn in Oc. cbn [Out okay].
      assert (Nn : In n (names s)) by (apply (i_stack _ _ V); left; reflexivity).
      pose proof (spoiled_up n d Dd Oc) as Sn.
      split; [|split; [intros x X; apply Mo2, Mono, X|split; [apply Mo2, Nn|split; [intros x X; rewrite (Ke2 x (Mono x X)); apply Keep, X|exact Sn]]]].
      destruct V2 as [A B C D E2 F G H I J P]. inversion P as [|? ? P1 P2]; subst. split; try assumption.
      * intros x X. destruct (C x X) as [Y|[[<-|Y]|Y]]; auto.
      * intros x X. apply E2. right. exact X.
      * intros x X. apply G. right. exact X.
Qed.

Lemma step_ok n s stack : (left s < S k)%nat -> Inv s stack -> In n dlls -> (forall x, In x stack -> needs x n) ->
  Out n s stack (okay n) (instantiate (S k) n s).
Proof.
  intros L V N St. rewrite instantiate_S. destruct (isThere s n) eqn:T.
  - apply isThere_iff in T. cbn [Out okay]. split; [exact V|]. split; [apply incl_refl|]. split; [exact T|]. split; reflexivity.
  - apply isThere_not in T. pose proof (left_insert s n N T) as LI.
    assert (Mo : incl (names s) (names (insert s n))) by (intros x X; rewrite names_insert; apply in_app_iff; left; exact X).
    assert (Ke : forall x, In x (names s) -> childRepos (insert s n) x = childRepos s x)
      by (intros x X; apply children_insert_other; congruence).
    destruct (info n) as [| | |l] eqn:Q.
    + assert (Dz : deps n = []) by (unfold dependencies; rewrite Q; reflexivity).
      apply inv_load; try assumption; rewrite ?Dz.
      * apply inv_insert; try assumption. congruence.
      * apply children_insert_same, T.
      * congruence.
      * constructor.
      * intros x [].
      * intros x [].
    + exists n. split; [exact N|]. intros (X & _). contradiction.
    + assert (Sn : spoiled n) by (exists n; split; [apply needs_self|exact Q]).
      cbn [Out okay]. unfold logError at 1 2.
      split; [|split; [exact Mo|split; [change (In n (names (insert s n))); rewrite names_insert; apply in_app_iff; right; left; reflexivity|split; [exact Ke|exact Sn]]]].
      destruct V as [A B C D E F G H I J P].
      change (Inv (mkState (stRepos s ++ [(n, [])]) (stRegistered s) (stErrors s ++ [n])) stack).
      assert (Nm : names (mkState (stRepos s ++ [(n, [])]) (stRegistered s) (stErrors s ++ [n])) = names s ++ [n]) by (apply names_insert).
      split; rewrite ?Nm; cbn [stRegistered stErrors]; try assumption.
      * apply nodup_snoc; assumption.
      * intros x X. apply in_app_iff in X. destruct X as [X|[<-|[]]]; [apply B, X|exact N].
      * intros x X. apply in_app_iff in X. destruct X as [X|[<-|[]]]; [apply C, X|auto].
      * intros x X. apply in_app_iff. left. apply D, X.
      * intros x X. apply in_app_iff. left. apply E, X.
      * intros l1 x l2 X. destruct (H l1 x l2 X) as (H1 & H2 & H3). split; [exact H1|]. split; [|exact H3].
        change (childRepos (insert s n) x = deps x). rewrite children_insert_other; [exact H2|]. intros ->. apply T, D. rewrite X.
        apply in_app_iff. right. left. reflexivity.
      * intros x. rewrite !in_app_iff, I. cbn [In]. split; [intros [X|[<-|[]]]; tauto|]. intros [[X|[<-|[]]] Y]; auto.
      * apply nodup_snoc; [exact J|]. intros X. apply I in X. tauto.
    + assert (Dl : deps n = l) by (unfold dependencies; rewrite Q; reflexivity).
      apply (loop_ok n l []); try assumption; try congruence.
      * apply inv_insert; try assumption. congruence.
      * lia.
      * apply children_insert_same, T.
      * constructor.
      * intros x [].
      * intros x [].
Qed.
End Step.

Lemma instantiate_ok k : forall n s stack, (left s < k)%nat -> Inv s stack -> In n dlls -> (forall x, In x stack -> needs x n) ->
  Out n s stack (okay n) (instantiate k n s).
Proof. induction k as [|k IH]; intros n s stack L; [lia|]. apply step_ok; assumption. Qed.

Lemma loadAll_ok l : forall s, incl l dlls -> Inv s [] ->
  match loadAll dlls info dll (S (length dlls)) l s with
  | Ends _ => exists x, In x dlls /\ ~ loadable x
  | Deep => False
  | Returns _ s' => Inv s' [] /\ incl (names s) (names s') /\ incl l (names s')
  end.
Proof.
  induction l as [|n l IH]; intros s I V; cbn [loadAll].
  - split; [exact V|]. split; [apply incl_refl|intros x []].
  - assert (L : (left s < S (length dlls))%nat) by (unfold left; pose proof (filter_len (fun d => negb (isThere s d)) dlls); lia).
    pose proof (instantiate_ok (S (length dlls)) n s [] L V (I n (or_introl eq_refl)) (fun x X => match X with end)) as R.
    destruct (instantiate (S (length dlls)) n s) as [why| |o s1]; cbn [Out] in R; [exact R|exact R|].
    destruct R as (V1 & Mo & Nn & _). specialize (IH s1 (fun x X => I x (or_intror X)) V1).
    destruct (loadAll dlls info dll (S (length dlls)) l s1) as [why| |u s2]; [exact IH|exact IH|].
    destruct IH as (V2 & Mo2 & Il). split; [exact V2|]. split; [intros x X; apply Mo2, Mo, X|].
    intros x [<-|X]; [apply Mo2, Nn|apply Il, X].
Qed.

Lemma inv_start : Inv (mkState [] [] []) [].
Proof.
  split; cbn; try constructor; try tauto.
  - intros x [].
  - intros x [].
  - intros x [].
  - destruct l1; discriminate.
  - destruct l1; discriminate.
Qed.

Lemma create_ok :
  match create dlls info dll with
  | Ends _ => exists x, In x dlls /\ ~ loadable x
  | Deep => False
  | Returns _ s => Inv s [] /\ incl dlls (names s)
  end.
Proof.
  pose proof (loadAll_ok dlls (mkState [] [] []) (incl_refl _) inv_start) as R. unfold create.
  destruct (loadAll dlls info dll (S (length dlls)) dlls (mkState [] [] [])); try exact R. tauto.
Qed.
End Load.
