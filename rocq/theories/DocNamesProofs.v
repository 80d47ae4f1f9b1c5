(* Proofs about the names known to the documentation extractor. *)
From Verif Require Import Base StringViewModel StringViewSpec StringViewProofs DocNamesModel DocNamesSpec.

Definition sig (s : docs) (i : nat) : option (option nat * kind * list Z) :=
  option_map (fun e => (parentOf e, kindOf e, nameOf e)) (at_ s i).

Definition scopeKind (k : kind) : Prop := k = Namespace \/ k = Class.

Lemma same_true a b : same a b = true <-> a = b.
Proof. unfold same. destruct (list_eq_dec Z.eq_dec a b); split; congruence. Qed.

Lemma declares_sig s p x k : declares s p x k <-> exists kd, sig s k = Some (Some p, kd, x) /\
  ~ (kd = Member /\ exists pp, sig s p = Some (pp, Class, x)).
Proof.
  unfold declares, sig. split.
  - intros (e & He & Hp & Hn & Hc). exists (kindOf e). rewrite He. cbn. rewrite Hp, Hn. split; [reflexivity|].
    intros (Hm & pp & Hs). apply Hc. split; [exact Hm|]. destruct (at_ s p) as [c|]; [|discriminate Hs].
    cbn in Hs. injection Hs as _ H2 H3. exists c. repeat split; assumption.
  - intros (kd & He & Hc). destruct (at_ s k) as [e|]; [|discriminate He]. cbn in He. injection He as H1 H2 H3.
    exists e. split; [reflexivity|]. split; [exact H1|]. split; [exact H3|].
    intros (Hm & c & Hat & Hk & Hn). apply Hc. split; [congruence|]. exists (parentOf c). rewrite Hat. cbn. congruence.
Qed.

Lemma declares_ext s s' p x k : sig s' k = sig s k -> sig s' p = sig s p -> (declares s' p x k <-> declares s p x k).
Proof. intros H1 H2. rewrite !declares_sig, H1, H2. reflexivity. Qed.

Lemma name_sig s i pp kd x : sig s i = Some (pp, kd, x) -> name_of s i = x.
Proof. unfold sig, name_of. destruct (at_ s i); cbn; congruence. Qed.
Lemma kind_sig s i pp kd x : sig s i = Some (pp, kd, x) -> kind_of s i = Some kd.
Proof. unfold sig, kind_of. destruct (at_ s i); cbn; congruence. Qed.
Lemma parent_sig s i pp kd x : sig s i = Some (pp, kd, x) -> parent_of s i = pp.
Proof. unfold sig, parent_of. destruct (at_ s i); cbn; congruence. Qed.
Lemma sig_of_kind s i kd : kind_of s i = Some kd -> exists pp x, sig s i = Some (pp, kd, x).
Proof. unfold sig, kind_of. destruct (at_ s i) as [e|]; cbn; [|discriminate]. intros [= <-]. eauto. Qed.
Lemma sig_of_parent s i p : parent_of s i = Some p -> exists kd x, sig s i = Some (Some p, kd, x).
Proof. unfold sig, parent_of. destruct (at_ s i) as [e|]; cbn; [|discriminate]. intros ->. eauto. Qed.
Lemma sig_none_kids s i : sig s i = None -> kids_of s i = [].
Proof. unfold sig, kids_of. destruct (at_ s i); cbn; [discriminate|reflexivity]. Qed.

Record wf (s : docs) : Prop := mkWf {
  w_root : exists x, sig s 0 = Some (None, Namespace, x);
  w_next : forall i v, sig s i = Some v -> (i < next s)%nat;
  w_parent : forall i pp kd x, sig s i = Some (pp, kd, x) -> zlen x < 2 ^ 31 /\
    match pp with
    | None => i = 0%nat
    | Some p => (p < i)%nat /\ exists pp' kd' x', sig s p = Some (pp', kd', x') /\ (kd <> FunctionParam -> scopeKind kd')
    end;
  w_kids : forall p k, In k (kids_of s p) <-> exists x, declares s p x k;
  w_nodup : forall p, NoDup (kids_of s p);
  w_order : forall p, ordered (at_ s) (kids_of s p);
  w_ns : forall p x i j, sig s i = Some (Some p, Namespace, x) -> sig s j = Some (Some p, Namespace, x) -> i = j }.

Lemma ordered_ext s s' ks : (forall i, In i ks -> sig s' i = sig s i) -> ordered (at_ s) ks -> ordered (at_ s') ks.
Proof.
  intros He Ho. unfold ordered in *. induction Ho as [|k r H IH Hf]; [constructor|].
  constructor; [apply IH; intros i Hi; apply He; right; exact Hi|].
  apply Forall_forall. intros j Hj a b Ha Hb. rewrite Forall_forall in Hf. specialize (Hf j Hj).
  pose proof (He k (or_introl eq_refl)) as E1. pose proof (He j (or_intror Hj)) as E2.
  unfold sig in E1, E2. rewrite Ha in E1. rewrite Hb in E2.
  destruct (at_ s k) as [a'|]; [|discriminate E1]. destruct (at_ s j) as [b'|]; [|discriminate E2].
  cbn in E1, E2. injection E1 as _ _ ->. injection E2 as _ _ ->. apply (Hf a' b'); reflexivity.
Qed.

(** ** Adding *)
Lemma sig_setKids s p ks i : option_map (fun e => (parentOf e, kindOf e, nameOf e)) (setKids s p ks i) = sig s i.
Proof. unfold setKids, sig. destruct (Nat.eqb_spec i p) as [->|]; [|reflexivity]. destruct (at_ s p); reflexivity. Qed.

Lemma sig_added s p k x ks i : sig (added s p k x ks) i = if Nat.eqb i (next s) then Some (Some p, k, x) else sig s i.
Proof. unfold sig at 1. cbn. destruct (Nat.eqb_spec i (next s)) as [->|H]; [reflexivity|]. apply sig_setKids. Qed.

Lemma kids_added s p k x ks i : sig s p <> None -> (p < next s)%nat ->
  kids_of (added s p k x ks) i = if Nat.eqb i (next s) then [] else if Nat.eqb i p then ks else kids_of s i.
Proof.
  intros Hp Hlt. unfold kids_of at 1. cbn. destruct (Nat.eqb_spec i (next s)) as [->|H]; [reflexivity|].
  unfold setKids. destruct (Nat.eqb_spec i p) as [->|]; [|reflexivity].
  unfold sig in Hp. destruct (at_ s p); [reflexivity|contradiction].
Qed.

Lemma added_wf s p kd x ks pp kd' x' : wf s -> sig s p = Some (pp, kd', x') -> zlen x < 2 ^ 31 ->
  (kd <> FunctionParam -> scopeKind kd') ->
  (kd = Namespace -> forall i, sig s i <> Some (Some p, Namespace, x)) ->
  ((exists a b, kids_of s p = a ++ b /\ ks = a ++ next s :: b /\ ~ (kd = Member /\ kd' = Class /\ x' = x)) \/
   (ks = kids_of s p /\ kd = Member /\ kd' = Class /\ x' = x)) ->
  ordered (at_ (added s p kd x ks)) ks ->
  wf (added s p kd x ks).
Proof.
  intros W Hp Hx Hsc Hns Hks Ho. pose proof (w_next s W _ _ Hp) as Hlt.
  assert (Hfresh : sig s (next s) = None).
  { destruct (sig s (next s)) as [v|] eqn:E; [|reflexivity]. apply (w_next s W) in E. lia. }
  assert (Hold : forall i v, sig s i = Some v -> sig (added s p kd x ks) i = Some v).
  { intros i v Hi. rewrite sig_added. destruct (Nat.eqb_spec i (next s)) as [->|]; [congruence|exact Hi]. }
  assert (Hne : p <> next s) by lia.
  assert (Hkids : forall q k, In k (kids_of (added s p kd x ks) q) <-> exists y, declares (added s p kd x ks) q y k).
  { intros q k. rewrite kids_added by (congruence || exact Hlt).
    assert (Hdead : forall y, ~ declares (added s p kd x ks) (next s) y k).
    { intros y Hd. apply declares_sig in Hd as (kd1 & Hk & _). rewrite sig_added in Hk.
      destruct (Nat.eqb_spec k (next s)); [congruence|]. destruct (w_parent s W _ _ _ _ Hk) as (_ & _ & pp1 & k1 & x1 & H1 & _). congruence. }
    destruct (Nat.eqb_spec q (next s)) as [->|Hq].
    { split; [intros []|]. intros (y & Hd). destruct (Hdead y Hd). }
    assert (Hother : k <> next s -> forall y, declares (added s p kd x ks) q y k <-> declares s q y k).
    { intros Hk y. apply declares_ext; rewrite sig_added; [destruct (Nat.eqb_spec k (next s))|destruct (Nat.eqb_spec q (next s))]; congruence. }
    assert (Hsplit : k <> next s -> (exists y, declares (added s p kd x ks) q y k) <-> In k (kids_of s q)).
    { intros Hk. rewrite (w_kids s W). split; intros (y & Hy); exists y; apply Hother; assumption. }
    assert (Hnot : ~ In (next s) (kids_of s q)).
    { intros Hin. apply (w_kids s W) in Hin as (y & Hd). apply declares_sig in Hd as (? & Hd & _). congruence. }
    destruct (Nat.eq_dec k (next s)) as [->|Hk].
    - assert (Hdn : (exists y, declares (added s p kd x ks) q y (next s)) <-> q = p /\ ~ (kd = Member /\ kd' = Class /\ x' = x)).
      { split.
        - intros (y & Hd). apply declares_sig in Hd as (kd1 & H1 & H2). rewrite sig_added, Nat.eqb_refl in H1. injection H1 as <- <- <-.
          split; [reflexivity|]. intros (A & B & C). apply H2. split; [exact A|]. exists pp. subst kd' x'. apply Hold, Hp.
        - intros (-> & Hn). exists x. apply declares_sig. exists kd. rewrite sig_added, Nat.eqb_refl. split; [reflexivity|].
          intros (A & pp1 & B). apply Hn. rewrite (Hold _ _ Hp) in B. injection B as _ B1 B2. repeat split; assumption. }
      rewrite Hdn. destruct (Nat.eqb_spec q p) as [->|Hqp].
      + destruct Hks as [(a & b & E1 & -> & Hn)|(-> & Hm)].
        * split; [intros _; split; [reflexivity|exact Hn]|]. intros _. apply in_or_app. right. left. reflexivity.
        * split; [intros Hin; destruct (Hnot Hin)|]. intros (_ & Hn). destruct (Hn Hm).
      + split; [intros Hin; destruct (Hnot Hin)|]. intros (E & _). contradiction.
    - rewrite Hsplit by exact Hk. destruct (Nat.eqb_spec q p) as [->|Hqp]; [|reflexivity].
      destruct Hks as [(a & b & E1 & -> & Hn)|(-> & Hm)]; [|reflexivity].
      rewrite E1, !in_app_iff. cbn. intuition congruence. }
  split.
  - destruct (w_root s W) as [x0 H0]. exists x0. apply Hold, H0.
  - intros i v. rewrite sig_added. cbn [next added]. destruct (Nat.eqb_spec i (next s)) as [->|]; [lia|]. intros Hi. apply (w_next s W) in Hi. lia.
  - intros i pp1 kd1 x1. rewrite sig_added. destruct (Nat.eqb_spec i (next s)) as [->|Hi].
    + intros [= <- <- <-]. split; [exact Hx|]. split; [exact Hlt|]. exists pp, kd', x'. split; [apply Hold, Hp|exact Hsc].
    + intros H1. destruct (w_parent s W _ _ _ _ H1) as (HA & HB). split; [exact HA|]. destruct pp1 as [q|]; [|exact HB].
      destruct HB as (HB & a1 & a2 & a3 & HC & HD). split; [exact HB|]. exists a1, a2, a3. split; [apply Hold, HC|exact HD].
  - exact Hkids.
  - intros q. rewrite kids_added by (congruence || exact Hlt). destruct (Nat.eqb q (next s)); [constructor|].
    destruct (Nat.eqb q p); [|apply (w_nodup s W)].
    destruct Hks as [(a & b & E1 & -> & Hn)|(-> & Hm)]; [|apply (w_nodup s W)].
    apply NoDup_Add with (a := next s) (l := a ++ b); [apply Add_app|]. rewrite <- E1. split; [apply (w_nodup s W)|].
    intros Hin. apply (w_kids s W) in Hin as (y & Hd). apply declares_sig in Hd as (? & Hd & _). congruence.
  - intros q. rewrite kids_added by (congruence || exact Hlt). destruct (Nat.eqb_spec q (next s)); [constructor|].
    destruct (Nat.eqb_spec q p); [exact Ho|]. apply ordered_ext with (s := s); [|apply (w_order s W)].
    intros i Hi. apply (w_kids s W) in Hi as (y & Hd). apply declares_sig in Hd as (? & Hd & _). rewrite Hd. apply Hold, Hd.
  - intros q y i j. rewrite !sig_added. destruct (Nat.eqb_spec i (next s)) as [->|Hi], (Nat.eqb_spec j (next s)) as [->|Hj].
    + reflexivity.
    + intros [= <- -> <-] H2. destruct (Hns eq_refl j H2).
    + intros H2 [= <- -> <-]. destruct (Hns eq_refl i H2).
    + apply (w_ns s W).
Qed.

(** ** Searching among the children *)
Definition alive (s : docs) (ks : list nat) : Prop := forall i, In i ks -> sig s i <> None.

Lemma kids_alive s p : wf s -> alive s (kids_of s p).
Proof. intros W i Hi. apply (w_kids s W) in Hi as (y & Hd). apply declares_sig in Hd as (? & Hd & _). congruence. Qed.

Lemma short s i : wf s -> sig s i <> None -> zlen (name_of s i) < 2 ^ 31.
Proof. intros W Hi. destruct (sig s i) as [[[pp kd] x]|] eqn:E; [|contradiction]. rewrite (name_sig _ _ _ _ _ E). apply (w_parent s W _ _ _ _ E). Qed.

Lemma less_spec a b : zlen a < 2 ^ 31 -> zlen b < 2 ^ 31 -> less a b = false -> less b a = false -> a = b.
Proof.
  intros Ha Hb H1 H2. unfold less in *. apply Z.ltb_ge in H1, H2.
  apply (compare_eq a b Ha Hb). destruct (Z.eq_dec (sv_compare a b) 0) as [E|E]; [exact E|].
  assert (Hlt : 0 < sv_compare a b) by lia. apply (compare_gt a b Ha Hb) in Hlt. apply (compare_lt b a Hb Ha) in Hlt. lia.
Qed.
Lemma less_irrefl a : zlen a < 2 ^ 31 -> less a a = false.
Proof. intros Ha. unfold less. apply Z.ltb_ge. rewrite (proj2 (compare_eq a a Ha Ha) eq_refl). lia. Qed.

Lemma order_names s ks : alive s ks -> ordered (at_ s) ks ->
  StronglySorted (fun i j => less (name_of s j) (name_of s i) = false) ks.
Proof.
  intros Ha Ho. unfold ordered in Ho. induction Ho as [|k r H IH Hf]; [constructor|].
  constructor; [apply IH; intros i Hi; apply Ha; right; exact Hi|].
  apply Forall_forall. intros j Hj. rewrite Forall_forall in Hf. specialize (Hf j Hj).
  pose proof (Ha k (or_introl eq_refl)) as E1. pose proof (Ha j (or_intror Hj)) as E2.
  unfold sig in E1, E2. unfold name_of. destruct (at_ s k) as [a|]; [|contradiction]. destruct (at_ s j) as [b|]; [|contradiction].
  apply Hf; reflexivity.
Qed.

Lemma up_from s x ks : ks = upToGE s x ks ++ fromGE s x ks.
Proof. induction ks as [|k r IH]; [reflexivity|]. cbn. destruct (less (name_of s k) x); [cbn; f_equal; exact IH|reflexivity]. Qed.

(** The children with the name [x] are the first of those from the place found. *)
Lemma from_first s x ks k : wf s -> alive s ks -> zlen x < 2 ^ 31 ->
  StronglySorted (fun i j => less (name_of s j) (name_of s i) = false) ks ->
  In k ks -> name_of s k = x ->
  exists a b, fromGE s x ks = a ++ k :: b /\ Forall (fun i => name_of s i = x) a.
Proof.
  intros W Ha Hx Ho. revert Ha. induction Ho as [|j r H IH Hf]; [intros _ []|].
  intros Ha Hin Hk. cbn. destruct (less (name_of s j) x) eqn:E.
  - destruct Hin as [->|Hin]; [rewrite Hk, less_irrefl in E by exact Hx; discriminate E|].
    apply IH; [intros i Hi; apply Ha; right; exact Hi|exact Hin|exact Hk].
  - clear IH. destruct Hin as [->|Hin]; [exists [], r; split; [reflexivity|constructor]|].
    apply in_split in Hin as (a & b & ->). exists (j :: a), b. split; [reflexivity|].
    apply Forall_forall. intros i Hi. apply less_spec; [apply short; [exact W|]|exact Hx| |].
    + apply Ha. destruct Hi as [->|Hi]; [left; reflexivity|right; apply in_or_app; left; exact Hi].
    + destruct Hi as [<-|Hi]; [exact E|]. rewrite Forall_forall in Hf.
      destruct (less (name_of s i) x) eqn:E2; [|reflexivity]. exfalso.
      (* j <= i < x <= j: a and x compared through j *)
      pose proof (Hf i (in_or_app _ _ _ (or_introl Hi))) as H1.
      assert (Hj : zlen (name_of s j) < 2 ^ 31) by (apply short; [exact W|apply Ha; left; reflexivity]).
      assert (H2 : less (name_of s k) (name_of s j) = false) by (apply Hf, in_or_app; right; left; reflexivity). rewrite Hk in H2.
      pose proof (less_spec _ _ Hj Hx E H2) as H3. rewrite H3 in H1. congruence.
    + rewrite <- Hk. destruct Hi as [<-|Hi]; [rewrite Forall_forall in Hf; apply Hf, in_or_app; right; left; reflexivity|].
      apply in_split in Hi as (a1 & a2 & ->). clear - H. rewrite <- app_assoc in H. cbn in H.
      induction a1 as [|y a1 IH]; cbn in H; inversion H as [|? ? H1 H2]; subst; [|apply IH, H1].
      rewrite Forall_forall in H2. apply H2, in_or_app. right. left. reflexivity.
Qed.

Lemma fromGE_in s x ks i : In i (fromGE s x ks) -> In i ks.
Proof. intros H. rewrite (up_from s x ks). apply in_or_app. right. exact H. Qed.

Lemma declares_name s p x k : declares s p x k -> name_of s k = x.
Proof. intros H. apply declares_sig in H as (kd & H & _). exact (name_sig _ _ _ _ _ H). Qed.

Lemma child_ok s p x : wf s -> zlen x < 2 ^ 31 ->
  match child s p x with Some k => declares s p x k | None => forall k, ~ declares s p x k end.
Proof.
  intros W Hx. unfold child. destruct (fromGE s x (kids_of s p)) as [|k r] eqn:E.
  - intros k Hd. assert (Hin : In k (kids_of s p)) by (apply (w_kids s W); exists x; exact Hd).
    destruct (from_first s x (kids_of s p) k W (kids_alive s p W) Hx (order_names _ _ (kids_alive s p W) (w_order s W p)) Hin (declares_name _ _ _ _ Hd)) as (a & b & E2 & _).
    rewrite E in E2. destruct a; discriminate E2.
  - destruct (same (name_of s k) x) eqn:Es.
    + apply same_true in Es. assert (Hin : In k (kids_of s p)) by (apply fromGE_in with (s := s) (x := x); rewrite E; left; reflexivity).
      apply (w_kids s W) in Hin as (y & Hd). pose proof (declares_name _ _ _ _ Hd) as Hn. congruence.
    + intros j Hd. assert (Hin : In j (kids_of s p)) by (apply (w_kids s W); exists x; exact Hd).
      pose proof (declares_name _ _ _ _ Hd) as Hn.
      destruct (from_first s x (kids_of s p) j W (kids_alive s p W) Hx (order_names _ _ (kids_alive s p W) (w_order s W p)) Hin Hn) as (a & b & E2 & Hf).
      rewrite E in E2. destruct a as [|y a]; injection E2 as -> _.
      * rewrite (proj2 (same_true _ _) Hn) in Es. discriminate Es.
      * apply Forall_inv in Hf. rewrite (proj2 (same_true _ _) Hf) in Es. discriminate Es.
Qed.

(** ** Removing *)
Lemma removeRun_ok s e x a b : Forall (fun i => name_of s i = x) a -> name_of s e = x -> ~ In e a ->
  removeRun s e x (a ++ e :: b) = Some (a ++ b).
Proof.
  intros Hf He. induction Hf as [|k r Hk Hf IH]; intros Hn; cbn.
  - rewrite (proj2 (same_true _ _) He), Nat.eqb_refl. reflexivity.
  - rewrite (proj2 (same_true _ _) Hk). destruct (Nat.eqb_spec k e) as [->|]; [destruct Hn; left; reflexivity|].
    rewrite IH; [reflexivity|]. intros Hin. apply Hn. right. exact Hin.
Qed.

Lemma unregistered_ok s e p : wf s -> In e (kids_of s p) ->
  exists a b, kids_of s p = a ++ e :: b /\ unregistered s e p = Some (a ++ b).
Proof.
  intros W Hin. unfold unregistered.
  assert (Hx : zlen (name_of s e) < 2 ^ 31) by (apply short; [exact W|]; exact (kids_alive s p W e Hin)).
  destruct (from_first s (name_of s e) (kids_of s p) e W (kids_alive s p W) Hx (order_names _ _ (kids_alive s p W) (w_order s W p)) Hin eq_refl) as (a & b & E & Hf).
  exists (upToGE s (name_of s e) (kids_of s p) ++ a), b.
  assert (Ek : kids_of s p = (upToGE s (name_of s e) (kids_of s p) ++ a) ++ e :: b) by (rewrite <- app_assoc, <- E; apply up_from).
  split; [exact Ek|]. rewrite E, removeRun_ok; [cbn; rewrite app_assoc; reflexivity|exact Hf|reflexivity|].
  pose proof (w_nodup s W p) as Hnd. rewrite Ek in Hnd. apply NoDup_remove_2 in Hnd.
  intros Hi. apply Hnd. apply in_or_app. left. apply in_or_app. right. exact Hi.
Qed.

Lemma in_namespace s e p : wf s -> parent_of s e = Some p -> kind_of s p = Some Namespace -> In e (kids_of s p).
Proof.
  intros W Hp Hk. apply (w_kids s W). apply sig_of_parent in Hp as (kd & x & Hp). exists x. apply declares_sig. exists kd.
  split; [exact Hp|]. intros (_ & pp & H). apply kind_sig in H. congruence.
Qed.

Lemma ordered_remove s a e b : ordered s (a ++ e :: b) -> ordered s (a ++ b).
Proof.
  unfold ordered. induction a as [|k a IH]; cbn; intros H; inversion H as [|? ? H1 H2]; subst; [exact H1|].
  constructor; [apply IH, H1|]. apply Forall_app in H2 as [H2 H3]. apply Forall_app. split; [exact H2|]. inversion H3; assumption.
Qed.

Lemma drop_wf s e p ks D : wf s -> parent_of s e = Some p -> kind_of s p = Some Namespace -> unregistered s e p = Some ks ->
  (forall i, D i = true <-> i = e \/ exists q, parent_of s i = Some q /\ D q = true) ->
  wf (mkDocs (fun i => if D i then None else setKids s p ks i) (next s)).
Proof.
  intros W Hp Hk Hu HD. set (s' := mkDocs _ _).
  pose proof (in_namespace s e p W Hp Hk) as Hin.
  destruct (unregistered_ok s e p W Hin) as (a & b & Ek & Eu). rewrite Hu in Eu. injection Eu as ->.
  destruct (sig_of_parent _ _ _ Hp) as (kde & xe & He).
  assert (Hpe : (p < e)%nat) by (destruct (w_parent s W _ _ _ _ He) as (_ & H & _); exact H).
  assert (Hlow : forall n i, (i <= n)%nat -> (i < e)%nat -> D i = false).
  { induction n as [|n IH]; intros i Hi Hlt; destruct (D i) eqn:E; try reflexivity; exfalso;
      apply HD in E as [->|(q & Hq & HDq)]; try lia;
      apply sig_of_parent in Hq as (kd1 & x1 & Hq); destruct (w_parent s W _ _ _ _ Hq) as (_ & Hql & _); [lia|].
    rewrite (IH q) in HDq by lia. discriminate HDq. }
  assert (HDp : D p = false) by (apply (Hlow p); lia).
  assert (HD0 : D 0%nat = false) by (apply (Hlow 0%nat); lia).
  assert (HDe : D e = true) by (apply HD; left; reflexivity).
  assert (Hsig : forall i, sig s' i = if D i then None else sig s i).
  { intros i. unfold sig at 1, s'. cbn. destruct (D i); [reflexivity|apply sig_setKids]. }
  assert (Hsp : sig s p <> None) by (apply sig_of_kind in Hk as (? & ? & Hk); congruence).
  assert (Hkids : forall q, kids_of s' q = if D q then [] else if Nat.eqb q p then a ++ b else kids_of s q).
  { intros q. unfold kids_of at 1, s'. cbn. destruct (D q); [reflexivity|]. unfold setKids.
    destruct (Nat.eqb_spec q p) as [->|]; [|reflexivity]. unfold sig in Hsp. destruct (at_ s p); [reflexivity|contradiction]. }
  assert (Hnd : ~ In e (a ++ b)) by (pose proof (w_nodup s W p) as H; rewrite Ek in H; apply NoDup_remove_2 in H; exact H).
  assert (Hdown : forall q x k, D q = false -> declares s q x k -> D k = false \/ k = e).
  { intros q x k Hq Hd. destruct (D k) eqn:E; [|left; reflexivity]. right. apply HD in E as [E|(r & Hr & HDr)]; [exact E|].
    apply declares_sig in Hd as (kd1 & Hd & _). apply parent_sig in Hd. congruence. }
  assert (HK : forall q k, In k (kids_of s' q) <-> exists x, declares s' q x k).
  { intros q k. rewrite Hkids. destruct (D q) eqn:Eq.
    - split; [intros []|]. intros (x & Hd). apply declares_sig in Hd as (kd1 & Hd & _). rewrite Hsig in Hd.
      destruct (D k) eqn:E; [discriminate Hd|]. apply parent_sig in Hd. rewrite (proj2 (HD k)) in E; [discriminate E|]. right. exists q. split; assumption.
    - assert (Hdd : D k = false -> forall x, declares s' q x k <-> declares s q x k)
        by (intros E x; apply declares_ext; rewrite Hsig, ?E, ?Eq; reflexivity).
      assert (Hback : forall x, declares s' q x k -> D k = false).
      { intros x Hd. apply declares_sig in Hd as (kd1 & Hd & _). rewrite Hsig in Hd. destruct (D k); [discriminate Hd|reflexivity]. }
      destruct (Nat.eqb_spec q p) as [->|Hqp].
      + split.
        * intros Hi. assert (Hi2 : In k (kids_of s p)) by (rewrite Ek; apply in_app_iff in Hi; apply in_app_iff; cbn; tauto).
          apply (w_kids s W) in Hi2 as (x & Hd). exists x. destruct (Hdown _ _ _ HDp Hd) as [E| ->]; [|contradiction]. apply Hdd; assumption.
        * intros (x & Hd). pose proof (Hback x Hd) as E. apply Hdd in Hd; [|exact E].
          assert (Hi2 : In k (kids_of s p)) by (apply (w_kids s W); exists x; exact Hd). rewrite Ek in Hi2.
          apply in_app_iff in Hi2. apply in_app_iff. destruct Hi2 as [H|[H|H]]; [left; exact H|congruence|right; exact H].
      + rewrite (w_kids s W). split; intros (x & Hd); exists x.
        * destruct (Hdown _ _ _ Eq Hd) as [E| ->]; [apply Hdd; assumption|].
          apply declares_sig in Hd as (? & Hd & _). apply parent_sig in Hd. congruence.
        * pose proof (Hback x Hd) as E. apply Hdd; assumption. }
  split.
  - destruct (w_root s W) as [x0 H0]. exists x0. rewrite Hsig, HD0. exact H0.
  - intros i v. rewrite Hsig. destruct (D i); [discriminate|]. apply (w_next s W).
  - intros i pp kd x. rewrite Hsig. destruct (D i) eqn:Ei; [discriminate|]. intros H1.
    destruct (w_parent s W _ _ _ _ H1) as (HA & HB). split; [exact HA|]. destruct pp as [q|]; [|exact HB].
    destruct HB as (HB & a1 & a2 & a3 & HC & HE). split; [exact HB|]. exists a1, a2, a3. split; [|exact HE].
    rewrite Hsig. destruct (D q) eqn:Eq; [|exact HC]. apply parent_sig in H1.
    rewrite (proj2 (HD i)) in Ei; [discriminate Ei|]. right. exists q. split; assumption.
  - exact HK.
  - intros q. rewrite Hkids. destruct (D q); [constructor|]. destruct (Nat.eqb q p); [|apply (w_nodup s W)].
    pose proof (w_nodup s W p) as H. rewrite Ek in H. apply NoDup_remove_1 in H. exact H.
  - intros q. rewrite <- (app_nil_r (kids_of s' q)), app_nil_r. apply ordered_ext with (s := s).
    + intros i Hi. apply HK in Hi as (x & Hd). apply declares_sig in Hd as (? & Hd & _). rewrite Hsig in *. destruct (D i); [discriminate Hd|reflexivity].
    + rewrite Hkids. destruct (D q); [constructor|]. destruct (Nat.eqb q p); [|apply (w_order s W)].
      apply ordered_remove with (e := e). rewrite <- Ek. apply (w_order s W).
  - intros q x i j. rewrite !Hsig. destruct (D i); [discriminate|]. destruct (D j); [discriminate|]. apply (w_ns s W).
Qed.

Lemma isScope_sig s p : isScope (kind_of s p) = true -> exists pp kd x, sig s p = Some (pp, kd, x) /\ scopeKind kd.
Proof.
  intros H. destruct (kind_of s p) as [kd|] eqn:E; [|discriminate H]. apply sig_of_kind in E as (pp & x & E).
  exists pp, kd, x. split; [exact E|]. unfold scopeKind. destruct kd; try discriminate H; auto.
Qed.

Lemma isCtor_sig s p pp kd x' k x : sig s p = Some (pp, kd, x') ->
  (isCtor s p k x = true <-> k = Member /\ kd = Class /\ x' = x).
Proof.
  intros H. unfold isCtor. rewrite (kind_sig _ _ _ _ _ H), (name_sig _ _ _ _ _ H).
  destruct kd, k; try (split; [discriminate|intros (A & B & _); discriminate]).
  rewrite same_true. intuition congruence.
Qed.

Lemma nothing_wf : wf nothing.
Proof.
  assert (Hs : forall i, sig nothing i = if Nat.eqb i 0 then Some (None, Namespace, []) else None) by (intros [|i]; reflexivity).
  assert (Hk : forall i, kids_of nothing i = []) by (intros [|i]; reflexivity).
  split.
  - exists []. reflexivity.
  - intros [|i] v; cbn; [lia|discriminate].
  - intros [|i] pp kd x; rewrite Hs; cbn [Nat.eqb]; [|discriminate]. intros [= <- <- <-]. split; [reflexivity|reflexivity].
  - intros p k. rewrite Hk. split; [intros []|]. intros (x & Hd). apply declares_sig in Hd as (kd & Hd & _). rewrite Hs in Hd.
    destruct (Nat.eqb k 0); discriminate Hd.
  - intros p. rewrite Hk. constructor.
  - intros p. rewrite Hk. constructor.
  - intros p x i j. rewrite Hs. destruct (Nat.eqb i 0); discriminate.
Qed.

Lemma step_wf s s' : wf s -> step s s' -> wf s'.
Proof.
  intros W H. destruct H.
  - destruct (isScope_sig _ _ H) as (pp & kd & x' & Hp & Hsc).
    apply added_wf with (pp := pp) (kd' := kd) (x' := x'); [exact W|exact Hp|exact H0|intros _; exact Hsc|discriminate| |exact H2].
    left. exists a, b. split; [exact H1|]. split; [reflexivity|]. intros (E & _). discriminate E.
  - destruct (isScope_sig _ _ H) as (pp & kd & x' & Hp & Hsc).
    apply added_wf with (pp := pp) (kd' := kd) (x' := x'); [exact W|exact Hp|exact H0|intros _; exact Hsc| | |exact H3].
    + intros _ i Hi. unfold enterNamespace in H1. pose proof (child_ok s p x W H0) as Hc.
      destruct (child s p x) as [k|]; [destruct (kind_of s k) as [[]|]; discriminate H1|].
      apply (Hc i). apply declares_sig. exists Namespace. split; [exact Hi|]. intros (E & _). discriminate E.
    + left. exists a, b. split; [exact H2|]. split; [reflexivity|]. intros (E & _). discriminate E.
  - destruct (isScope_sig _ _ H) as (pp & kd & x' & Hp & Hsc).
    apply added_wf with (pp := pp) (kd' := kd) (x' := x'); [exact W|exact Hp|exact H0|intros _; exact Hsc|discriminate| |exact H3].
    left. exists a, b. split; [exact H2|]. split; [reflexivity|]. intros E.
    rewrite (proj2 (isCtor_sig s p pp kd x' Member x Hp) E) in H1. discriminate H1.
  - destruct (isScope_sig _ _ H) as (pp & kd & x' & Hp & Hsc).
    apply added_wf with (pp := pp) (kd' := kd) (x' := x'); [exact W|exact Hp|exact H0|intros _; exact Hsc|discriminate| |].
    + right. split; [reflexivity|]. exact (proj1 (isCtor_sig s p pp kd x' Member x Hp) H1).
    + apply ordered_ext with (s := s); [|apply (w_order s W)]. intros i Hi. rewrite sig_added.
      destruct (Nat.eqb_spec i (next s)) as [->|]; [|reflexivity]. exfalso.
      apply (kids_alive s p W) in Hi. destruct (sig s (next s)) as [v|] eqn:E; [|contradiction]. apply (w_next s W) in E. lia.
  - apply sig_of_kind in H as (pp & x' & Hp).
    apply added_wf with (pp := pp) (kd' := Member) (x' := x'); [exact W|exact Hp|exact H0|intros E; contradiction|discriminate| |exact H2].
    left. exists a, b. split; [exact H1|]. split; [reflexivity|]. intros (E & _). discriminate E.
  - eapply drop_wf; eassumption.
Qed.

Lemma reached_wf s : reached s -> wf s.
Proof. induction 1; [apply nothing_wf|]. eapply step_wf; eassumption. Qed.
