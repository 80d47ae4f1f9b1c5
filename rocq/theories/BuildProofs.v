(* Handing on include directories, definitions, flags and libraries. *)
From Coq Require Import Lia ZifyBool ZifyNat.
From Verif Require Import Base StringViewProofs PathProofs BuildModel BuildSpec.

(* ---- lists ---- *)
Lemma upd_length {A} (l : list A) : forall i x, length (upd l i x) = length l.
Proof. induction l as [|y l IH]; intros [|i] x; cbn [upd length]; auto. Qed.
Lemma upd_nth {A} (l : list A) : forall i x j, nth_error (upd l i x) j = if Nat.eqb j i then match nth_error l i with Some _ => Some x | None => None end else nth_error l j.
Proof.
  induction l as [|y l IH]; intros [|i] x [|j]; cbn [upd nth_error Nat.eqb]; try reflexivity; [destruct (Nat.eqb j i); reflexivity|apply IH].
Qed.
Lemma set_length ns d n : length (setNode ns d n) = length ns.
Proof. unfold setNode. destruct (nth_error ns d); [apply upd_length|reflexivity]. Qed.
Lemma node_set ns d n0 n e : node ns d = Some n0 -> node (setNode ns d n) e = if Nat.eqb e d then Some n else node ns e.
Proof.
  unfold node, setNode. destruct (nth_error ns d) as [x|] eqn:E; [|discriminate]. intros _. rewrite upd_nth, E. destruct (Nat.eqb e d); reflexivity.
Qed.
Lemma node_set_same ns d n0 n : node ns d = Some n0 -> node (setNode ns d n) d = Some n.
Proof. intros H. rewrite (node_set _ _ _ _ _ H), Nat.eqb_refl. reflexivity. Qed.
Lemma node_set_other ns d n e : e <> d -> node (setNode ns d n) e = node ns e.
Proof.
  intros H. unfold node, setNode. destruct (nth_error ns d) as [x|] eqn:E; [|reflexivity]. rewrite upd_nth. destruct (Nat.eqb_spec e d); [contradiction|reflexivity].
Qed.
Lemma nodup_snoc {A} (l : list A) x : NoDup l -> ~ In x l -> NoDup (l ++ [x]).
Proof. intros N H. apply NoDup_rev in N. rewrite <- (rev_involutive (l ++ [x])), rev_app_distr. apply NoDup_rev. cbn [rev app]. constructor; [rewrite <- in_rev; exact H|exact N]. Qed.
Section Merge.
Context {A : Type} (eqb : A -> A -> bool) (Heq : forall x y, eqb x y = true <-> x = y).
Lemma existsb_in x (l : list A) : existsb (eqb x) l = true <-> In x l.
Proof. rewrite existsb_exists. split; [intros (y & I & E); apply Heq in E; subst; exact I|intros I; exists x; split; [exact I|apply Heq; reflexivity]]. Qed.
Lemma merge_ok src : forall dst, (forall x, In x (merge eqb dst src) <-> In x dst \/ In x src) /\ (exists more, merge eqb dst src = dst ++ more) /\ (NoDup dst -> NoDup (merge eqb dst src)).
Proof.
  induction src as [|y src IH]; intros dst; cbn [merge fold_left]; [split; [intros x; cbn [In]; tauto|split; [exists []; symmetry; apply app_nil_r|auto]]|].
  destruct (existsb (eqb y) dst) eqn:E.
  - destruct (IH dst) as (I & M & N). split; [|auto]. intros x. unfold merge in I. rewrite I. apply existsb_in in E. cbn [In]. split; [tauto|]. intros [H|[<-|H]]; auto.
  - destruct (IH (dst ++ [y])) as (I & (more & M) & N). split; [|split].
    + intros x. unfold merge in I. rewrite I. rewrite in_app_iff. cbn [In]. tauto.
    + exists (y :: more). unfold merge in M. rewrite M, <- app_assoc. reflexivity.
    + intros Nd. apply N. apply nodup_snoc; [exact Nd|]. intros X. apply existsb_in in X. congruence.
Qed.
End Merge.

Lemma valueOf_in k v ds : valueOf k ds = Some v -> In (k, v) ds.
Proof. unfold valueOf. destruct (find (fun p => bytes_eqb (fst p) k) ds) as [(k', v')|] eqn:F; [|discriminate]. cbn. intros [= <-]. apply find_some in F. destruct F as (I & E). cbn in E. apply bytes_eqb_eq in E. subst. exact I. Qed.
Lemma valueOf_none k ds : valueOf k ds = None <-> ~ In k (map fst ds).
Proof.
  unfold valueOf. induction ds as [|(k', v) ds IH]; cbn [find map fst In]; [split; [intros _ []|reflexivity]|]. destruct (bytes_eqb_spec k' k) as [->|N]; cbn; [split; [discriminate|intros H; exfalso; apply H; left; reflexivity]|]. rewrite IH. split; [intros H [X|X]; auto|intros H X; apply H; right; exact X].
Qed.
Lemma in_valueOf k v ds : NoDup (map fst ds) -> In (k, v) ds -> valueOf k ds = Some v.
Proof.
  unfold valueOf. induction ds as [|(k', v') ds IH]; cbn [find map fst In]; [intros _ []|]. intros N I. inversion N as [|x y N1 N2]; subst. destruct (bytes_eqb_spec k' k) as [->|Hk]; cbn.
  - destruct I as [I|I]; [congruence|]. exfalso. apply N1. apply in_map_iff. exists (k, v). auto.
  - destruct I as [I|I]; [congruence|]. apply IH; assumption.
Qed.
Lemma valueOf_app k a b : valueOf k (a ++ b) = match valueOf k a with Some v => Some v | None => valueOf k b end.
Proof. unfold valueOf. induction a as [|(k', v) a IH]; cbn [app find]; [reflexivity|]. destruct (bytes_eqb _ k); [reflexivity|exact IH]. Qed.
Lemma key_value k (ds : list (text * text)) : In k (map fst ds) -> exists v, In (k, v) ds.
Proof. intros I. apply in_map_iff in I. destruct I as ((k', v) & <- & I). eauto. Qed.
Lemma in_key k (v : text) (ds : list (text * text)) : In (k, v) ds -> In k (map fst ds).
Proof. intros I. apply in_map_iff. exists (k, v). auto. Qed.
Lemma mergeDefines_ok src : forall dst r es, mergeDefines dst src = (r, es) ->
  (exists more, r = dst ++ more) /\ (NoDup (map fst dst) -> NoDup (map fst r)) /\ (forall p, In p r -> In p dst \/ In p src) /\
  (forall k v, In (k, v) src -> In k (map fst r)) /\ (es = [] <-> forall k v, In (k, v) src -> valueOf k r = Some v).
Proof.
  induction src as [|(k, v) src IH]; intros dst r es H; cbn [mergeDefines] in H.
  - injection H as <- <-. split; [exists []; symmetry; apply app_nil_r|]. split; [auto|]. split; [auto|]. split; [intros k v []|]. split; [intros _ k v []|reflexivity].
  - destruct (valueOf k dst) as [v'|] eqn:V.
    + destruct (mergeDefines dst src) as (r0, es0) eqn:M. injection H as <- <-. destruct (IH _ _ _ M) as ((more & E) & N & S & K & Z). split; [eauto|]. split; [exact N|]. split; [intros p I; destruct (S p I); [auto|right; right; assumption]|].
      assert (Vr : valueOf k r0 = Some v') by (rewrite E, valueOf_app, V; reflexivity). split.
      * intros k1 v1 [I|I]; [injection I as <- <-; apply valueOf_in in Vr; exact (in_key _ _ _ Vr)|exact (K _ _ I)].
      * destruct (bytes_eqb_spec v' v) as [->|Nv].
        -- rewrite Z. split; [intros A k1 v1 [I|I]; [injection I as <- <-; exact Vr|auto]|intros A k1 v1 I; apply A; right; exact I].
        -- split; [discriminate|]. intros A. specialize (A k v (or_introl eq_refl)). congruence.
    + destruct (IH _ _ _ H) as ((more & E) & N & S & K & Z). assert (Vr : valueOf k r = Some v) by (rewrite E, !valueOf_app, V; unfold valueOf; cbn [find fst]; destruct (bytes_eqb_spec k k); [reflexivity|congruence]).
      split; [exists ((k, v) :: more); rewrite E, <- app_assoc; reflexivity|]. split.
      { intros Nd. apply N. rewrite map_app. apply nodup_snoc; [exact Nd|]. apply valueOf_none. exact V. }
      split; [intros p I; destruct (S p I) as [X|X]; [apply in_app_or in X; destruct X as [X|[<-|[]]]; [auto|right; left; reflexivity]|right; right; exact X]|]. split.
      * intros k1 v1 [I|I]; [injection I as <- <-; apply valueOf_in in Vr; exact (in_key _ _ _ Vr)|exact (K _ _ I)].
      * rewrite Z. split; [intros A k1 v1 [I|I]; [injection I as <- <-; exact Vr|auto]|intros A k1 v1 I; apply A; right; exact I].
Qed.
Lemma setDef_ok ds k v : (NoDup (map fst ds) -> NoDup (map fst (setDef ds k v))) /\ (NoDup (map fst ds) -> In (k, v) (setDef ds k v)) /\ (forall k', In k' (map fst (setDef ds k v)) <-> k' = k \/ In k' (map fst ds)) /\
  (forall k' v', k' <> k -> In (k', v') (setDef ds k v) <-> In (k', v') ds).
Proof.
  induction ds as [|(k0, v0) ds (I1 & I2 & I3 & I4)]; cbn [setDef].
  - cbn [map fst In]. split; [repeat constructor; auto|]. split; [auto|]. split; [intros k'; split; intros [H|H]; auto|]. intros k' v' N. split; [intros [H|[]]; congruence|intros []].
  - destruct (bytes_eqb_spec k0 k) as [->|N]; cbn [map fst In].
    + split; [auto|]. split; [auto|]. split; [intros k'; split; intros H; [tauto|destruct H as [->|[->|H]]; auto]|]. intros k' v' Nk. split; intros [H|H]; auto; congruence.
    + split; [|split; [|split]].
      * intros Nd. inversion Nd as [|x y N1 N2]; subst. constructor; [|auto]. intros X. apply I3 in X. destruct X; congruence.
      * intros Nd. inversion Nd as [|x y N1 N2]; subst. right. auto.
      * intros k'. rewrite I3. split; intros H; tauto.
      * intros k' v' Nk. rewrite (I4 k' v' Nk). reflexivity.
Qed.
Lemma addNew_ok x l : (forall y, In y (addNew x l) <-> In y l \/ y = x) /\ exists more, addNew x l = l ++ more.
Proof.
  unfold addNew. destruct (existsb (bytes_eqb x) l) eqn:E.
  - apply (existsb_in _ bytes_eqb_eq) in E. split; [intros y; split; [auto|intros [H| ->]; auto]|exists []; symmetry; apply app_nil_r].
  - split; [intros y; rewrite in_app_iff; cbn [In]; split; [intros [H|[H|[]]]; auto|intros [H|H]; auto]|eauto].
Qed.
Lemma onat_eqb_eq a b : onat_eqb a b = true <-> a = b.
Proof. destruct a as [x|], b as [y|]; cbn; try (split; congruence). rewrite Nat.eqb_eq. split; congruence. Qed.

(* ---- linkage ---- *)
(** The definitions set for the dependencies in a list. *)
Definition keyFor (ns : list entry) (ct : option nat) (b : nat) : list text :=
  match node ns b with
  | Some x =>
    match tgt x with
    | Some u => match container u with Some _ => if 0 <? zlen (prefix u) then [prefix u ++ (if onat_eqb (container u) ct then exporting else importing)] else [] | None => [] end
    | None => []
    end
  | None => []
  end.
Definition withDefs (t : target) (ds : list (text * text)) : target := mktarget (tkind t) (tname t) (container t) (prefix t) (privIncs t) ds (privFlags t) (anySources t).
Definition loose (ns : list entry) (b : nat) : Prop := exists x u, node ns b = Some x /\ tgt x = Some u /\ container u = None.
Lemma linkage_ok ns bs : forall t, (forall b, In b bs -> node ns b <> None) ->
  match linkage ns bs t with
  | Some t' => t' = withDefs t (fold_left (fun ds k => setDef ds k one) (flat_map (keyFor ns (container t)) bs) (privDefs t)) /\ (container t = None \/ forall b, In b bs -> ~ loose ns b)
  | None => container t <> None /\ exists b, In b bs /\ loose ns b
  end.
Proof.
  induction bs as [|b bs IH]; intros t H; cbn [linkage flat_map fold_left]; [destruct t; split; [reflexivity|right; intros b []]|].
  assert (H' : forall b, In b bs -> node ns b <> None) by (intros b' I; apply H; right; exact I). pose proof (H b (or_introl eq_refl)) as Hb. destruct (node ns b) as [x|] eqn:Nb; [clear Hb|congruence].
  assert (Skip : forall t2, container t2 = container t -> ~ loose ns b \/ container t = None -> forall ds, t2 = withDefs t ds ->
    match linkage ns bs t2 with
    | Some t' => t' = withDefs t (fold_left (fun ds k => setDef ds k one) (flat_map (keyFor ns (container t)) bs) ds) /\ (container t = None \/ forall b', In b' (b :: bs) -> ~ loose ns b')
    | None => container t <> None /\ exists b', In b' (b :: bs) /\ loose ns b' end).
  { intros t2 E2 L ds Eds. specialize (IH t2 H'). destruct (linkage ns bs t2) as [t'|].
    - destruct IH as (E & B). subst t2. cbn [container withDefs] in *. split; [exact E|]. destruct B as [B|B]; [auto|]. destruct L as [L|L]; [|auto]. right. intros b' [<-|I]; auto.
    - destruct IH as (E & b' & I & B). rewrite E2 in E. split; [exact E|]. exists b'. split; [right; exact I|exact B]. }
  assert (Eself : t = withDefs t (privDefs t)) by (destruct t; reflexivity).
  unfold keyFor at 1. rewrite Nb. destruct (tgt x) as [u|] eqn:Tx.
  - destruct (container u) as [k|] eqn:Cu.
    + assert (Nl : ~ loose ns b) by (intros (x' & u' & A & B & C); congruence). destruct (0 <? zlen (prefix u)).
      * rewrite fold_left_app. cbn [fold_left]. apply Skip; [reflexivity|auto|reflexivity].
      * cbn [app]. apply Skip; auto.
    + cbn [app]. destruct (container t) eqn:Ct; [|apply Skip; auto]. split; [discriminate|]. exists b. split; [left; reflexivity|]. exists x, u. auto.
  - cbn [app]. apply Skip; [reflexivity| |exact Eself]. left. intros (x' & u' & A & B & C). congruence.
Qed.
Lemma setDefs_ok ks : forall ds, let r := fold_left (fun ds k => setDef ds k one) ks ds in
  NoDup (map fst ds) -> NoDup (map fst r) /\ (forall k, In k ks -> In (k, one) r) /\ (forall k v, ~ In k ks -> In (k, v) r <-> In (k, v) ds) /\ (forall k, In k (map fst r) <-> In k ks \/ In k (map fst ds)).
Proof.
  induction ks as [|k ks IH]; intros ds; cbn [fold_left]; intros N.
  - split; [exact N|]. split; [intros k []|]. split; [reflexivity|]. intros k. cbn [In]. tauto.
  - destruct (setDef_ok ds k one) as (S1 & S2 & S3 & S4). destruct (IH (setDef ds k one) (S1 N)) as (I1 & I2 & I3 & I4). split; [exact I1|]. split; [|split].
    + intros k' [<-|I]; [|auto]. destruct (in_dec (list_eq_dec Z.eq_dec) k ks) as [J|J]; [auto|]. apply I3; auto.
    + intros k' v H. cbn [In] in H. rewrite I3 by tauto. apply S4. intros ->. apply H. left. reflexivity.
    + intros k'. rewrite I4, S3. cbn [In]. split; [intros [H|[H|H]]; auto|intros [[H|H]|H]; auto].
Qed.

Section Hand.
Context (ns : list entry).
Hypothesis Hcl : closed ns.
Hypothesis Hfr : fresh ns.
Hypothesis Hk : keyed ns.
Definition stat (n n' : dep) : Prop := deps n' = deps n /\ match tgt n, tgt n' with Some t, Some t' => sameTarget t t' | None, None => True | _, _ => False end.
Definition statW (w : world) : Prop := forall k, match node ns k, node (nodes w) k with Some n, Some n' => stat n n' | None, None => True | _, _ => False end.
Lemma stat_refl n : stat n n.
Proof. split; [reflexivity|]. destruct (tgt n); [repeat split|exact I]. Qed.
Definition grown {A} (f0 f : list A) : Prop := exists more, f = f0 ++ more /\ (NoDup f0 -> NoDup f).
Lemma grown_refl {A} (f : list A) : grown f f.
Proof. exists []. split; [symmetry; apply app_nil_r|auto]. Qed.
Lemma grown_merge {A} eqb (Heq : forall x y : A, eqb x y = true <-> x = y) f0 f src : grown f0 f -> grown f0 (merge eqb f src).
Proof. intros (m & E & N). destruct (merge_ok eqb Heq src f) as (_ & (m' & E') & N'). exists (m ++ m'). split; [rewrite E', E, app_assoc; reflexivity|auto]. Qed.

Lemma static_direct d c n m n' m' : node ns d = Some n -> node ns c = Some m -> stat n n' -> stat m m' -> staticLink n' m' = true <-> direct_link ns d c.
Proof.
  intros Nd Nc (_ & Sn) (_ & Sm). unfold staticLink, direct_link. destruct (tgt n) as [t|] eqn:Tn, (tgt n') as [t'|] eqn:Tn'; try contradiction; [|split; [intros _ n1 m1 t1 u1 A B C D; congruence|reflexivity]].
  destruct (tgt m) as [u|] eqn:Tm, (tgt m') as [u'|] eqn:Tm'; try contradiction; [|split; [intros _ n1 m1 t1 u1 A B C D; congruence|reflexivity]].
  destruct Sn as (_ & _ & Cn & _), Sm as (_ & _ & Cm & _). rewrite onat_eqb_eq, Cn, Cm. split; [intros E n1 m1 t1 u1 A B C D|intros H; exact (H n m t u Nd Nc Tn Tm)].
  assert (n1 = n) by congruence. assert (m1 = m) by congruence. subst. congruence.
Qed.
(** What a child contributes to the libraries. *)
Definition lstep (d c : nat) (x : text) : Prop :=
  (direct_link ns d c /\ (linked ns c x \/ exists m u, node ns c = Some m /\ tgt m = Some u /\ tkind u <> HeaderOnly /\ x = libName u)) \/
  (~ direct_link ns d c /\ exists m u k y t, node ns c = Some m /\ tgt m = Some u /\ container u = Some k /\ node ns k = Some y /\ tgt y = Some t /\ x = tname t).
Definition chained (d c : nat) : Prop := ~ direct_link ns d c -> forall m u, node ns c = Some m -> tgt m = Some u -> exists k x t, container u = Some k /\ node ns k = Some x /\ tgt x = Some t.
Definition via {A} (n0 : dep) (P : list (vis * nat)) (f : dep -> list A) (x : A) : Prop := In x (f n0) \/ exists c, In (Public, c) P /\ offered ns f c x.
Definition viaAll {A} (P : list (vis * nat)) (f : dep -> list A) (x : A) : Prop := exists v c, In (v, c) P /\ offered ns f c x.
Record half (d : nat) (n0 : dep) (P : list (vis * nat)) (n : dep) (b : list nat) : Prop := mkhalf {
  h_deps : deps n = deps n0;
  h_done : done n = false;
  h_seen : NoDup (seen n) /\ forall e, In e (seen n) <-> e = d \/ exists c, In (Public, c) P /\ shows ns c e;
  h_b : forall e, In e b <-> e = d \/ exists v c, In (v, c) P /\ shows ns c e;
  h_incs : grown (incs n0) (incs n) /\ forall x, In x (incs n) <-> via n0 P incs x;
  h_flags : grown (flags n0) (flags n) /\ forall x, In x (flags n) <-> via n0 P flags x;
  h_defs : (exists more, defs n = defs n0 ++ more) /\ NoDup (map fst (defs n)) /\ (forall k v, In (k, v) (defs n) -> via n0 P defs (k, v)) /\ (forall k v, via n0 P defs (k, v) -> In k (map fst (defs n)));
  h_libs : (exists more, libs n = libs n0 ++ more) /\ forall x, In x (libs n) <-> In x (libs n0) \/ exists v c, In (v, c) P /\ lstep d c x;
  h_dlls : (exists more, dlls n = dlls n0 ++ more) /\ forall x, In x (dlls n) <-> In x (dlls n0) \/ exists v c, In (v, c) P /\ direct_link ns d c /\ along ns dlls c x;
  h_frames : (exists more, frames n = frames n0 ++ more) /\ forall x, In x (frames n) <-> In x (frames n0) \/ exists v c, In (v, c) P /\ direct_link ns d c /\ along ns frames c x;
  h_tgt : match tgt n0, tgt n with
    | None, None => True
    | Some t, Some t' =>
      sameTarget t t' /\ (grown (privIncs t) (privIncs t') /\ forall x, In x (privIncs t') <-> In x (privIncs t) \/ viaAll P incs x) /\
      (grown (privFlags t) (privFlags t') /\ forall x, In x (privFlags t') <-> In x (privFlags t) \/ viaAll P flags x) /\
      (exists more, privDefs t' = privDefs t ++ more) /\ NoDup (map fst (privDefs t')) /\ (forall k v, In (k, v) (privDefs t') -> In (k, v) (privDefs t) \/ viaAll P defs (k, v)) /\
      (forall k v, viaAll P defs (k, v) -> In k (map fst (privDefs t')))
    | _, _ => False
    end;
  h_chain : forall v c, In (v, c) P -> chained d c }.
(** All definitions so far are there, with their values. *)
Definition agree (n0 : dep) (P : list (vis * nat)) (n : dep) : Prop :=
  (forall k v, via n0 P defs (k, v) -> In (k, v) (defs n)) /\
  (forall t t', tgt n0 = Some t -> tgt n = Some t' -> forall k v, In (k, v) (privDefs t) \/ viaAll P defs (k, v) -> In (k, v) (privDefs t')).

Lemma pub_snoc {Q : nat -> Prop} P v c : (exists c', In (Public, c') (P ++ [(v, c)]) /\ Q c') <-> (exists c', In (Public, c') P /\ Q c') \/ (v = Public /\ Q c).
Proof.
  split.
  - intros (c' & I & H). apply in_app_or in I. destruct I as [I|[I|[]]]; [left; eauto|]. injection I as -> ->. right. auto.
  - intros [(c' & I & H)|(-> & H)]; [exists c'; split; [apply in_or_app; left; exact I|exact H]|exists c; split; [apply in_or_app; right; left; reflexivity|exact H]].
Qed.
Lemma any_snoc {Q : nat -> Prop} P (v : vis) c : (exists v' c', In (v', c') (P ++ [(v, c)]) /\ Q c') <-> (exists v' c', In (v', c') P /\ Q c') \/ Q c.
Proof.
  split.
  - intros (v' & c' & I & H). apply in_app_or in I. destruct I as [I|[I|[]]]; [left; eauto|]. injection I as -> ->. right. auto.
  - intros [(v' & c' & I & H)|H]; [exists v', c'; split; [apply in_or_app; left; exact I|exact H]|exists v, c; split; [apply in_or_app; right; left; reflexivity|exact H]].
Qed.
Lemma via_snoc {A} n0 P v c (f : dep -> list A) x : via n0 (P ++ [(v, c)]) f x <-> via n0 P f x \/ (v = Public /\ offered ns f c x).
Proof. unfold via. rewrite pub_snoc. tauto. Qed.
Lemma viaAll_snoc {A} P v c (f : dep -> list A) x : viaAll (P ++ [(v, c)]) f x <-> viaAll P f x \/ offered ns f c x.
Proof. unfold viaAll. exact (any_snoc (Q := fun c => offered ns f c x) P v c). Qed.
Lemma nat_eqb_eq x y : Nat.eqb x y = true <-> x = y.
Proof. apply Nat.eqb_eq. Qed.

Lemma defs_step (D0 D src r : list (text * text)) es (Q0 Qc : text * text -> Prop) : mergeDefines D src = (r, es) ->
  (exists more, D = D0 ++ more) -> NoDup (map fst D) -> (forall k v, In (k, v) D -> Q0 (k, v)) -> (forall k v, Q0 (k, v) -> In k (map fst D)) ->
  (forall k v, In (k, v) src -> Qc (k, v)) -> (forall k v, Qc (k, v) -> In k (map fst src)) ->
  (exists more, r = D0 ++ more) /\ NoDup (map fst r) /\ (forall k v, In (k, v) r -> Q0 (k, v) \/ Qc (k, v)) /\ (forall k v, Q0 (k, v) \/ Qc (k, v) -> In k (map fst r)) /\
  (es = [] -> (forall k v, Q0 (k, v) -> In (k, v) D) -> (forall k v, Qc (k, v) -> In (k, v) src) -> forall k v, Q0 (k, v) \/ Qc (k, v) -> In (k, v) r) /\
  ((forall k v v', Q0 (k, v) \/ Qc (k, v) -> Q0 (k, v') \/ Qc (k, v') -> v = v') -> es = []).
Proof.
  intros M (m0 & E0) N S K Sc Kc. destruct (mergeDefines_ok _ _ _ _ M) as ((more & E) & N' & S' & K' & Z). specialize (N' N).
  assert (Kr : forall k v, Q0 (k, v) \/ Qc (k, v) -> In k (map fst r)).
  { intros k v [H|H]; [apply K in H; rewrite E, map_app; apply in_or_app; left; exact H|]. apply Kc, key_value in H. destruct H as (v' & H). exact (K' _ _ H). }
  assert (Sr : forall k v, In (k, v) r -> Q0 (k, v) \/ Qc (k, v)) by (intros k v I; destruct (S' _ I) as [H|H]; [left; apply S; exact H|right; apply Sc; exact H]).
  split; [exists (m0 ++ more); rewrite E, E0, app_assoc; reflexivity|]. split; [exact N'|]. split; [exact Sr|]. split; [exact Kr|]. split.
  - intros Ez A Ac k v [H|H]; [rewrite E; apply in_or_app; left; apply A; exact H|]. apply valueOf_in. apply (proj1 Z Ez). apply Ac. exact H.
  - intros F. apply Z. intros k v I. pose proof (K' _ _ I) as X. apply key_value in X. destruct X as (v' & X). assert (v' = v) by (apply (F k); [apply Sr; exact X|right; apply Sc; exact I]). subst. apply in_valueOf; assumption.
Qed.
Lemma merge_step (f0 f src : list text) (Q0 Qc : text -> Prop) : grown f0 f /\ (forall x, In x f <-> Q0 x) -> (forall x, In x src <-> Qc x) ->
  grown f0 (merge bytes_eqb f src) /\ forall x, In x (merge bytes_eqb f src) <-> Q0 x \/ Qc x.
Proof.
  intros (G & I) Ic. split; [apply grown_merge; [apply bytes_eqb_eq|exact G]|]. intros x. destruct (merge_ok bytes_eqb bytes_eqb_eq src f) as (J & _). rewrite J, I, Ic. reflexivity.
Qed.
Lemma merge_step' (f0 f src : list text) (Q0 Qc : text -> Prop) : (exists more, f = f0 ++ more) /\ (forall x, In x f <-> Q0 x) -> (forall x, In x src <-> Qc x) ->
  (exists more, merge bytes_eqb f src = f0 ++ more) /\ forall x, In x (merge bytes_eqb f src) <-> Q0 x \/ Qc x.
Proof.
  intros ((m & E) & I) Ic. destruct (merge_ok bytes_eqb bytes_eqb_eq src f) as (J & (m' & E') & _). split; [exists (m ++ m'); rewrite E', E, app_assoc; reflexivity|]. intros x. rewrite J, I, Ic. reflexivity.
Qed.
Lemma add_step (f0 f : list text) y (Q0 : text -> Prop) : (exists more, f = f0 ++ more) /\ (forall x, In x f <-> Q0 x) ->
  (exists more, addNew y f = f0 ++ more) /\ forall x, In x (addNew y f) <-> Q0 x \/ x = y.
Proof.
  intros ((m & E) & I). destruct (addNew_ok y f) as (J & (m' & E')). split; [exists (m ++ m'); rewrite E', E, app_assoc; reflexivity|]. intros x. rewrite J, I. reflexivity.
Qed.

Lemma absorb_ok w d n0 P v c m0 n m b : statW w -> node ns d = Some n0 -> node ns c = Some m0 -> node (nodes w) d = Some n -> node (nodes w) c = Some m ->
  half d n0 P n b -> handed ns c m0 m ->
  match absorb (nodes w) v n m b with
  | None => ~ chained d c
  | Some (n', b', es) => half d n0 (P ++ [(v, c)]) n' b' /\
     (es = [] -> agree n0 P n -> (forall k x, offered ns defs c (k, x) -> In (k, x) (defs m)) -> agree n0 (P ++ [(v, c)]) n') /\
     ((forall k x x', via n0 (P ++ [(v, c)]) defs (k, x) -> via n0 (P ++ [(v, c)]) defs (k, x') -> x = x') ->
      (forall t, tgt n0 = Some t -> forall k x x', In (k, x) (privDefs t) \/ viaAll (P ++ [(v, c)]) defs (k, x) -> In (k, x') (privDefs t) \/ viaAll (P ++ [(v, c)]) defs (k, x') -> x = x') -> es = [])
  end.
Proof.
  intros SW Nd Nc Wd Wc H Hc.
  assert (Sn : stat n0 n). { split; [exact (h_deps _ _ _ _ _ H)|]. pose proof (h_tgt _ _ _ _ _ H) as T. destruct (tgt n0), (tgt n); try exact T. exact (proj1 T). }
  assert (Sm : stat m0 m). { split; [exact (hd_deps _ _ _ _ Hc)|]. pose proof (hd_tgt _ _ _ _ Hc) as T. destruct (tgt m0), (tgt m); try exact T. exact (proj1 T). }
  pose proof (static_direct d c n0 m0 n m Nd Nc Sn Sm) as SD.
  destruct (hd_defs _ _ _ _ Hc) as (_ & _ & Dc & Dck). destruct (h_defs _ _ _ _ _ H) as (Dm & Dn & Ds & Dk).
  unfold absorb.
  (* the target *)
  match goal with |- context [let '(_, _) := match tgt n with Some t => _ | None => _ end in _] => idtac end.
  set (T := match tgt n with Some t => _ | None => _ end).
  assert (HT : match tgt n0, fst T with
    | None, None => True
    | Some t, Some t' =>
      sameTarget t t' /\ (grown (privIncs t) (privIncs t') /\ forall x, In x (privIncs t') <-> In x (privIncs t) \/ viaAll (P ++ [(v, c)]) incs x) /\
      (grown (privFlags t) (privFlags t') /\ forall x, In x (privFlags t') <-> In x (privFlags t) \/ viaAll (P ++ [(v, c)]) flags x) /\
      (exists more, privDefs t' = privDefs t ++ more) /\ NoDup (map fst (privDefs t')) /\ (forall k v', In (k, v') (privDefs t') -> In (k, v') (privDefs t) \/ viaAll (P ++ [(v, c)]) defs (k, v')) /\
      (forall k v', viaAll (P ++ [(v, c)]) defs (k, v') -> In k (map fst (privDefs t')))
    | _, _ => False end /\
    (snd T = [] -> agree n0 P n -> (forall k x, offered ns defs c (k, x) -> In (k, x) (defs m)) ->
       forall t t', tgt n0 = Some t -> fst T = Some t' -> forall k x, In (k, x) (privDefs t) \/ viaAll (P ++ [(v, c)]) defs (k, x) -> In (k, x) (privDefs t')) /\
    ((forall t, tgt n0 = Some t -> forall k x x', In (k, x) (privDefs t) \/ viaAll (P ++ [(v, c)]) defs (k, x) -> In (k, x') (privDefs t) \/ viaAll (P ++ [(v, c)]) defs (k, x') -> x = x') -> snd T = [])).
  { unfold T. pose proof (h_tgt _ _ _ _ _ H) as HT. destruct (tgt n0) as [t|] eqn:T0, (tgt n) as [t'|] eqn:T1; try contradiction; [|split; [exact I|]; split; [intros _ _ _ t t' A; discriminate|reflexivity]].
    destruct HT as (Same & PI & PF & PM & PN & PS & PK). destruct (mergeDefines (privDefs t') (defs m)) as (pd, e) eqn:M. cbn [fst snd privIncs privFlags privDefs].
    assert (PK' : forall k v0, In (k, v0) (privDefs t) \/ viaAll P defs (k, v0) -> In k (map fst (privDefs t'))).
    { intros k v0 [X|X]; [|exact (PK _ _ X)]. destruct PM as (mo & PM). rewrite PM, map_app. apply in_or_app. left. exact (in_key _ _ _ X). }
    destruct (defs_step (privDefs t) (privDefs t') (defs m) pd e (fun p => In p (privDefs t) \/ viaAll P defs p) (fun p => offered ns defs c p) M PM PN PS PK' Dc Dck) as (Q1 & Q2 & Q3 & Q4 & Q5 & Q6).
    cbn beta in *. split; [|split].
    - split; [exact Same|]. split; [|split; [|split; [exact Q1|split; [exact Q2|split]]]].
      + destruct (merge_step (privIncs t) (privIncs t') (incs m) _ (offered ns incs c) PI (proj2 (hd_incs _ _ _ _ Hc))) as (G & J). split; [exact G|]. intros x. rewrite J, viaAll_snoc. tauto.
      + destruct (merge_step (privFlags t) (privFlags t') (flags m) _ (offered ns flags c) PF (proj2 (hd_flags _ _ _ _ Hc))) as (G & J). split; [exact G|]. intros x. rewrite J, viaAll_snoc. tauto.
      + intros k v0 X. rewrite viaAll_snoc. specialize (Q3 k v0 X). tauto.
      + intros k v0 X. rewrite viaAll_snoc in X. apply (Q4 k v0). tauto.
    - intros Ez (_ & A) Ac t1 t2 E1 E2 k x X. injection E1 as <-. injection E2 as <-. cbn [privDefs]. apply Q5; [exact Ez|intros k0 v0; apply (A t t'); auto|exact Ac|]. rewrite viaAll_snoc in X. tauto.
    - intros F. apply Q6. intros k x x' X X'. apply (F t eq_refl k); rewrite viaAll_snoc; tauto. }
  destruct T as (tgt', e1). cbn [fst snd] in HT. destruct HT as (HT & HTa & HTc).
  (* the definitions *)
  set (D := if isPublic v then mergeDefines (defs n) (defs m) else (defs n, [])).
  assert (HD : ((exists more, fst D = defs n0 ++ more) /\ NoDup (map fst (fst D)) /\ (forall k x, In (k, x) (fst D) -> via n0 (P ++ [(v, c)]) defs (k, x)) /\ (forall k x, via n0 (P ++ [(v, c)]) defs (k, x) -> In k (map fst (fst D)))) /\
    (snd D = [] -> agree n0 P n -> (forall k x, offered ns defs c (k, x) -> In (k, x) (defs m)) -> forall k x, via n0 (P ++ [(v, c)]) defs (k, x) -> In (k, x) (fst D)) /\
    ((forall k x x', via n0 (P ++ [(v, c)]) defs (k, x) -> via n0 (P ++ [(v, c)]) defs (k, x') -> x = x') -> snd D = [])).
  { unfold D. destruct v; cbn [isPublic].
    - cbn [fst snd]. split; [|split; [|reflexivity]].
      + split; [exact Dm|]. split; [exact Dn|]. split; [intros k x X; rewrite via_snoc; left; apply Ds; exact X|]. intros k x X. rewrite via_snoc in X. destruct X as [X|(X & _)]; [exact (Dk _ _ X)|discriminate].
      + intros _ (A & _) _ k x X. rewrite via_snoc in X. destruct X as [X|(X & _)]; [exact (A _ _ X)|discriminate].
    - destruct (mergeDefines (defs n) (defs m)) as (pd, e) eqn:M. cbn [fst snd].
      destruct (defs_step (defs n0) (defs n) (defs m) pd e (fun p => via n0 P defs p) (fun p => offered ns defs c p) M Dm Dn Ds Dk Dc Dck) as (Q1 & Q2 & Q3 & Q4 & Q5 & Q6).
      cbn beta in *. split; [|split].
      + split; [exact Q1|]. split; [exact Q2|]. split; [intros k x X; rewrite via_snoc; specialize (Q3 k x X); tauto|]. intros k x X. rewrite via_snoc in X. apply (Q4 k x). tauto.
      + intros Ez (A & _) Ac k x X. rewrite via_snoc in X. apply Q5; [exact Ez|exact A|exact Ac|tauto].
      + intros F. apply Q6. intros k x x' X X'. apply (F k); rewrite via_snoc; tauto. }
  destruct D as (defs', e2). cbn [fst snd] in HD. destruct HD as (HD & HDa & HDc).
  set (incs' := if isPublic v then merge bytes_eqb (incs n) (incs m) else incs n).
  assert (HI : grown (incs n0) incs' /\ forall x, In x incs' <-> via n0 (P ++ [(v, c)]) incs x).
  { unfold incs'. destruct v; cbn [isPublic].
    - destruct (h_incs _ _ _ _ _ H) as (G & J). split; [exact G|]. intros x. rewrite J, via_snoc. split; [auto|]. intros [X|(X & _)]; [exact X|discriminate].
    - destruct (merge_step _ _ _ _ _ (h_incs _ _ _ _ _ H) (proj2 (hd_incs _ _ _ _ Hc))) as (G & J). split; [exact G|]. intros x. rewrite J, via_snoc. tauto. }
  set (flags' := if isPublic v then merge bytes_eqb (flags n) (flags m) else flags n).
  assert (HF : grown (flags n0) flags' /\ forall x, In x flags' <-> via n0 (P ++ [(v, c)]) flags x).
  { unfold flags'. destruct v; cbn [isPublic].
    - destruct (h_flags _ _ _ _ _ H) as (G & J). split; [exact G|]. intros x. rewrite J, via_snoc. split; [auto|]. intros [X|(X & _)]; [exact X|discriminate].
    - destruct (merge_step _ _ _ _ _ (h_flags _ _ _ _ _ H) (proj2 (hd_flags _ _ _ _ Hc))) as (G & J). split; [exact G|]. intros x. rewrite J, via_snoc. tauto. }
  set (seen' := if isPublic v then merge Nat.eqb (seen n) (seen m) else seen n).
  assert (HS : NoDup seen' /\ forall e, In e seen' <-> e = d \/ exists c', In (Public, c') (P ++ [(v, c)]) /\ shows ns c' e).
  { destruct (h_seen _ _ _ _ _ H) as (N & J). destruct (hd_seen _ _ _ _ Hc) as (_ & Jc). unfold seen'. destruct v; cbn [isPublic].
    - split; [exact N|]. intros e. rewrite J, (pub_snoc (Q := fun c' => shows ns c' e)). split; [tauto|]. intros [X|[X|(X & _)]]; [auto|auto|discriminate].
    - destruct (merge_ok Nat.eqb nat_eqb_eq (seen m) (seen n)) as (K & _ & N'). split; [auto|]. intros e. rewrite K, J, Jc, (pub_snoc (Q := fun c' => shows ns c' e)). tauto. }
  assert (HB : forall e, In e (merge Nat.eqb b (seen m)) <-> e = d \/ exists v' c', In (v', c') (P ++ [(v, c)]) /\ shows ns c' e).
  { intros e. destruct (merge_ok Nat.eqb nat_eqb_eq (seen m) b) as (K & _). rewrite K, (h_b _ _ _ _ _ H e), (proj2 (hd_seen _ _ _ _ Hc) e), (any_snoc (Q := fun c' => shows ns c' e)). tauto. }
  assert (Fin : forall libs' dlls' frames', chained d c ->
     ((exists more, libs' = libs n0 ++ more) /\ forall x, In x libs' <-> In x (libs n0) \/ exists v' c', In (v', c') (P ++ [(v, c)]) /\ lstep d c' x) ->
     ((exists more, dlls' = dlls n0 ++ more) /\ forall x, In x dlls' <-> In x (dlls n0) \/ exists v' c', In (v', c') (P ++ [(v, c)]) /\ direct_link ns d c' /\ along ns dlls c' x) ->
     ((exists more, frames' = frames n0 ++ more) /\ forall x, In x frames' <-> In x (frames n0) \/ exists v' c', In (v', c') (P ++ [(v, c)]) /\ direct_link ns d c' /\ along ns frames c' x) ->
     let n' := mkdep (deps n) (ready n) (done n) seen' incs' defs' libs' dlls' frames' flags' tgt' in
     half d n0 (P ++ [(v, c)]) n' (merge Nat.eqb b (seen m)) /\
     (e1 ++ e2 = [] -> agree n0 P n -> (forall k x, offered ns defs c (k, x) -> In (k, x) (defs m)) -> agree n0 (P ++ [(v, c)]) n') /\
     ((forall k x x', via n0 (P ++ [(v, c)]) defs (k, x) -> via n0 (P ++ [(v, c)]) defs (k, x') -> x = x') ->
      (forall t, tgt n0 = Some t -> forall k x x', In (k, x) (privDefs t) \/ viaAll (P ++ [(v, c)]) defs (k, x) -> In (k, x') (privDefs t) \/ viaAll (P ++ [(v, c)]) defs (k, x') -> x = x') -> e1 ++ e2 = [])).
  { intros libs' dlls' frames' Hch HL HDl HFr n'. split; [|split].
    - constructor; cbn [deps done seen incs flags defs libs dlls frames tgt n']; [exact (h_deps _ _ _ _ _ H)|exact (h_done _ _ _ _ _ H)|exact HS|exact HB|exact HI|exact HF|exact HD|exact HL|exact HDl|exact HFr|exact HT|].
      intros v' c' X. apply in_app_or in X. destruct X as [X|[X|[]]]; [exact (h_chain _ _ _ _ _ H _ _ X)|]. injection X as <- <-. exact Hch.
    - intros Ez A Ac. apply app_eq_nil in Ez. destruct Ez as (-> & ->). split; [apply HDa; auto|]. cbn [tgt n']. apply HTa; auto.
    - intros F1 F2. rewrite (HTc F2), (HDc F1). reflexivity. }
  destruct (staticLink n m) eqn:SL.
  - assert (DL : direct_link ns d c) by (apply SD; reflexivity). apply Fin.
    + intros X. contradiction.
    + pose proof (merge_step' _ _ _ _ _ (h_libs _ _ _ _ _ H) (proj2 (hd_libs _ _ _ _ Hc))) as M1. pose proof (hd_tgt _ _ _ _ Hc) as Tc. destruct (tgt m0) as [u0|] eqn:Tm0, (tgt m) as [u|] eqn:Tm; try contradiction.
      * destruct Tc as ((Ek & En & _) & _). assert (El : libName u = libName u0) by (unfold libName; rewrite Ek, En; reflexivity). destruct (ctype_headerOnly (tkind u)) eqn:Ho.
        -- destruct M1 as (G & J). split; [exact G|]. intros x. rewrite J, (any_snoc (Q := fun c' => lstep d c' x)). split.
           ++ intros [[X|X]|X]; [auto|auto|]. right. right. left. auto.
           ++ intros [X|[X|[(_ & [X|(m1 & u1 & A & B & C & E)])|(X & _)]]]; [auto|auto|auto| |contradiction]. exfalso. assert (m1 = m0) by congruence. subst. assert (u1 = u0) by congruence. subst. apply C. rewrite <- Ek. destruct (tkind u); try discriminate. reflexivity.
        -- destruct (add_step _ _ (libName u) _ M1) as (G & J). split; [exact G|]. intros x. rewrite J, (any_snoc (Q := fun c' => lstep d c' x)). split.
           ++ intros [[[X|X]|X]|X]; [auto|auto|right; right; left; auto|]. right. right. left. split; [exact DL|]. right. exists m0, u0. split; [exact Nc|]. split; [exact Tm0|]. split; [intros Y; rewrite Ek, Y in Ho; discriminate|congruence].
           ++ intros [X|[X|[(_ & [X|(m1 & u1 & A & B & C & E)])|(X & _)]]]; [auto|auto|auto| |contradiction]. assert (m1 = m0) by congruence. subst m1. assert (u1 = u0) by congruence. subst. right. congruence.
      * destruct M1 as (G & J). split; [exact G|]. intros x. rewrite J, (any_snoc (Q := fun c' => lstep d c' x)). split.
        -- intros [[X|X]|X]; [auto|auto|]. right. right. left. auto.
        -- intros [X|[X|[(_ & [X|(m1 & u1 & A & B & C & E)])|(X & _)]]]; [auto|auto|auto| |contradiction]. congruence.
    + destruct (merge_step' _ _ _ _ _ (h_dlls _ _ _ _ _ H) (proj2 (hd_dlls _ _ _ _ Hc))) as (G & J). split; [exact G|]. intros x. rewrite J, (any_snoc (Q := fun c' => direct_link ns d c' /\ along ns dlls c' x)). tauto.
    + destruct (merge_step' _ _ _ _ _ (h_frames _ _ _ _ _ H) (proj2 (hd_frames _ _ _ _ Hc))) as (G & J). split; [exact G|]. intros x. rewrite J, (any_snoc (Q := fun c' => direct_link ns d c' /\ along ns frames c' x)). tauto.
  - assert (DL : ~ direct_link ns d c) by (intros X; apply SD in X; discriminate).
    assert (Bo : exists t0 t u0 u, tgt n0 = Some t0 /\ tgt n = Some t /\ tgt m0 = Some u0 /\ tgt m = Some u /\ sameTarget u0 u).
    { unfold staticLink in SL. destruct Sn as (_ & Sn), Sm as (_ & Sm). destruct (tgt n) as [t|]; [|discriminate]. destruct (tgt m) as [u|]; [|discriminate]. destruct (tgt n0) as [t0|]; [|contradiction]. destruct (tgt m0) as [u0|]; [|contradiction]. exists t0, t, u0, u. auto. }
    destruct Bo as (t0 & t & u0 & u & A1 & A2 & A3 & A4 & Su). rewrite A4. pose proof Su as (_ & _ & Ec & _). 
    assert (Nch : (forall k x t, container u = Some k -> node (nodes w) k = Some x -> tgt x = Some t -> False) -> ~ chained d c).
    { intros F Ch. destruct (Ch DL m0 u0 Nc A3) as (k & x & t1 & B1 & B2 & B3). pose proof (SW k) as Sk. rewrite B2 in Sk. destruct (node (nodes w) k) as [x'|] eqn:Nk; [|contradiction]. destruct Sk as (_ & Sk). rewrite B3 in Sk. destruct (tgt x') as [t1'|] eqn:Tx; [|contradiction]. apply (F k x' t1'); auto. congruence. }
    destruct (container u) as [k|] eqn:Cu; [|apply Nch; discriminate]. destruct (node (nodes w) k) as [x|] eqn:Nk; [|apply Nch; intros k' x' t'; congruence]. destruct (tgt x) as [tk|] eqn:Tx; [|apply Nch; intros k' x' t'; congruence].
    pose proof (SW k) as Sk. rewrite Nk in Sk. destruct (node ns k) as [x0|] eqn:Nk0; [|contradiction]. destruct Sk as (_ & Sk). rewrite Tx in Sk. destruct (tgt x0) as [tk0|] eqn:Tx0; [|contradiction]. destruct Sk as (_ & Ename & _).
    apply Fin.
    + intros _ m1 u1 B1 B2. assert (m1 = m0) by congruence. subst. assert (u1 = u0) by congruence. subst. exists k, x0, tk0. split; [congruence|auto].
    + destruct (add_step _ _ (tname tk) _ (h_libs _ _ _ _ _ H)) as (G & J). split; [exact G|]. intros y. rewrite J, (any_snoc (Q := fun c' => lstep d c' y)). split.
      * intros [[X|X]|X]; [auto|auto|]. right. right. right. split; [exact DL|]. exists m0, u0, k, x0, tk0. repeat split; auto; congruence.
      * intros [X|[X|[(X & _)|(_ & m1 & u1 & k1 & y1 & t1 & B1 & B2 & B3 & B4 & B5 & B6)]]]; [auto|auto|contradiction|]. right. assert (m1 = m0) by congruence. subst m1. assert (u1 = u0) by congruence. subst u1. assert (k1 = k) by congruence. subst k1. assert (y1 = x0) by congruence. subst y1. congruence.
    + destruct (h_dlls _ _ _ _ _ H) as (G & J). split; [exact G|]. intros y. rewrite J, (any_snoc (Q := fun c' => direct_link ns d c' /\ along ns dlls c' y)). tauto.
    + destruct (h_frames _ _ _ _ _ H) as (G & J). split; [exact G|]. intros y. rewrite J, (any_snoc (Q := fun c' => direct_link ns d c' /\ along ns frames c' y)). tauto.
Qed.

(* ---- the end of the loop ---- *)
Lemma shows_node c e : node ns c <> None -> shows ns c e -> node ns e <> None.
Proof. intros N H. induction H as [d|d c e I H IH]; [exact N|]. apply IH. apply (Hcl d). exists Public. exact I. Qed.
Lemma builds_node d e : node ns d <> None -> builds ns d e -> node ns e <> None.
Proof. intros N [->|(c & E & H)]; [exact N|]. apply (shows_node c); [exact (Hcl _ _ E)|exact H]. Qed.
Lemma depsOf_node d n : node ns d = Some n -> depsOf ns d = deps n.
Proof. unfold depsOf. intros ->. reflexivity. Qed.
Lemma via_full {A} d n0 (f : dep -> list A) x : node ns d = Some n0 -> via n0 (deps n0) f x <-> offered ns f d x.
Proof.
  intros N. unfold via, offered. split.
  - intros [I|(c & I & e & m & S & Ne & J)]; [exists d, n0; split; [constructor|auto]|]. exists e, m. split; [|auto]. apply (shows_step _ _ c); [rewrite (depsOf_node _ _ N); exact I|exact S].
  - intros (e & m & S & Ne & J). inversion S as [d'|d' c e' I S']; subst; [left; congruence|]. right. exists c. rewrite (depsOf_node _ _ N) in I. split; [exact I|]. exists e, m. auto.
Qed.
Lemma viaAll_full {A} d n0 (f : dep -> list A) x : node ns d = Some n0 -> viaAll (deps n0) f x <-> received ns f d x.
Proof.
  intros N. unfold viaAll, received, edge. rewrite (depsOf_node _ _ N). split; [intros (v & c & I & O); exists c; split; [exists v; exact I|exact O]|intros (c & (v & I) & O); exists v, c; auto].
Qed.
Lemma via_part {A} d n0 P Q (f : dep -> list A) x : node ns d = Some n0 -> deps n0 = P ++ Q -> via n0 P f x -> offered ns f d x.
Proof. intros N E V. apply (via_full d n0 f x N). rewrite E. destruct V as [V|(c & I & V)]; [left; exact V|]. right. exists c. split; [apply in_or_app; left; exact I|exact V]. Qed.
Lemma viaAll_part {A} d n0 P Q (f : dep -> list A) x : node ns d = Some n0 -> deps n0 = P ++ Q -> viaAll P f x -> received ns f d x.
Proof. intros N E (v & c & I & V). apply (viaAll_full d n0 f x N). rewrite E. exists v, c. split; [apply in_or_app; left; exact I|exact V]. Qed.
Lemma linked_full d n0 x : node ns d = Some n0 -> linked ns d x <-> In x (libs n0) \/ exists v c, In (v, c) (deps n0) /\ lstep d c x.
Proof.
  intros N. split.
  - intros L. inversion L as [d' n x' A B E1 E2|d' c x' E D L' E1 E2|d' c m u E D A B C E1 E2|d' c m u k y t E D A B C F G E1 E2]; subst; [left; congruence| | |]; right; destruct E as (v & I); rewrite (depsOf_node _ _ N) in I; exists v, c; (split; [exact I|]).
    + left. auto.
    + left. split; [exact D|]. right. exists m, u. auto.
    + right. split; [exact D|]. exists m, u, k, y, t. repeat split; auto.
  - intros [I|(v & c & I & [(D & [L|(m & u & A & B & C & ->)])|(D & m & u & k & y & t & A & B & C & F & G & ->)])]; [exact (linked_own _ _ _ _ N I)| | |]; assert (E : edge ns d c) by (exists v; rewrite (depsOf_node _ _ N); exact I).
    + exact (linked_more _ _ _ _ E D L).
    + exact (linked_lib _ _ _ _ _ E D A B C).
    + exact (linked_container _ _ _ _ _ _ _ _ E D A B C F G).
Qed.
Lemma along_full d n0 f x : node ns d = Some n0 -> along ns f d x <-> In x (f n0) \/ exists v c, In (v, c) (deps n0) /\ direct_link ns d c /\ along ns f c x.
Proof.
  intros N. split.
  - intros L. inversion L as [d' n x' A B|d' c x' (v & I) D L']; subst; [left; congruence|]. right. rewrite (depsOf_node _ _ N) in I. exists v, c. auto.
  - intros [I|(v & c & I & D & L)]; [exact (along_own _ _ _ _ _ N I)|]. apply (along_more _ _ _ c); auto. exists v. rewrite (depsOf_node _ _ N). exact I.
Qed.
Lemma zlen_pos {A} (l : list A) : (0 <? zlen l) = true <-> l <> [].
Proof. unfold zlen. destruct l; cbn [length]; split; intros H; try discriminate; try congruence; lia. Qed.
Lemma keyFor_key w d n0 t t' b : statW w -> node ns d = Some n0 -> tgt n0 = Some t -> container t' = container t -> (forall e, In e b <-> builds ns d e) ->
  forall k, In k (flat_map (keyFor (nodes w) (container t')) b) <-> linkKey ns d k.
Proof.
  intros SW Nd Tn Ec Hb k. rewrite in_flat_map. unfold linkKey, keyFor. rewrite Ec. split.
  - intros (e & I & J). apply Hb in I. pose proof (SW e) as Se. destruct (node (nodes w) e) as [x|]; [|contradiction J]. destruct (node ns e) as [x0|] eqn:N0; [|contradiction Se]. destruct Se as (_ & Se). destruct (tgt x) as [u|]; [|contradiction J].
    destruct (tgt x0) as [u0|] eqn:T0; [|contradiction Se]. destruct Se as (_ & _ & E1 & E2 & _). rewrite E1, E2 in J. destruct (container u0) as [kc|] eqn:Cu; [|contradiction J]. destruct (0 <? zlen (prefix u0)) eqn:Z; [|contradiction J]. destruct J as [J|[]].
    exists e, n0, t, x0, u0, kc. repeat split; auto; [apply zlen_pos; exact Z|]. rewrite Cu. symmetry. exact J.
  - intros (e & n & t1 & m & u & kc & B & N1 & T1 & N2 & T2 & C & Pn & ->). exists e. split; [apply Hb; exact B|]. assert (n = n0) by congruence. subst n. assert (t1 = t) by congruence. subst t1. pose proof (SW e) as Se. rewrite N2 in Se. destruct (node (nodes w) e) as [x|]; [|contradiction Se].
    destruct Se as (_ & Se). rewrite T2 in Se. destruct (tgt x) as [u'|]; [|contradiction Se]. destruct Se as (_ & _ & E1 & E2 & _). rewrite E1, E2, C. apply zlen_pos in Pn. rewrite Pn. left. reflexivity.
Qed.
Lemma finish_ok w d n0 n b : statW w -> node ns d = Some n0 -> half d n0 (deps n0) n b ->
  match (match tgt n with Some t => option_map Some (linkage (nodes w) b t) | None => Some None end) with
  | None => ~ linkable ns d
  | Some t' => handed ns d n0 (mkdep (deps n) (ready n) true (seen n) (incs n) (defs n) (libs n) (dlls n) (frames n) (flags n) t') /\ linkable ns d /\ (agree n0 (deps n0) n -> consistent ns d)
  end.
Proof.
  intros SW Nd H.
  assert (Hb : forall e, In e b <-> builds ns d e).
  { intros e. rewrite (h_b _ _ _ _ _ H e). unfold builds, edge. rewrite (depsOf_node _ _ Nd). split; (intros [X|X]; [left; exact X|right]); [destruct X as (v & c & I & S); exists c; split; [exists v; exact I|exact S]|destruct X as (c & (v & I) & S); exists v, c; auto]. }
  assert (L1 : forall c m u, edge ns d c -> ~ direct_link ns d c -> node ns c = Some m -> tgt m = Some u -> exists k x t, container u = Some k /\ node ns k = Some x /\ tgt x = Some t).
  { intros c m u (v & I) D A B. rewrite (depsOf_node _ _ Nd) in I. exact (h_chain _ _ _ _ _ H v c I D m u A B). }
  assert (Cons : agree n0 (deps n0) n -> consistent ns d).
  { intros (A1 & A2). pose proof (h_tgt _ _ _ _ _ H) as HT. destruct (h_defs _ _ _ _ _ H) as (_ & N & _). split.
    - intros k v v' X X'. apply (via_full d n0 defs _ Nd) in X, X'. apply A1 in X, X'. apply (in_valueOf _ _ _ N) in X, X'. congruence.
    - intros n1 t E1 E2 k v v' X X'. assert (n1 = n0) by congruence. subst. rewrite E2 in HT. destruct (tgt n) as [t'|] eqn:Tn; [|contradiction]. destruct HT as (_ & _ & _ & _ & N' & _). specialize (A2 t t' E2 eq_refl).
      rewrite <- (viaAll_full d n0 defs _ Nd) in X. rewrite <- (viaAll_full d n0 defs _ Nd) in X'. apply A2 in X, X'. apply (in_valueOf _ _ _ N') in X, X'. congruence. }
  assert (Fin : forall t', match tgt n0, t' with
    | None, None => True
    | Some t, Some t' =>
      sameTarget t t' /\
      ((exists more, privIncs t' = privIncs t ++ more /\ (NoDup (privIncs t) -> NoDup (privIncs t'))) /\ forall x, In x (privIncs t') <-> In x (privIncs t) \/ received ns incs d x) /\
      ((exists more, privFlags t' = privFlags t ++ more /\ (NoDup (privFlags t) -> NoDup (privFlags t'))) /\ forall x, In x (privFlags t') <-> In x (privFlags t) \/ received ns flags d x) /\
      (NoDup (map fst (privDefs t')) /\
       (forall k, linkKey ns d k -> In (k, one) (privDefs t')) /\
       (forall k v, ~ linkKey ns d k -> In (k, v) (privDefs t) -> In (k, v) (privDefs t')) /\
       (forall k v, ~ linkKey ns d k -> In (k, v) (privDefs t') -> In (k, v) (privDefs t) \/ received ns defs d (k, v)) /\
       (forall k v, received ns defs d (k, v) -> In k (map fst (privDefs t'))) /\
       (forall k, In k (map fst (privDefs t')) -> linkKey ns d k \/ In k (map fst (privDefs t)) \/ exists v, received ns defs d (k, v)))
    | _, _ => False end -> handed ns d n0 (mkdep (deps n) (ready n) true (seen n) (incs n) (defs n) (libs n) (dlls n) (frames n) (flags n) t')).
  { intros t' HT. constructor; cbn [deps done seen incs flags defs libs dlls frames tgt].
    - exact (h_deps _ _ _ _ _ H).
    - reflexivity.
    - destruct (h_seen _ _ _ _ _ H) as (N & J). split; [exact N|]. intros e. rewrite J. split.
      + intros [->|(c & I & S)]; [constructor|]. apply (shows_step _ _ c); [rewrite (depsOf_node _ _ Nd); exact I|exact S].
      + intros S. inversion S as [d'|d' c e' I S']; subst; [auto|]. right. rewrite (depsOf_node _ _ Nd) in I. eauto.
    - destruct (h_incs _ _ _ _ _ H) as (G & J). split; [exact G|]. intros x. rewrite J. apply via_full. exact Nd.
    - destruct (h_flags _ _ _ _ _ H) as (G & J). split; [exact G|]. intros x. rewrite J. apply via_full. exact Nd.
    - destruct (h_defs _ _ _ _ _ H) as (G & N & S & K). split; [exact G|]. split; [exact N|]. split; [intros k v I; apply (via_full d n0 defs _ Nd); auto|]. intros k v I. apply (via_full d n0 defs _ Nd) in I. exact (K _ _ I).
    - destruct (h_libs _ _ _ _ _ H) as (G & J). split; [exact G|]. intros x. rewrite J. symmetry. apply linked_full. exact Nd.
    - destruct (h_dlls _ _ _ _ _ H) as (G & J). split; [exact G|]. intros x. rewrite J. symmetry. apply along_full. exact Nd.
    - destruct (h_frames _ _ _ _ _ H) as (G & J). split; [exact G|]. intros x. rewrite J. symmetry. apply along_full. exact Nd.
    - exact HT. }
  pose proof (h_tgt _ _ _ _ _ H) as HT. destruct (tgt n) as [t|] eqn:Tn.
  - destruct (tgt n0) as [t0|] eqn:T0; [|contradiction]. destruct HT as (Same & PI & PF & (mo & PM) & PN & PS & PK). pose proof Same as (_ & _ & Ec & _).
    assert (Hin : forall e, In e b -> node (nodes w) e <> None).
    { intros e I. apply Hb in I. apply builds_node in I; [|congruence]. pose proof (SW e) as Se. destruct (node ns e); [|congruence]. destruct (node (nodes w) e); [discriminate|contradiction]. }
    pose proof (linkage_ok (nodes w) b t Hin) as L. destruct (linkage (nodes w) b t) as [t'|]; cbn [option_map].
    + destruct L as (-> & L). split; [|split].
      * apply Fin. destruct (setDefs_ok (flat_map (keyFor (nodes w) (container t)) b) (privDefs t) PN) as (D1 & D2 & D3 & D4).
        pose proof (keyFor_key w d n0 t0 t b SW Nd T0 Ec Hb) as KK. unfold withDefs. cbn [privIncs privFlags privDefs].
        split; [exact Same|]. split; [destruct PI as (G & J); split; [exact G|]; intros x; rewrite J, (viaAll_full d n0 incs x Nd); reflexivity|].
        split; [destruct PF as (G & J); split; [exact G|]; intros x; rewrite J, (viaAll_full d n0 flags x Nd); reflexivity|]. split; [exact D1|]. split; [intros k X; apply D2, KK; exact X|].
        split; [intros k v X Y; apply D3; [rewrite KK; exact X|]; rewrite PM; apply in_or_app; left; exact Y|].
        split; [intros k v X Y; apply D3 in Y; [|rewrite KK; exact X]; rewrite <- (viaAll_full d n0 defs _ Nd); apply PS; exact Y|].
        split; [intros k v X; apply D4; right; apply (viaAll_full d n0 defs _ Nd) in X; exact (PK _ _ X)|].
        intros k X. apply D4 in X. destruct X as [X|X]; [left; apply KK; exact X|]. right. apply key_value in X. destruct X as (v & X). destruct (PS _ _ X) as [Y|Y]; [left; exact (in_key _ _ _ Y)|]. right. exists v. apply (viaAll_full d n0 defs _ Nd). exact Y.
      * split; [exact L1|]. intros n1 t1 e m u A1 A2 B A3 A4 C. assert (n1 = n0) by congruence. subst. assert (t1 = t0) by congruence. subst. destruct L as [L|L]; [congruence|]. exfalso. apply (L e); [apply Hb; exact B|].
        pose proof (SW e) as Se. rewrite A3 in Se. unfold loose. destruct (node (nodes w) e) as [x|]; [|contradiction]. destruct Se as (_ & Se). rewrite A4 in Se. destruct (tgt x) as [u'|] eqn:Tx; [|contradiction]. destruct Se as (_ & _ & E & _). exists x, u'. repeat split; auto. congruence.
      * exact Cons.
    + destruct L as (L & e & I & x & u & A & B & C). intros (_ & L2). apply L. rewrite Ec. apply Hb in I. pose proof (SW e) as Se. rewrite A in Se. destruct (node ns e) as [x0|] eqn:N0; [|contradiction]. destruct Se as (_ & Se). rewrite B in Se. destruct (tgt x0) as [u0|] eqn:Tx; [|contradiction]. destruct Se as (_ & _ & E & _).
      apply (L2 n0 t0 e x0 u0); auto. congruence.
  - destruct (tgt n0) as [t0|] eqn:T0; [contradiction|]. split; [apply Fin; exact I|]. split; [|exact Cons]. split; [exact L1|]. intros n1 t1 e m u A1 A2. congruence.
Qed.

(* ---- the recursion ---- *)
Context (rank : nat -> nat).
Hypothesis Hrank : forall d c, edge ns d c -> (rank c < rank d)%nat.
Definition handedIn (w : world) (e : nat) : Prop := exists n0 n', node ns e = Some n0 /\ node (nodes w) e = Some n' /\ handed ns e n0 n' /\ linkable ns e /\ (errors w = [] -> consistent ns e).
Definition Inv (R : nat) (w : world) : Prop := statW w /\
  (forall e n0, (rank e < R)%nat -> node ns e = Some n0 -> node (nodes w) e = Some n0 \/ handedIn w e) /\
  ((forall e, consistent ns e) -> errors w = []).
Definition longer (w w' : world) : Prop := (exists more, errors w' = errors w ++ more) /\ (forall e n, node (nodes w) e = Some n -> done n = true -> node (nodes w') e = Some n).
Lemma longer_trans a b c : longer a b -> longer b c -> longer a c.
Proof. intros ((x & E1) & D1) ((y & E2) & D2). split; [exists (x ++ y); rewrite E2, E1, app_assoc; reflexivity|]. intros e n N Dn. apply D2; auto. Qed.
Lemma longer_nil w w' : longer w w' -> errors w' = [] -> errors w = [].
Proof. intros ((x & E) & _) H. rewrite H in E. symmetry in E. apply app_eq_nil in E. tauto. Qed.
Definition recSpec (R : nat) (rec : world -> nat -> res world) : Prop := forall w c, (rank c < R)%nat -> Inv R w -> node ns c <> None ->
  match rec w c with
  | Deep => False
  | Crash => exists e, ~ linkable ns e
  | Ok w' => Inv R w' /\ (forall e, (R <= rank e)%nat -> node (nodes w') e = node (nodes w) e) /\ handedIn w' c /\ longer w w'
  end.
Lemma half_stat d n0 P n b : half d n0 P n b -> stat n0 n.
Proof. intros H. split; [exact (h_deps _ _ _ _ _ H)|]. pose proof (h_tgt _ _ _ _ _ H) as T. destruct (tgt n0), (tgt n); try exact T. exact (proj1 T). Qed.
Lemma handed_stat d n0 n : handed ns d n0 n -> stat n0 n.
Proof. intros H. split; [exact (hd_deps _ _ _ _ H)|]. pose proof (hd_tgt _ _ _ _ H) as T. destruct (tgt n0), (tgt n); try exact T. exact (proj1 T). Qed.
Lemma statW_set w d n0 n n' es : statW w -> node ns d = Some n0 -> node (nodes w) d = Some n -> stat n0 n' -> statW (mkworld (setNode (nodes w) d n') es).
Proof.
  intros SW Nd Wd S k. cbn [nodes]. rewrite (node_set _ _ _ _ _ Wd). destruct (Nat.eqb_spec k d) as [->|N]; [rewrite Nd; exact S|exact (SW k)].
Qed.
Lemma full_defs c m0 m : handed ns c m0 m -> consistent ns c -> forall k x, offered ns defs c (k, x) -> In (k, x) (defs m).
Proof.
  intros H (C & _) k x O. destruct (hd_defs _ _ _ _ H) as (_ & _ & S & K). pose proof (K _ _ O) as I. apply key_value in I. destruct I as (v & I). rewrite (C k x v O (S _ _ I)). exact I.
Qed.
Lemma children_ok rec d n0 : node ns d = Some n0 -> recSpec (rank d) rec -> forall cs P n b w, deps n0 = P ++ cs -> half d n0 P n b -> node (nodes w) d = Some n -> Inv (rank d) w -> (errors w = [] -> agree n0 P n) ->
  match children rec d cs b w with
  | Deep => False
  | Crash => exists e, ~ linkable ns e
  | Ok (w', b') => exists n', node (nodes w') d = Some n' /\ half d n0 (deps n0) n' b' /\ Inv (rank d) w' /\ (errors w' = [] -> agree n0 (deps n0) n') /\
      (forall e, (rank d <= rank e)%nat -> e <> d -> node (nodes w') e = node (nodes w) e) /\ longer w w'
  end.
Proof.
  intros Nd Hrec. induction cs as [|(v, c) cs IH]; intros P n b w E H Wd Iw Ag; cbn [children].
  { rewrite app_nil_r in E. rewrite E in *. exists n. split; [exact Wd|]. split; [exact H|]. split; [exact Iw|]. split; [exact Ag|]. split; [reflexivity|]. split; [exists []; symmetry; apply app_nil_r|auto]. }
  assert (Ed : edge ns d c) by (exists v; rewrite (depsOf_node _ _ Nd), E; apply in_or_app; right; left; reflexivity).
  pose proof (Hrec w c (Hrank _ _ Ed) Iw (Hcl _ _ Ed)) as HR. destruct (rec w c) as [w1| |]; [|exact HR|exact HR]. destruct HR as (I1 & U1 & (m0 & m & Nc & Wc & Hm & Lm & Cm) & Lo1).
  rewrite (U1 d (le_n _)), Wd, Wc. destruct I1 as (SW1 & Inv1 & Cons1).
  assert (Wd1 : node (nodes w1) d = Some n) by (rewrite (U1 d (le_n _)); exact Wd).
  pose proof (absorb_ok w1 d n0 P v c m0 n m b SW1 Nd Nc Wd1 Wc H Hm) as HA. destruct (absorb (nodes w1) v n m b) as [((n', b'), es)|].
  - destruct HA as (H' & Ag' & Es). set (w2 := mkworld (setNode (nodes w1) d n') (errors w1 ++ es)).
    assert (Wd2 : node (nodes w2) d = Some n') by exact (node_set_same _ _ _ _ Wd1).
    assert (Lo2 : longer w1 w2).
    { split; [exists es; reflexivity|]. intros e x Ne Dx. unfold w2. cbn [nodes]. rewrite node_set_other; [exact Ne|]. intros ->. rewrite Wd1 in Ne. injection Ne as <-. rewrite (h_done _ _ _ _ _ H) in Dx. discriminate. }
    assert (E' : deps n0 = (P ++ [(v, c)]) ++ cs) by (rewrite <- app_assoc; exact E).
    assert (I2 : Inv (rank d) w2).
    { split; [exact (statW_set w1 d n0 n n' _ SW1 Nd Wd1 (half_stat _ _ _ _ _ H'))|]. split.
      - intros e x0 Re Ne. assert (Ned : e <> d) by (intros ->; lia). destruct (Inv1 e x0 Re Ne) as [X|(y0 & y & A1 & A2 & A3 & A4 & A5)]; [left; unfold w2; cbn [nodes]; rewrite node_set_other; assumption|].
        right. exists y0, y. split; [exact A1|]. split; [unfold w2; cbn [nodes]; rewrite node_set_other; assumption|]. split; [exact A3|]. split; [exact A4|]. intros Z. apply A5. exact (longer_nil _ _ Lo2 Z).
      - intros C. unfold w2. cbn [errors]. rewrite (Cons1 C). cbn [app]. apply Es.
        + intros k x x' X X'. destruct (C d) as (C1 & _). apply (C1 k); eapply via_part; eassumption.
        + intros t Tt k x x' X X'. destruct (C d) as (_ & C2). apply (C2 n0 t Nd Tt k); [destruct X as [X|X]; [left; exact X|right]; eapply viaAll_part; eassumption|destruct X' as [X'|X']; [left; exact X'|right]; eapply viaAll_part; eassumption]. }
    assert (Ag2 : errors w2 = [] -> agree n0 (P ++ [(v, c)]) n').
    { intros Z. pose proof (longer_nil _ _ Lo2 Z) as Z1. unfold w2 in Z. cbn [errors] in Z. rewrite Z1 in Z. cbn [app] in Z. apply Ag'; [exact Z|apply Ag; exact (longer_nil _ _ Lo1 Z1)|]. exact (full_defs _ _ _ Hm (Cm Z1)). }
    pose proof (IH (P ++ [(v, c)]) n' b' w2 E' H' Wd2 I2 Ag2) as HC. fold w2. destruct (children rec d cs b' w2) as [(w3, b3)| |]; [|exact HC|exact HC].
    destruct HC as (n3 & A1 & A2 & A3 & A4 & A5 & A6). exists n3. split; [exact A1|]. split; [exact A2|]. split; [exact A3|]. split; [exact A4|]. split.
    + intros e Re Ned. rewrite (A5 e Re Ned). unfold w2. cbn [nodes]. rewrite node_set_other by exact Ned. exact (U1 e Re).
    + exact (longer_trans _ _ _ Lo1 (longer_trans _ _ _ Lo2 A6)).
  - exists d. intros (L1 & _). apply HA. intros D m1 u1 A B. exact (L1 c m1 u1 Ed D A B).
Qed.
Lemma half_start d n0 : node ns d = Some n0 ->
  half d n0 [] (mkdep (deps n0) (ready n0) (done n0) (seen n0 ++ [d]) (incs n0) (defs n0) (libs n0) (dlls n0) (frames n0) (flags n0) (tgt n0)) [d].
Proof.
  intros Nd. destruct (Hfr _ _ Nd) as (F1 & F2). destruct (Hk _ _ Nd) as (K1 & K2).
  assert (V : forall A (f : dep -> list A) x, via n0 [] f x <-> In x (f n0)) by (intros A f x; unfold via; split; [intros [X|(c & [] & _)]; exact X|auto]).
  assert (VA : forall A (f : dep -> list A) x, viaAll [] f x <-> False) by (intros A f x; unfold viaAll; split; [intros (v & c & [] & _)|intros []]).
  constructor; cbn [deps done seen incs flags defs libs dlls frames tgt].
  - reflexivity.
  - exact F1.
  - rewrite F2. cbn [app]. split; [repeat constructor; intros []|]. intros e. cbn [In]. split; [intros [<-|[]]; auto|intros [->|(c & [] & _)]; auto].
  - intros e. cbn [In]. split; [intros [<-|[]]; auto|intros [->|(v & c & [] & _)]; auto].
  - split; [apply grown_refl|]. intros x. symmetry. apply V.
  - split; [apply grown_refl|]. intros x. symmetry. apply V.
  - split; [exists []; symmetry; apply app_nil_r|]. split; [exact K1|]. split; [intros k v X; apply V; exact X|]. intros k v X. apply V in X. exact (in_key _ _ _ X).
  - split; [exists []; symmetry; apply app_nil_r|]. intros x. split; [auto|intros [X|(v & c & [] & _)]; exact X].
  - split; [exists []; symmetry; apply app_nil_r|]. intros x. split; [auto|intros [X|(v & c & [] & _)]; exact X].
  - split; [exists []; symmetry; apply app_nil_r|]. intros x. split; [auto|intros [X|(v & c & [] & _)]; exact X].
  - destruct (tgt n0) as [t|] eqn:T; [|exact I]. split; [repeat split|]. split; [split; [apply grown_refl|intros x; rewrite VA; tauto]|]. split; [split; [apply grown_refl|intros x; rewrite VA; tauto]|]. split; [exists []; symmetry; apply app_nil_r|]. split; [exact (K2 _ eq_refl)|]. split; [intros k v X; left; exact X|]. intros k v (v0 & c & [] & _).
  - intros v c [].
Qed.
Lemma propagate_ok fuel : forall R w c, (rank c < R)%nat -> (rank c < fuel)%nat -> Inv R w -> node ns c <> None ->
  match propagate fuel w c with
  | Deep => False
  | Crash => exists e, ~ linkable ns e
  | Ok w' => Inv R w' /\ (forall e, (R <= rank e)%nat -> node (nodes w') e = node (nodes w) e) /\ handedIn w' c /\ longer w w'
  end.
Proof.
  induction fuel as [|fuel IH]; intros R w d HR Hf Iw Nd; [lia|]. cbn [propagate]. destruct (node ns d) as [n0|] eqn:N0; [clear Nd|congruence]. pose proof Iw as (SW & Iv & Cw).
  destruct (Iv d n0 HR N0) as [Wd|Hd].
  2:{ pose proof Hd as (y0 & y & A1 & A2 & A3 & A4 & A5). rewrite A2, (hd_done _ _ _ _ A3). split; [exact Iw|]. split; [reflexivity|]. split; [exact Hd|]. split; [exists []; symmetry; apply app_nil_r|auto]. }
  rewrite Wd. destruct (Hfr _ _ N0) as (F1 & F2).
  set (n1 := mkdep (deps n0) (ready n0) (done n0) (seen n0 ++ [d]) (incs n0) (defs n0) (libs n0) (dlls n0) (frames n0) (flags n0) (tgt n0)). cbv zeta. rewrite F1. set (w1 := mkworld (setNode (nodes w) d n1) (errors w)).
  pose proof (half_start d n0 N0) as H1. fold n1 in H1.
  assert (Wd1 : node (nodes w1) d = Some n1) by exact (node_set_same _ _ _ _ Wd).
  assert (Lo1 : longer w w1).
  { split; [exists []; symmetry; apply app_nil_r|]. intros e x Ne Dx. unfold w1. cbn [nodes]. rewrite node_set_other; [exact Ne|]. intros ->. congruence. }
  assert (I1 : Inv (rank d) w1).
  { split; [exact (statW_set w d n0 n0 n1 _ SW N0 Wd (half_stat _ _ _ _ _ H1))|]. split; [|exact Cw]. intros e x0 Re Ne. assert (Ned : e <> d) by (intros ->; lia). destruct (Iv e x0 ltac:(lia) Ne) as [X|(y0 & y & A1 & A2 & A3)]; [left; unfold w1; cbn [nodes]; rewrite node_set_other; assumption|].
    right. exists y0, y. split; [exact A1|]. split; [unfold w1; cbn [nodes]; rewrite node_set_other; assumption|exact A3]. }
  assert (Rs : recSpec (rank d) (propagate fuel)).
  { intros w' c Hc Iw' Nc. apply IH; auto. lia. }
  assert (Ag1 : errors w1 = [] -> agree n0 [] n1).
  { intros _. split; [intros k v [X|(c & [] & _)]; exact X|]. intros t t' T T' k v X. unfold n1 in T'. cbn [tgt] in T'. assert (t = t') by congruence. subst. destruct X as [X|(v0 & c & [] & _)]. exact X. }
  pose proof (children_ok (propagate fuel) d n0 N0 Rs (deps n0) [] n1 [d] w1 eq_refl H1 Wd1 I1 Ag1) as HC.
  destruct (children (propagate fuel) d (deps n0) [d] w1) as [(w2, b)| |]; [|exact HC|exact HC]. destruct HC as (n2 & Wd2 & H2 & I2 & Ag2 & U2 & Lo2). rewrite Wd2. pose proof I2 as (SW2 & Iv2 & Cw2).
  pose proof (finish_ok w2 d n0 n2 b SW2 N0 H2) as HF. destruct (match tgt n2 with Some t => option_map Some (linkage (nodes w2) b t) | None => Some None end) as [t'|]; [|exists d; exact HF]. destruct HF as (Hh & Hl & Hc).
  set (n3 := mkdep (deps n2) (ready n2) true (seen n2) (incs n2) (defs n2) (libs n2) (dlls n2) (frames n2) (flags n2) t') in *. set (w3 := mkworld (setNode (nodes w2) d n3) (errors w2)).
  assert (Wd3 : node (nodes w3) d = Some n3) by exact (node_set_same _ _ _ _ Wd2).
  assert (Hd3 : handedIn w3 d) by (exists n0, n3; repeat (split; [assumption|]); intros Z; apply Hc, Ag2; exact Z).
  assert (Lo3 : longer w2 w3).
  { split; [exists []; symmetry; apply app_nil_r|]. intros e x Ne Dx. unfold w3. cbn [nodes]. rewrite node_set_other; [exact Ne|]. intros ->. rewrite Wd2 in Ne. injection Ne as <-. rewrite (h_done _ _ _ _ _ H2) in Dx. discriminate. }
  pose proof (longer_trans _ _ _ Lo1 (longer_trans _ _ _ Lo2 Lo3)) as Lo.
  assert (U3 : forall e, (rank d <= rank e)%nat -> e <> d -> node (nodes w3) e = node (nodes w) e).
  { intros e Re Ned. unfold w3. cbn [nodes]. rewrite node_set_other by exact Ned. rewrite (U2 e Re Ned). unfold w1. cbn [nodes]. apply node_set_other. exact Ned. }
  split; [|split; [|split; [exact Hd3|exact Lo]]].
  - split; [exact (statW_set w2 d n0 n2 n3 _ SW2 N0 Wd2 (handed_stat _ _ _ Hh))|]. split; [|exact Cw2]. intros e x0 Re Ne. destruct (Nat.eq_dec e d) as [->|Ned]; [right; exact Hd3|].
    destruct (Nat.lt_ge_cases (rank e) (rank d)) as [Lt|Ge].
    + destruct (Iv2 e x0 Lt Ne) as [X|(y0 & y & A1 & A2 & A3)]; [left; unfold w3; cbn [nodes]; rewrite node_set_other; assumption|]. right. exists y0, y. split; [exact A1|]. split; [unfold w3; cbn [nodes]; rewrite node_set_other; assumption|exact A3].
    + destruct (Iv e x0 Re Ne) as [X|(y0 & y & A1 & A2 & A3 & A4 & A5)]; [left; rewrite (U3 e Ge Ned); exact X|]. right. exists y0, y. split; [exact A1|]. split; [rewrite (U3 e Ge Ned); exact A2|]. split; [exact A3|]. split; [exact A4|]. intros Z. apply A5. exact (longer_nil _ _ Lo Z).
  - intros e Re. apply U3; [lia|]. intros ->. lia.
Qed.
End Hand.

(* ---- all of them ---- *)
Section All.
Context (ns : list entry).
Hypothesis Hcl : closed ns.
Hypothesis Hfr : fresh ns.
Hypothesis Hk : keyed ns.
Lemma node_lt (es : list entry) d n : node es d = Some n -> (d < length es)%nat.
Proof. unfold node. destruct (nth_error es d) eqn:E; [|discriminate]. intros _. apply nth_error_Some. congruence. Qed.
(** A rank below the number of entries. *)
Lemma small_rank : acyclic ns -> exists rank, (forall d c, edge ns d c -> (rank c < rank d)%nat) /\ forall d, (d < length ns)%nat -> (rank d < length ns)%nat.
Proof.
  intros (rank & H). exists (fun d => length (filter (fun e => Nat.ltb (rank e) (rank d)) (seq 0 (length ns)))).
  assert (Strict : forall (l : list nat) (f g : nat -> bool) x, (forall y, f y = true -> g y = true) -> In x l -> f x = false -> g x = true -> (length (filter f l) < length (filter g l))%nat).
  { assert (Le : forall (l : list nat) (f g : nat -> bool), (forall y, f y = true -> g y = true) -> (length (filter f l) <= length (filter g l))%nat).
    { intros l f g M. induction l as [|y l IH]; cbn [filter]; [lia|]. specialize (M y). destruct (f y); [rewrite (M eq_refl); cbn [length]; lia|]. destruct (g y); cbn [length]; lia. }
    intros l f g x M. induction l as [|y l IH]; intros I Fx Gx; [contradiction|]. cbn [filter]. destruct I as [->|I].
    - rewrite Fx, Gx. cbn [length]. specialize (Le l f g M). lia.
    - specialize (IH I Fx Gx). pose proof (M y) as My. destruct (f y); [rewrite (My eq_refl); cbn [length]; lia|]. destruct (g y); cbn [length]; lia. }
  split.
  - intros d c E. pose proof (H _ _ E) as L. apply (Strict _ _ _ c).
    + intros y Hy. apply Nat.ltb_lt in Hy. apply Nat.ltb_lt. lia.
    + pose proof (Hcl _ _ E) as Nc. destruct (node ns c) eqn:N; [|congruence]. apply node_lt in N. apply in_seq. lia.
    + apply Nat.ltb_irrefl.
    + apply Nat.ltb_lt. exact L.
  - intros d L. assert (Full : forall l : list nat, length (filter (fun _ => true) l) = length l) by (intros l; induction l as [|y l IH]; cbn [filter length]; [reflexivity|rewrite IH; reflexivity]).
    pose proof (Full (seq 0 (length ns))) as F. rewrite seq_length in F. apply Nat.lt_le_trans with (m := length (filter (fun _ => true) (seq 0 (length ns)))); [|lia]. apply (Strict _ _ (fun _ => true) d); [reflexivity|apply in_seq; lia|apply Nat.ltb_irrefl|reflexivity].
Qed.
Lemma propagateList_ok rank fuel (Hrank : forall d c, edge ns d c -> (rank c < rank d)%nat) (Hfuel : forall d, node ns d <> None -> (rank d < fuel)%nat) ds : forall w, (forall R, Inv ns rank R w) ->
  match propagateList fuel w ds with
  | Deep => False
  | Crash => exists e, ~ linkable ns e
  | Ok w' => (forall R, Inv ns rank R w') /\ longer w w' /\ forall d, In d ds -> node ns d <> None -> handedIn ns w' d
  end.
Proof.
  induction ds as [|d ds IH]; intros w Iw; cbn [propagateList].
  - split; [exact Iw|]. split; [split; [exists []; symmetry; apply app_nil_r|auto]|]. intros d [].
  - destruct (Iw O) as (SW & _). specialize (SW d). destruct (node ns d) as [n0|] eqn:N0, (node (nodes w) d) as [n|] eqn:Nd; try contradiction.
    + assert (Ne : node ns d <> None) by congruence.
      pose proof (fun R => propagate_ok ns Hcl Hfr Hk rank Hrank fuel (S (rank d) + R) w d ltac:(lia) (Hfuel d Ne) (Iw _) Ne) as HP. destruct (propagate fuel w d) as [w1| |].
      * assert (I1 : forall R, Inv ns rank R w1). { intros R. destruct (HP R) as ((A & B & C) & _). split; [exact A|]. split; [|exact C]. intros e x0 Re. apply B. lia. }
        destruct (HP O) as (_ & _ & Hd & Lo1). specialize (IH w1 I1). destruct (propagateList fuel w1 ds) as [w2| |]; [|exact IH|exact IH]. destruct IH as (I2 & Lo2 & All). split; [exact I2|]. split; [exact (longer_trans _ _ _ Lo1 Lo2)|].
        intros e [<-|I] Nn; [|auto]. destruct (I2 (S (rank d))) as (_ & B & _). destruct (B d n0 ltac:(lia) N0) as [X|X]; [|exact X]. destruct Hd as (y0 & y & A1 & A2 & A3 & _). apply Lo2 in A2; [|exact (hd_done _ _ _ _ A3)]. pose proof (hd_done _ _ _ _ A3). destruct (Hfr _ _ N0) as (F & _). congruence.
      * exact (HP O).
      * exact (HP O).
    + specialize (IH w Iw). destruct (propagateList fuel w ds) as [w2| |]; [|exact IH|exact IH]. destruct IH as (I2 & Lo2 & All). split; [exact I2|]. split; [exact Lo2|]. intros e [<-|I] Nn; [congruence|auto].
Qed.
Lemma consistent_no d : node ns d = None -> consistent ns d.
Proof.
  intros N. assert (F : forall p, ~ offered ns defs d p).
  { intros p (e & m & S & Ne & _). inversion S as [x|x c y I S']; subst; [congruence|]. unfold depsOf in I. rewrite N in I. contradiction. }
  split; [intros k v v' X; destruct (F _ X)|]. intros n t E. congruence.
Qed.
Lemma linkable_no d : node ns d = None -> linkable ns d.
Proof. intros N. split; [|intros n t b m u E; congruence]. intros c m u (v & I). unfold depsOf in I. rewrite N in I. contradiction. Qed.
Theorem propagateAll_ok fuel : acyclic ns -> (length ns <= fuel)%nat ->
  match propagateAll fuel (mkworld ns []) with
  | Deep => False
  | Crash => ~ forall d, linkable ns d
  | Ok w => (forall d, linkable ns d) /\ (errors w = [] <-> forall d, consistent ns d) /\
      forall d, match node ns d, node (nodes w) d with Some n, Some n' => handed ns d n n' | None, None => True | _, _ => False end
  end.
Proof.
  intros Ac Hf. destruct (small_rank Ac) as (rank & Hrank & Hsmall).
  assert (Hfuel : forall d, node ns d <> None -> (rank d < fuel)%nat).
  { intros d Ne. destruct (node ns d) as [n|] eqn:N; [|congruence]. apply node_lt in N. specialize (Hsmall d N). lia. }
  assert (I0 : forall R, Inv ns rank R (mkworld ns [])).
  { intros R. split; [intros k; cbn [nodes]; destruct (node ns k); [apply stat_refl|exact I]|]. split; [intros e n0 _ E; left; exact E|reflexivity]. }
  unfold propagateAll. cbn [nodes]. pose proof (propagateList_ok rank fuel Hrank Hfuel (seq 0 (length ns)) (mkworld ns []) I0) as H. destruct (propagateList fuel (mkworld ns []) (seq 0 (length ns))) as [w| |]; [| |exact H].
  - destruct H as (Iw & _ & All). assert (All' : forall d, node ns d <> None -> handedIn ns w d).
    { intros d Ne. apply All; [|exact Ne]. destruct (node ns d) as [n|] eqn:N; [|congruence]. apply node_lt in N. apply in_seq. lia. }
    split; [|split].
    + intros d. destruct (node ns d) as [n|] eqn:N; [|exact (linkable_no d N)]. destruct (All' d ltac:(congruence)) as (y0 & y & _ & _ & _ & L & _). exact L.
    + split; [|intros C; destruct (Iw O) as (_ & _ & X); exact (X C)]. intros Z d. destruct (node ns d) as [n|] eqn:N; [|exact (consistent_no d N)]. destruct (All' d ltac:(congruence)) as (y0 & y & _ & _ & _ & _ & L). exact (L Z).
    + intros d. destruct (Iw O) as (SW & _). specialize (SW d). destruct (node ns d) as [n|] eqn:N, (node (nodes w) d) as [n'|] eqn:N'; try exact SW. destruct (All' d ltac:(congruence)) as (y0 & y & A1 & A2 & A3 & _). congruence.
  - intros L. destruct H as (e & H). apply H, L.
Qed.
End All.

(* ---- loops ---- *)
Lemma loop_deep (S : nat -> Prop) fuel : forall w, (forall d, S d -> exists n v c r, node (nodes w) d = Some n /\ done n = false /\ deps n = (v, c) :: r /\ S c) -> forall d, S d -> propagate fuel w d = Deep.
Proof.
  induction fuel as [|fuel IH]; intros w H d Sd; [reflexivity|]. cbn [propagate]. destruct (H d Sd) as (n & v & c & r & Nd & Dn & E & Sc). rewrite Nd, Dn. cbv zeta. match goal with |- context [children _ _ (deps n) _ ?W] => set (W0 := W) end. rewrite E. cbn [children].
  assert (X : propagate fuel W0 c = Deep); [|rewrite X; reflexivity]. apply IH; [|exact Sc]. unfold W0. intros e Se. cbn [nodes]. rewrite (node_set _ _ _ _ _ Nd). destruct (Nat.eqb_spec e d) as [->|Ne]; [|exact (H e Se)]. eexists _, v, c, r. split; [reflexivity|]. cbn [done deps]. auto.
Qed.
