(* Owning pointers: every command does what it means. *)
From Coq Require Import Lia Permutation.
From Verif Require Import OwnModel OwnSpec OwnProofs.
Local Open Scope list_scope.

Lemma ok_get n : forall p l x, Forall (ok n) l -> get p l = Some x -> ok n x.
Proof.
  induction p as [|k [|j p] IH]; intros l x F G; [discriminate| |].
  - rewrite get_one in G. apply nth_error_In in G. rewrite Forall_forall in F. now apply F.
  - apply get_more in G as (kd & id & l' & E & G). apply nth_error_In in E. rewrite Forall_forall in F. apply F in E. apply ok_holds in E as (_ & _ & E).
    exact (IH l' x E G).
Qed.
Lemma Forall_upd {A} (P : A -> Prop) n x l : Forall P l -> P x -> Forall P (upd n x l).
Proof. intros F X. revert n. induction F; intros [|n]; cbn; constructor; auto. Qed.
Lemma ok_set n y : ok n y -> forall p l, Forall (ok n) l -> Forall (ok n) (set p y l).
Proof.
  intros Y. induction p as [|k [|j p] IH]; intros l F; [exact F|rewrite set_one; now apply Forall_upd|].
  cbn [set]. destruct (nth_error l k) as [[c|kd id l']|] eqn:E; auto. apply Forall_upd; [exact F|].
  assert (O : ok n (Holds kd id l')) by (rewrite Forall_forall in F; apply F; exact (nth_error_In _ _ E)).
  apply ok_holds in O as (O1 & O2 & O3). apply ok_holds. split; [exact O1|]. split; [exact O2|]. exact (IH l' O3).
Qed.
Lemma ok_S n x : ok n x -> ok (S n) x.
Proof.
  induction x as [c|k id l IH] using item_rect2; intros O.
  - destruct O as (O1 & O2 & O3 & O4). split; [exact O1|]. split; [exact O2|]. split; [intros i E; specialize (O3 i E); lia|exact O4].
  - apply ok_holds in O as (O1 & O2 & O3). apply ok_holds. split; [exact O1|]. split; [lia|]. rewrite Forall_forall in *. auto.
Qed.
Lemma ok_nothing n k : k <> Func -> ok n (Leaf (nothing k)).
Proof. intros N. cbn. repeat split; auto; try discriminate. destruct k; congruence. Qed.
Lemma ok_top n x i : ok n x -> cId (top x) = Some i -> (i < n)%nat.
Proof. destruct x; [intros (_ & _ & H & _); auto|]. intros (_ & H & _). cbn. intros [= <-]. exact H. Qed.
Lemma ok_owning n x : ok n x -> kindOf x = Owning -> (exists id l, x = Holds Owning id l) \/ x = Leaf (nothing Owning).
Proof.
  destruct x as [[k i o]|k id l]; cbn; intros O E; subst; [right|left; eauto].
  destruct O as (_ & [->|[D _]] & _ & X); [|discriminate]. unfold nothing. now rewrite X.
Qed.
Lemma conc_owning m n x : ok n x -> kindOf x = Owning -> mkSlot Owning (sPtr (conc m (top x))) true = conc m (top x).
Proof. intros O E. destruct (ok_owning n x O E) as [(id & l & ->)| ->]; reflexivity. Qed.
Lemma entries_ok n x : ok n x -> Forall (fun e => (fst e < n)%nat /\ Forall (fun c => forall i, cId c = Some i -> (i < n)%nat) (snd e)) (entries x).
Proof.
  induction x as [c|k id l IH] using item_rect2; intros O; [constructor|]. apply ok_holds in O as (_ & O2 & O3). rewrite entries_holds. constructor.
  - split; [exact O2|]. cbn. rewrite Forall_forall in *. intros c I. apply in_map_iff in I as (x & <- & I). intros i. apply ok_top. auto.
  - clear O2. induction O3 as [|x l X L IHl]; cbn; [constructor|]. inversion IH; subst. apply Forall_app. auto.
Qed.
Lemma entriesL_ok n l : Forall (ok n) l -> Forall (fun e => (fst e < n)%nat /\ Forall (fun c => forall i, cId c = Some i -> (i < n)%nat) (snd e)) (entriesL l).
Proof. induction 1; cbn; [constructor|]. apply Forall_app. split; [now apply entries_ok|assumption]. Qed.
Lemma conc_ext m m' n t : (forall i, (i < n)%nat -> m' i = m i) -> Forall (fun c => forall i, cId c = Some i -> (i < n)%nat) t -> map (conc m') t = map (conc m) t.
Proof.
  intros X F. induction F as [|c t C F IH]; cbn; [reflexivity|]. f_equal; [|exact IH]. unfold conc. f_equal. destruct (cId c) as [i|]; [|reflexivity]. cbn.
  rewrite X; [reflexivity|]. now apply C.
Qed.
Lemma rel_ext m m' n l s : (forall i, (i < n)%nat -> m' i = m i) -> Forall (ok n) l -> rel m l [] s -> rel m' l [] s.
Proof.
  intros X F (H1 & H2 & H3 & H4). unfold rel. cbn [entriesL] in *. rewrite app_nil_r in *. pose proof (entriesL_ok n l F) as EO.
  assert (KE : map (fun e : nat * list content => m' (fst e)) (entriesL l) = map (fun e => m (fst e)) (entriesL l)).
  { apply map_ext_in. intros e I. rewrite Forall_forall in EO. apply X. now apply EO. }
  split; [|split; [|split]].
  - rewrite (conc_ext m m' n); [exact H1|exact X|]. rewrite Forall_forall in *. intros c I. apply in_map_iff in I as (x & <- & I). intros i. apply ok_top. auto.
  - intros id t I. rewrite Forall_forall in EO. pose proof (EO _ I) as (O1 & O2). cbn [fst snd] in *. rewrite X by exact O1. rewrite (conc_ext m m' n); auto.
  - now rewrite KE.
  - now rewrite KE.
Qed.

Lemma get_back : forall p q l x y o, ~ inside p q -> get q l = Some x -> get p (set q y l) = Some o -> exists o', get p l = Some o' /\ (p <> q -> top o' = top o).
Proof.
  induction p as [|n [|k p] IH]; intros q l x y o I H G; [discriminate| |].
  - destruct q as [|j [|i q]]; [discriminate| |].
    + rewrite !get_one in *. rewrite set_one in G. destruct (Nat.eq_dec j n) as [->|D]; [exists x; split; [exact H|congruence]|].
      rewrite upd_other in G by auto. eauto.
    + rewrite get_one in *. apply get_more in H as (kd & id & l' & E & H). rewrite (set_more _ _ _ _ _ _ _ _ E) in G.
      destruct (Nat.eq_dec j n) as [->|D].
      * rewrite upd_nth in G by exact (nth_len _ _ _ E). injection G as <-. exists (Holds kd id l'). split; [exact E|reflexivity].
      * rewrite upd_other in G by auto. eauto.
  - destruct q as [|j [|i q]]; [discriminate| |].
    + destruct (Nat.eq_dec j n) as [->|D]; [elim I; apply inside_one|]. rewrite set_one in G. cbn [get] in *. rewrite upd_other in G by auto. eauto.
    + apply get_more in H as (kd & id & l' & E & H). rewrite (set_more _ _ _ _ _ _ _ _ E) in G. destruct (Nat.eq_dec j n) as [->|D].
      * cbn [get] in G |- *. rewrite upd_nth in G by exact (nth_len _ _ _ E). rewrite E.
        destruct (IH (i :: q) l' x y o) as (o' & G' & T); [intros X; apply I; now apply inside_cons|exact H|exact G|].
        exists o'. split; [exact G'|]. intros N. apply T. congruence.
      * cbn [get] in G |- *. rewrite upd_other in G by auto. eauto.
Qed.

Section M.
Context (m : nat -> nat).
Lemma rel_get_aloc (l : list item) p x : get p l = Some x -> exists a, aloc p l = Some a.
Proof. intros G. destruct (ctx p l x G) as (a & _ & A & _). eauto. Qed.
Lemma rel_replace n l F s p old a y : rel m l (y :: F) s -> get p l = Some old -> aloc p l = Some a -> ok n old ->
  exists s1 s2, destructSlot (conc m (top old)) s = Some s1 /\ writeAt (cl m a) (conc m (top y)) s1 = Some s2 /\
    rel m (set p y l) F s2 /\ made s2 = made s /\ gone s2 = gone s ++ order old.
Proof.
  intros R G A O.
  assert (R1 : rel m (set p (Leaf (top old)) l) (old :: y :: F) s) by (apply (rel_swap m l (y :: F) s p old); auto).
  destruct (rel_destroy m n _ _ _ _ O R1) as (s1 & D & R2 & M2 & G2).
  destruct (rel_write m _ (y :: F) s1 p (Leaf (top old)) a y F R2) as (s2 & W & R3 & M3 & G3).
  - exact (get_set _ _ _ _ G).
  - destruct (ctx p l old G) as (a' & R0 & A' & C). rewrite <- A.
    assert (X : forall p l x z, get p l = Some x -> aloc p (set p z l) = aloc p l).
    { clear. induction p as [|n [|k p] IH]; intros l x z G; [reflexivity| |].
      - rewrite get_one in G. rewrite set_one. cbn [aloc]. rewrite upd_nth by exact (nth_len _ _ _ G). now rewrite G.
      - apply get_more in G as (kd & id & l' & E & G). rewrite (set_more _ _ _ _ _ _ _ _ E), !aloc_more. rewrite upd_nth by exact (nth_len _ _ _ E). rewrite E.
        now rewrite (IH _ _ _ G). }
    exact (X _ _ _ _ G).
  - cbn [entries app entriesL]. reflexivity.
  - exists s1, s2. split; [exact D|]. split; [exact W|]. rewrite (set_set _ _ _ _ _ G) in R3. split; [exact R3|]. split; congruence.
Qed.
Lemma aloc_self : forall p l x z, get p l = Some x -> aloc p (set p z l) = aloc p l.
Proof.
  induction p as [|n [|k p] IH]; intros l x z G; [reflexivity| |].
  - rewrite get_one in G. rewrite set_one. cbn [aloc]. rewrite upd_nth by exact (nth_len _ _ _ G). now rewrite G.
  - apply get_more in G as (kd & id & l' & E & G). rewrite (set_more _ _ _ _ _ _ _ _ E), !aloc_more. rewrite upd_nth by exact (nth_len _ _ _ E). rewrite E.
    now rewrite (IH _ _ _ G).
Qed.
Lemma get_entries l p k i t : get p l = Some (Holds k i t) -> In i (map fst (entriesL l)).
Proof.
  intros G. destruct (ctx _ _ _ G) as (a & R0 & _ & C). destruct a as [j|id j].
  - destruct C as (_ & _ & C). destruct (C (Holds k i t)) as (C1 & _). rewrite (set_get _ _ _ G) in C1.
    apply (Permutation_in _ (Permutation_map fst (Permutation_sym C1))). rewrite entries_holds. now left.
  - destruct C as (u & _ & C). destruct (C (Holds k i t)) as (C1 & _). rewrite (set_get _ _ _ G) in C1.
    apply (Permutation_in _ (Permutation_map fst (Permutation_sym C1))). rewrite entries_holds. now left.
Qed.
Lemma floating_differs l x F s p k i t k' j u : rel m l (x :: F) s -> get p l = Some (Holds k i t) -> x = Holds k' j u -> m i <> m j.
Proof.
  intros (_ & _ & H3 & _) G -> Q. apply get_entries in G. cbn [entriesL] in H3. rewrite map_app in H3. rewrite entries_holds in H3.
  apply NoDup_remove in H3 as (_ & N). apply N. apply in_or_app. left. cbn [fst]. rewrite <- Q. apply in_map_iff in G as (e & <- & I).
  exact (in_map (fun e => m (fst e)) _ _ I).
Qed.
Lemma owning_differs n l x F s p old : rel m l (x :: F) s -> get p l = Some old -> ok n old -> ok n x -> kindOf old = Owning -> kindOf x = Owning ->
  ptrEqb (sPtr (conc m (top old))) None || negb (ptrEqb (sPtr (conc m (top old))) (sPtr (conc m (top x)))) = true.
Proof.
  intros R G O1 O2 K1 K2. destruct (ok_owning n old O1 K1) as [(i & t & ->)| ->]; [|reflexivity].
  destruct (ok_owning n x O2 K2) as [(j & u & ->)| ->]; [|reflexivity]. cbn. pose proof (floating_differs _ _ _ _ _ _ _ _ _ _ _ R G eq_refl) as N.
  apply Nat.eqb_neq in N. now rewrite N.
Qed.
Lemma is_ok l F s p x a : rel m l F s -> get p l = Some x -> aloc p l = Some a -> kindAt (cl m a) s = Some (kindOf x).
Proof. intros R G A. unfold kindAt. rewrite (rel_read m _ _ _ _ _ _ R G A). reflexivity. Qed.
(** Releasing. *)
Lemma release_ok n l s q x b : rel m l [] s -> get q l = Some x -> aloc q l = Some b -> ok n x -> kindOf x = Owning ->
  exists s1, release (cl m b) s = Some (sPtr (conc m (top x)), s1) /\ rel m (set q (Leaf (nothing Owning)) l) [x] s1 /\ made s1 = made s /\ gone s1 = gone s.
Proof.
  intros R G B O K. unfold release. rewrite (rel_read m _ _ _ _ _ _ R G B).
  destruct (rel_write m l [] s q x b (Leaf (nothing Owning)) [x] R G B) as (s1 & W & R1 & M1 & G1).
  { cbn [entries entriesL app]. now rewrite app_nil_r. }
  cbn [top] in W. unfold kindOf in K. cbn [conc sKind]. rewrite K. change (conc m (nothing Owning)) with (empty Owning) in W. rewrite W.
  exists s1. auto.
Qed.
(** Assigning from one place to another. *)
Lemma move_ok n l s p q x old a b k : rel m l [] s -> get p l = Some old -> get q l = Some x -> aloc p l = Some a -> aloc q l = Some b ->
  p <> q -> ~ inside p q -> ~ inside q p -> ok n old -> k <> Func ->
  exists s1 s2 s3, destructSlot (conc m (top old)) s = Some s1 /\ readAt (cl m b) s1 = Some (conc m (top x)) /\ writeAt (cl m b) (empty k) s1 = Some s2 /\
    writeAt (cl m a) (conc m (top x)) s2 = Some s3 /\ rel m (set p x (set q (Leaf (nothing k)) l)) [] s3 /\ made s3 = made s /\ gone s3 = gone s ++ order old.
Proof.
  intros R G H A B N I1 I2 O K.
  assert (R1 : rel m (set p (Leaf (top old)) l) [old] s) by (apply (rel_swap m l [] s p old); auto; cbn [entries entriesL app]; now rewrite app_nil_r).
  destruct (rel_destroy m n _ _ _ _ O R1) as (s1 & D & R2 & M2 & G2).
  assert (H1 : get q (set p (Leaf (top old)) l) = Some x) by (rewrite (get_apart p q l old); auto).
  assert (B1 : aloc q (set p (Leaf (top old)) l) = Some b) by (rewrite (aloc_set q p l old); auto).
  destruct (rel_write m _ [] s1 q x b (Leaf (nothing k)) [x] R2 H1 B1) as (s2 & W2 & R3 & M3 & G3).
  { cbn [entries entriesL app]. now rewrite app_nil_r. }
  assert (GP : get p (set p (Leaf (top old)) l) = Some (Leaf (top old))) by exact (get_set _ _ _ _ G).
  assert (H2 : get p (set q (Leaf (nothing k)) (set p (Leaf (top old)) l)) = Some (Leaf (top old))) by (rewrite (get_apart q p _ x); auto).
  assert (A2 : aloc p (set q (Leaf (nothing k)) (set p (Leaf (top old)) l)) = Some a).
  { rewrite (aloc_set p q _ x); auto. rewrite (aloc_self _ _ _ _ G). exact A. }
  destruct (rel_write m _ [x] s2 p _ a x [] R3 H2 A2) as (s3 & W3 & R4 & M4 & G4).
  { cbn [entries entriesL app]. reflexivity. }
  exists s1, s2, s3. split; [exact D|]. split; [exact (rel_read m _ _ _ _ _ _ R2 H1 B1)|]. split; [destruct k; [exact W2|exact W2|congruence]|]. split; [exact W3|].
  split; [|split; congruence]. rewrite (set_apart p q l old x) in R4 by auto. rewrite (set_set p (set q (Leaf (nothing k)) l) old) in R4; [exact R4|].
  rewrite (get_apart q p l x); auto.
Qed.
End M.

(** ** The commands *)
Definition inv (m : nat -> nat) (l : list item) (n : nat) (g : list nat) (s : state) : Prop :=
  rel m l [] s /\ Forall (ok n) l /\ made s = n /\ gone s = g.
Lemma entriesL_app l1 l2 : entriesL (l1 ++ l2) = entriesL l1 ++ entriesL l2.
Proof. induction l1 as [|x l1 IH]; cbn; [reflexivity|]. now rewrite IH, app_assoc. Qed.
Lemma kindEqb_refl k : kindEqb k k = true. Proof. now destruct k. Qed.
Lemma lookup_app_none a h x : lookup a h = None -> lookup a (h ++ [(a, x)]) = Some x.
Proof. induction h as [|[b y] h IH]; cbn; [now rewrite Nat.eqb_refl|]. destruct (a =? b)%nat; [discriminate|exact IH]. Qed.
Lemma lookup_app_some a h b x y : lookup a h = Some y -> lookup a (h ++ [(b, x)]) = Some y.
Proof. induction h as [|[c z] h IH]; cbn; [discriminate|]. destruct (a =? c)%nat; [auto|exact IH]. Qed.
Lemma lookup_none a h : ~ In a (map fst h) -> lookup a h = None.
Proof. induction h as [|[b y] h IH]; cbn; [reflexivity|]. intros N. destruct (a =? b)%nat eqn:E; [apply Nat.eqb_eq in E; subst; tauto|]. apply IH. tauto. Qed.

Section Fresh.
Context (fresh : list nat -> nat) (HF : forall l, ~ In (fresh l) l).
Lemma alloc_ok m l n s ks : rel m l [] s -> Forall (ok n) l -> made s = n ->
  exists m' s', rel m' l [] s /\ alloc fresh (map empty ks) s = (m' n, s') /\ rel m' l [Holds Owning n (map (fun k => Leaf (nothing k)) ks)] s' /\
    made s' = S n /\ gone s' = gone s.
Proof.
  intros R F M. set (a := fresh (map fst (heap s))). exists (fun i => if (i =? n)%nat then a else m i). eexists.
  assert (R' : rel (fun i => if (i =? n)%nat then a else m i) l [] s).
  { apply (rel_ext m _ n); auto. intros i L. destruct (i =? n)%nat eqn:E; [apply Nat.eqb_eq in E; lia|reflexivity]. }
  split; [exact R'|]. split.
  { unfold alloc. rewrite Nat.eqb_refl. reflexivity. }
  split; [|split; [cbn; now rewrite M|reflexivity]].
  clear R. set (m' := fun i => if (i =? n)%nat then a else m i) in *. destruct R' as (H1 & H2 & H3 & H4).
  assert (MN : m' n = a) by (unfold m'; now rewrite Nat.eqb_refl).
  assert (EN : entriesL [Holds Owning n (map (fun k => Leaf (nothing k)) ks)] = [(n, map nothing ks)]).
  { cbn [entriesL]. rewrite entries_holds, app_nil_r. rewrite map_map. cbn [top]. f_equal. clear. induction ks; [reflexivity|assumption]. }
  unfold rel, relE. rewrite EN. cbn [entriesL] in *. rewrite app_nil_r in *. cbn [vars heap].
  split; [exact H1|]. split; [|split].
  - intros id t I. apply in_app_or in I as [I|[I|[]]].
    + apply lookup_app_some. now apply H2.
    + injection I as <- <-. rewrite MN, M. fold a. rewrite lookup_app_none by (apply lookup_none; apply HF). f_equal. f_equal. rewrite map_map.
      apply map_ext. now intros [].
  - rewrite map_app. cbn [map fst]. apply (Permutation_NoDup (Permutation_app_comm [m' n] _)). cbn [app]. constructor; [|exact H3].
    rewrite MN. intros I. apply (HF (map fst (heap s))). fold a. exact (Permutation_in _ (Permutation_sym H4) I).
  - rewrite !map_app. cbn [map fst]. rewrite MN. fold a. now apply Permutation_app_tail.
Qed.

Lemma step_ok m l n g s c o l' n' g' : inv m l n g s -> does l n g c o l' n' g' ->
  exists m' s', step fresh c s = Some (o, s') /\ inv m' l' n' g' s'.
Proof.
  intros (R & OK & M & GO) D. destruct D.
  - (* Begin *)
    exists m. eexists. split; [reflexivity|]. split; [|split; [apply Forall_app; split; [exact OK|constructor; [now apply ok_nothing|constructor]]|split; assumption]].
    destruct R as (H1 & H2). unfold rel, relE. rewrite entriesL_app. cbn [entriesL entries app vars heap]. rewrite !app_nil_r.
    cbn [entriesL] in H2. rewrite app_nil_r in H2. split; [|exact H2]. rewrite H1, !map_app. reflexivity.
  - (* End *)
    apply Forall_app in OK as (OK & OX). inversion OX as [|? ? O1 _]; subst. cbn [step].
    destruct R as (H1 & H2). rewrite H1, !map_app. cbn [map]. rewrite rev_app_distr. cbn [rev app]. rewrite rev_involutive.
    destruct (rel_destroy m (made s) l x [] (mkState (heap s) (map (conc m) (map top l)) (made s) (gone s)) O1) as (s1 & D & R1 & M1 & G1).
    { split; [reflexivity|]. cbn [heap]. rewrite entriesL_app in H2. cbn [entriesL] in *. rewrite !app_nil_r in *. exact H2. }
    rewrite D. exists m, s1. split; [reflexivity|]. split; [exact R1|]. cbn in *. auto.
  - (* Make *)
    destruct (rel_get_aloc l p old H) as (a & A). destruct (alloc_ok m l n s ks R OK M) as (m' & s1 & R0 & E & R1 & M1 & G1).
    cbn [step]. rewrite (rel_locate m' _ _ _ _ _ _ R0 H A). unfold is. rewrite (is_ok m' _ _ _ _ _ _ R0 H A), H0. cbn [kindEqb].
    unfold make. rewrite E. unfold assignRaw. rewrite (rel_read m' _ _ _ _ _ _ R1 H A).
    assert (ON : ok (S n) (Holds Owning n (map (fun k => Leaf (nothing k)) ks))).
    { apply ok_holds. split; [discriminate|]. split; [lia|]. apply Forall_forall. intros x I. apply in_map_iff in I as (k & <- & I). apply ok_nothing. congruence. }
    pose proof (ok_S _ _ (ok_get n p l old OK H)) as OO.
    pose proof (owning_differs m' (S n) _ _ _ _ _ _ R1 H OO ON H0 eq_refl) as DF. cbn [top conc sPtr cId option_map] in DF. cbn [top conc sPtr] in DF |- *. rewrite DF.
    destruct (rel_replace m' (S n) l [] s1 p old a _ R1 H A OO) as (s2 & s3 & D & W & R3 & M3 & G3).
    rewrite D. cbn [top conc cKind cId cOwns option_map] in W. unfold conc in W. cbn in W. rewrite W. exists m', s3. split; [reflexivity|].
    split; [exact R3|]. split; [apply ok_set; [exact ON|]; rewrite Forall_forall in *; intros y Y; apply ok_S; auto|]. split; congruence.
  - (* Assign, owned *)
    destruct (rel_get_aloc l p old H) as (a & A). destruct (rel_get_aloc l q x H0) as (b & B).
    pose proof (ok_get n p l old OK H) as OO. pose proof (ok_get n q l x OK H0) as OX.
    cbn [step]. rewrite (rel_locate m _ _ _ _ _ _ R H A), (rel_locate m _ _ _ _ _ _ R H0 B). unfold is.
    rewrite (is_ok m _ _ _ _ _ _ R H A), (is_ok m _ _ _ _ _ _ R H0 B), H1, H2. cbn [kindEqb].
    unfold assignOwned. rewrite (rel_read m _ _ _ _ _ _ R H A), (rel_read m _ _ _ _ _ _ R H0 B).
    assert (R1 : rel m (set p (Leaf (top old)) l) [old] s) by (apply (rel_swap m l [] s p old); auto; cbn [entries entriesL app]; now rewrite app_nil_r).
    assert (G1 : get q (set p (Leaf (top old)) l) = Some x) by (rewrite (get_apart p q l old); auto).
    pose proof (owning_differs m n _ _ _ _ _ _ R1 G1 OX OO H2 H1) as DF.
    assert (DF' : ptrEqb (sPtr (conc m (top old))) None || negb (ptrEqb (sPtr (conc m (top old))) (sPtr (conc m (top x)))) = true).
    { destruct (sPtr (conc m (top old))) as [i|]; [|reflexivity]. destruct (sPtr (conc m (top x))) as [j|]; [|reflexivity]. cbn in *. now rewrite Nat.eqb_sym. }
    rewrite DF'. destruct (move_ok m n l s p q x old a b Owning R H H0 A B) as (s1 & s2 & s3 & X1 & X2 & X3 & X4 & X5 & X6 & X7); auto; [discriminate|].
    rewrite X1, X2, X3, (conc_owning m n x OX H2), X4. exists m, s3. split; [reflexivity|]. split; [exact X5|].
    split; [apply ok_set; [exact OX|]; apply ok_set; [now apply ok_nothing|exact OK]|]. split; congruence.
  - (* Assign, optional *)
    destruct (rel_get_aloc l p old H) as (a & A). destruct (rel_get_aloc l q x H0) as (b & B).
    pose proof (ok_get n p l old OK H) as OO. pose proof (ok_get n q l x OK H0) as OX.
    cbn [step]. rewrite (rel_locate m _ _ _ _ _ _ R H A), (rel_locate m _ _ _ _ _ _ R H0 B). unfold is.
    rewrite (is_ok m _ _ _ _ _ _ R H A), (is_ok m _ _ _ _ _ _ R H0 B), H1, H2. cbn [kindEqb].
    unfold assignOptional. rewrite (rel_read m _ _ _ _ _ _ R H A), (rel_read m _ _ _ _ _ _ R H0 B).
    rewrite (differ_ok m l [] s l _ _ R (fun i => rel_alive m l [] s i R) H6).
    destruct (move_ok m n l s p q x old a b Optional R H H0 A B) as (s1 & s2 & s3 & X1 & X2 & X3 & X4 & X5 & X6 & X7); auto; [discriminate|].
    rewrite X1, X2, X3, X4. exists m, s3. split; [reflexivity|]. split; [exact X5|].
    split; [apply ok_set; [exact OX|]; apply ok_set; [now apply ok_nothing|exact OK]|]. split; congruence.
  - (* Hand *)
    subst l1. destruct (rel_get_aloc l q x H) as (b & B). destruct (rel_get_aloc _ p old H1) as (a & A).
    pose proof (ok_get n q l x OK H) as OX. assert (OK1 : Forall (ok n) (set q (Leaf (nothing Owning)) l)) by (apply ok_set; [now apply ok_nothing|exact OK]).
    pose proof (ok_get n p _ old OK1 H1) as OO.
    destruct (release_ok m n l s q x b R H B OX H3) as (s1 & E & R1 & M1 & G1).
    destruct (get_back p q l x _ old H4 H H1) as (o' & GP & TP). pose proof A as A0. rewrite (aloc_set p q l x _ H4 H) in A0.
    assert (NPQ : p <> q) by (intros ->; rewrite (get_set _ _ _ _ H) in H1; injection H1 as <-; discriminate).
    cbn [step]. rewrite (rel_locate m _ _ _ _ _ _ R GP A0), (rel_locate m _ _ _ _ _ _ R H B). unfold is.
    rewrite (is_ok m _ _ _ _ _ _ R GP A0), (is_ok m _ _ _ _ _ _ R H B). unfold kindOf at 1. rewrite (TP NPQ). fold (kindOf old). rewrite H2, H3. cbn [kindEqb andb].
    rewrite E. unfold assignTemp. rewrite (rel_read m _ _ _ _ _ _ R1 H1 A).
    assert (CN : mkSlot Optional (sPtr (conc m (top x))) true = conc m (top (asKind Optional x))) by (destruct x; reflexivity). rewrite CN.
    rewrite (differ_ok m _ _ s1 l _ _ R1); [| |exact H5].
    2:{ intros i I. apply (Permutation_in _ (orders_entries l)) in I. destruct (ctx q l x H) as (c & R0 & _ & C). destruct c as [j|j u].
        - destruct C as (_ & _ & C). destruct (C x) as (C1 & _). destruct (C (Leaf (nothing Owning))) as (C2 & _). rewrite (set_get _ _ _ H) in C1.
          apply (Permutation_in _ (Permutation_map fst C1)) in I. rewrite map_app in I. rewrite map_app. apply in_or_app. apply in_app_or in I as [I|I].
          + right. cbn [entriesL]. now rewrite app_nil_r.
          + left. apply (Permutation_in _ (Permutation_map fst (Permutation_sym C2))). exact I.
        - destruct C as (t & CT & C). destruct (C x) as (C1 & _). destruct (C (Leaf (nothing Owning))) as (C2 & _). rewrite (set_get _ _ _ H) in C1.
          apply (Permutation_in _ (Permutation_map fst C1)) in I. rewrite map_app in I. rewrite map_app. apply in_or_app. apply in_app_or in I as [I|I].
          + right. cbn [entriesL]. now rewrite app_nil_r.
          + left. apply (Permutation_in _ (Permutation_map fst (Permutation_sym C2))). exact I. }
    assert (R1' : rel m (set q (Leaf (nothing Owning)) l) [asKind Optional x] s1).
    { unfold rel in *. replace (entriesL [asKind Optional x]) with (entriesL [x]); [exact R1|]. destruct x; reflexivity. }
    destruct (rel_replace m n _ [] s1 p old a _ R1' H1 A OO) as (s2 & s3 & D & W & R3 & M3 & G3).
    rewrite D, W. exists m, s3. split; [reflexivity|]. split; [exact R3|]. split; [|split; congruence].
    apply ok_set; [|exact OK1]. destruct (ok_owning n x OX H3) as [(i & t & ->)| ->]; cbn [asKind].
    + apply ok_holds in OX as (_ & O2 & O3). apply ok_holds. split; [discriminate|]. auto.
    + cbn. repeat split; auto; try discriminate.
  - (* Raw *)
    subst l1. destruct (rel_get_aloc l q x H) as (b & B). destruct (rel_get_aloc _ p old H1) as (a & A).
    pose proof (ok_get n q l x OK H) as OX. assert (OK1 : Forall (ok n) (set q (Leaf (nothing Owning)) l)) by (apply ok_set; [now apply ok_nothing|exact OK]).
    pose proof (ok_get n p _ old OK1 H1) as OO.
    destruct (release_ok m n l s q x b R H B OX H3) as (s1 & E & R1 & M1 & G1).
    destruct (get_back p q l x _ old H4 H H1) as (o' & GP & TP). pose proof A as A0. rewrite (aloc_set p q l x _ H4 H) in A0.
    assert (KP : kindOf o' = Owning).
    { destruct (list_eq_dec Nat.eq_dec p q) as [->|N]; [rewrite H in GP; injection GP as <-; exact H3|]. unfold kindOf. rewrite (TP N). exact H2. }
    cbn [step]. rewrite (rel_locate m _ _ _ _ _ _ R GP A0), (rel_locate m _ _ _ _ _ _ R H B). unfold is.
    rewrite (is_ok m _ _ _ _ _ _ R GP A0), (is_ok m _ _ _ _ _ _ R H B). rewrite KP, H3. cbn [kindEqb andb].
    rewrite E. unfold assignRaw. rewrite (rel_read m _ _ _ _ _ _ R1 H1 A).
    rewrite (owning_differs m n _ _ _ _ _ _ R1 H1 OO OX H2 H3).
    destruct (rel_replace m n _ [] s1 p old a _ R1 H1 A OO) as (s2 & s3 & D & W & R3 & M3 & G3).
    rewrite D, (conc_owning m n x OX H3), W. exists m, s3. split; [reflexivity|]. split; [exact R3|]. split; [|split; congruence].
    apply ok_set; [exact OX|exact OK1].
  - (* Borrow *)
    destruct (rel_get_aloc l p old H) as (a & A). destruct (rel_get_aloc l q x H0) as (b & B).
    pose proof (ok_get n p l old OK H) as OO. pose proof (ok_get n q l x OK H0) as OX.
    cbn [step]. rewrite (rel_locate m _ _ _ _ _ _ R H A), (rel_locate m _ _ _ _ _ _ R H0 B). unfold is.
    rewrite (is_ok m _ _ _ _ _ _ R H A), H1. cbn [kindEqb]. rewrite (rel_read m _ _ _ _ _ _ R H0 B). unfold assignTemp. rewrite (rel_read m _ _ _ _ _ _ R H A).
    assert (CN : mkSlot Optional (sPtr (conc m (top x))) false = conc m (mkContent Optional (cId (top x)) false)) by reflexivity. rewrite CN.
    rewrite (differ_ok m l [] s l _ _ R (fun i => rel_alive m l [] s i R) H2).
    destruct (rel_replace m n l [] s p old a (Leaf (mkContent Optional (cId (top x)) false)) R H A OO) as (s2 & s3 & D & W & R3 & M3 & G3).
    cbn [top] in W. rewrite D, W. exists m, s3. split; [reflexivity|]. split; [exact R3|]. split; [|split; congruence].
    apply ok_set; [|exact OK]. cbn. repeat split; auto; try discriminate. intros i. apply (ok_top n x i OX).
  - (* Clear *)
    destruct (rel_get_aloc l p old H) as (a & A). pose proof (ok_get n p l old OK H) as OO.
    cbn [step]. rewrite (rel_locate m _ _ _ _ _ _ R H A). unfold is. rewrite (is_ok m _ _ _ _ _ _ R H A), H0. cbn [kindEqb].
    unfold clear. rewrite (rel_read m _ _ _ _ _ _ R H A).
    destruct (rel_replace m n l [] s p old a (Leaf (nothing Owning)) R H A OO) as (s2 & s3 & D & W & R3 & M3 & G3).
    change (conc m (top (Leaf (nothing Owning)))) with (empty Owning) in W. rewrite D, W. exists m, s3. split; [reflexivity|]. split; [exact R3|].
    split; [apply ok_set; [now apply ok_nothing|exact OK]|]. split; congruence.
  - (* Look *)
    destruct (rel_get_aloc l p x H) as (a & A). cbn [step]. rewrite (rel_locate m _ _ _ _ _ _ R H A), (rel_read m _ _ _ _ _ _ R H A). cbn [conc sPtr].
    exists m, s. destruct (cId (top x)) as [i|] eqn:EI; cbn [option_map].
    + specialize (H0 i eq_refl). apply (rel_alive m l [] s i R) in H0. apply in_map_iff in H0 as ([j t] & <- & I). destruct R as (Y1 & Y2 & Y3 & Y4). cbn [fst]. rewrite (Y2 _ _ I).
      split; [reflexivity|]. split; [split; auto|auto].
    + split; [reflexivity|]. split; auto.
Qed.
Lemma run_ok m l n g s cs o l' n' g' : inv m l n g s -> doesAll l n g cs o l' n' g' -> exists m' s', run fresh cs s = Some (o, s') /\ inv m' l' n' g' s'.
Proof.
  intros I D. revert m s I. induction D as [l n g|l n g c o l1 n1 g1 cs o' l2 n2 g2 D1 D2 IH]; intros m s I; [exists m, s; split; [reflexivity|exact I]|].
  destruct (step_ok _ _ _ _ _ _ _ _ _ _ I D1) as (m1 & s1 & S1 & I1). destruct (IH m1 s1 I1) as (m2 & s2 & S2 & I2).
  exists m2, s2. cbn [run]. rewrite S1, S2. auto.
Qed.
Lemma start_inv m : inv m [] 0 [] start.
Proof. split; [|auto]. split; [reflexivity|]. split; [intros ? ? []|]. split; constructor. Qed.
Lemma owners_do cs o l n g : doesAll [] 0 [] cs o l n g ->
  exists s, run fresh cs start = Some (o, s) /\ gone s = g /\ made s = n /\ length (heap s) = length (orders l) /\ length (vars s) = length l.
Proof.
  intros D. destruct (run_ok (fun i => i) _ _ _ _ _ _ _ _ _ (start_inv _) D) as (m & s & S1 & (R & _ & M & G)). exists s.
  split; [exact S1|]. split; [exact G|]. split; [exact M|]. destruct R as (H1 & _ & _ & H4). split.
  - apply Permutation_length in H4. cbn [entriesL] in H4. rewrite app_nil_r, !map_length in H4. rewrite H4. rewrite (Permutation_length (orders_entries l)). now rewrite map_length.
  - rewrite H1. now rewrite !map_length.
Qed.
End Fresh.

(** ** Once *)
Lemma orders_app l1 l2 : Permutation (orders (l1 ++ l2)) (orders l1 ++ orders l2).
Proof.
  induction l1 as [|x l1 IH]; cbn [orders app]; [reflexivity|]. rewrite IH. rewrite <- !app_assoc. apply Permutation_app_head. apply Permutation_app_comm.
Qed.
Lemma orders_set p l x : get p l = Some x -> exists R, forall y, Permutation (orders (set p y l)) (order y ++ R).
Proof.
  intros G. destruct (ctx p l x G) as (a & R & _ & C). destruct a as [j|id j].
  - exists (map fst R). intros y. destruct C as (_ & _ & C). destruct (C y) as (C1 & _). rewrite orders_entries, C1, map_app, order_entries. reflexivity.
  - destruct C as (t & _ & C). exists (id :: map fst R). intros y. destruct (C y) as (C1 & _). rewrite orders_entries, C1, map_app, order_entries. reflexivity.
Qed.
Lemma orders_swap p l x y : get p l = Some x -> Permutation (order x ++ orders (set p y l)) (order y ++ orders l).
Proof.
  intros G. destruct (orders_set p l x G) as (R & H). rewrite (H y). pose proof (H x) as HX. rewrite (set_get _ _ _ G) in HX. rewrite HX.
  rewrite !app_assoc. apply Permutation_app_tail, Permutation_app_comm.
Qed.
Lemma replaced g p l x y : get p l = Some x -> Permutation ((g ++ order x) ++ orders (set p y l)) (order y ++ g ++ orders l).
Proof. intros G. rewrite <- app_assoc, (orders_swap p l x y G). rewrite !app_assoc. apply Permutation_app_tail, Permutation_app_comm. Qed.
Lemma order_as k x : order (asKind k x) = order x. Proof. now destruct x. Qed.
Lemma order_leaves ks : orders (map (fun k => Leaf (nothing k)) ks) = [].
Proof. induction ks as [|k ks IH]; cbn; [reflexivity|]. now rewrite IH. Qed.
Lemma does_once l n g c o l' n' g' : does l n g c o l' n' g' -> Permutation (seq 0 n) (g ++ orders l) -> Permutation (seq 0 n') (g' ++ orders l').
Proof.
  intros D P. destruct D.
  - rewrite orders_app. cbn. now rewrite app_nil_r.
  - rewrite P, orders_app, <- app_assoc. apply Permutation_app_head. cbn. apply Permutation_app_comm.
  - rewrite (replaced _ _ _ _ _ H). rewrite order_holds, order_leaves. cbn [app]. rewrite <- P. rewrite seq_S. cbn [Nat.add]. symmetry. apply Permutation_cons_append.
  - assert (G1 : get p (set q (Leaf (nothing Owning)) l) = Some old) by (rewrite (get_apart q p l x); auto). rewrite (replaced _ _ _ _ _ G1).
    pose proof (replaced g q l x (Leaf (nothing Owning)) H0) as Q. cbn [order app] in Q. rewrite <- app_assoc in Q.
    rewrite P, <- Q. rewrite !app_assoc. apply Permutation_app_tail, Permutation_app_comm.
  - assert (G1 : get p (set q (Leaf (nothing Optional)) l) = Some old) by (rewrite (get_apart q p l x); auto). rewrite (replaced _ _ _ _ _ G1).
    pose proof (replaced g q l x (Leaf (nothing Optional)) H0) as Q. cbn [order app] in Q. rewrite <- app_assoc in Q.
    rewrite P, <- Q. rewrite !app_assoc. apply Permutation_app_tail, Permutation_app_comm.
  - subst l1. rewrite (replaced _ _ _ _ _ H1). rewrite order_as.
    pose proof (replaced g q l x (Leaf (nothing Owning)) H) as Q. cbn [order app] in Q. rewrite <- app_assoc in Q.
    rewrite P, <- Q. rewrite !app_assoc. apply Permutation_app_tail, Permutation_app_comm.
  - subst l1. rewrite (replaced _ _ _ _ _ H1).
    pose proof (replaced g q l x (Leaf (nothing Owning)) H) as Q. cbn [order app] in Q. rewrite <- app_assoc in Q.
    rewrite P, <- Q. rewrite !app_assoc. apply Permutation_app_tail, Permutation_app_comm.
  - rewrite (replaced _ _ _ _ _ H). exact P.
  - rewrite (replaced _ _ _ _ _ H). exact P.
  - exact P.
Qed.
Lemma all_once l n g cs o l' n' g' : doesAll l n g cs o l' n' g' -> Permutation (seq 0 n) (g ++ orders l) -> Permutation (seq 0 n') (g' ++ orders l').
Proof. induction 1; auto. intros P. apply IHdoesAll. now apply (does_once _ _ _ _ _ _ _ _ H). Qed.

(** ** Uses that fail *)
Lemma run_app fresh cs1 cs2 s : run fresh (cs1 ++ cs2) s =
  match run fresh cs1 s with Some (o, s) => match run fresh cs2 s with Some (o', s) => Some (o ++ o', s) | None => None end | None => None end.
Proof.
  revert s. induction cs1 as [|c cs1 IH]; intros s; cbn [run app]; [destruct (run fresh cs2 s) as [[? ?]|]; reflexivity|].
  destruct (step fresh c s) as [[o s1]|]; [|reflexivity]. rewrite IH. destruct (run fresh cs1 s1) as [[o1 s2]|]; [|reflexivity].
  destruct (run fresh cs2 s2) as [[o2 s3]|]; [|reflexivity]. now rewrite app_assoc.
Qed.
Lemma aloc_inside : forall p l k i ks t x, get p l = Some (Holds k i ks) -> t <> [] -> get (p ++ t) l = Some x ->
  exists id j, aloc (p ++ t) l = Some (AField id j) /\ In id (map fst (entries (Holds k i ks))).
Proof.
  induction p as [|n [|j p] IH]; intros l k i ks t x G N H; [discriminate| |].
  - rewrite get_one in G. destruct t as [|u t]; [congruence|]. cbn [app] in *. apply get_more in H as (kd & id & l' & E & H). rewrite G in E. injection E as <- <- <-.
    rewrite aloc_more, G. destruct (ctx _ _ _ H) as (a & R & A & C). rewrite A. destruct a as [v|id v].
    + exists i, v. split; [reflexivity|]. rewrite entries_holds. now left.
    + exists id, v. split; [reflexivity|]. rewrite entries_holds. right. destruct C as (w & _ & C). destruct (C x) as (C1 & _). rewrite (set_get _ _ _ H) in C1.
      apply (Permutation_in _ (Permutation_map fst (Permutation_sym C1))). rewrite map_app. apply in_or_app. right. now left.
  - apply get_more in G as (kd & id & l' & E & G). cbn [app] in *. apply get_more in H as (kd' & id' & l2 & E' & H). rewrite E in E'. injection E' as <- <- <-.
    destruct (IH l' k i ks t x G N H) as (id' & v & A & I). rewrite aloc_more, E. cbn [app] in A. rewrite A. eauto.
Qed.
Section Fails.
Context (fresh : list nat -> nat) (HF : forall l, ~ In (fresh l) l).
Lemma reached cs o l n g : doesAll [] 0 [] cs o l n g -> exists m s, run fresh cs start = Some (o, s) /\ inv m l n g s.
Proof. intros D. exact (run_ok fresh HF (fun i => i) _ _ _ _ _ _ _ _ _ (start_inv _) D). Qed.
Lemma from_inside cs o l n g p q i ks x : doesAll [] 0 [] cs o l n g -> get p l = Some (Holds Owning i ks) -> inside q p -> get q l = Some x -> kindOf x = Owning ->
  run fresh (cs ++ [Assign p q]) start = None.
Proof.
  intros D G (t & N & ->) H K. destruct (reached _ _ _ _ _ D) as (m & s & E & R & OK & _ & _). rewrite run_app, E. cbn [run].
  destruct (aloc_inside p l _ _ _ t x G N H) as (id & j & B & I). destruct (rel_get_aloc l p _ G) as (a & A).
  pose proof (ok_get n p l _ OK G) as OO.
  enough (X : step fresh (Assign p (p ++ t)) s = None) by now rewrite X.
  cbn [step]. rewrite (rel_locate m _ _ _ _ _ _ R G A), (rel_locate m _ _ _ _ _ _ R H B). unfold is.
  rewrite (is_ok m _ _ _ _ _ _ R G A), (is_ok m _ _ _ _ _ _ R H B), K. cbn [kindOf top cKind kindEqb].
  unfold assignOwned. rewrite (rel_read m _ _ _ _ _ _ R G A), (rel_read m _ _ _ _ _ _ R H B).
  destruct (_ || _); [|reflexivity].
  assert (R1 : rel m (set p (Leaf (top (Holds Owning i ks))) l) [Holds Owning i ks] s) by (apply (rel_swap m l [] s p (Holds Owning i ks)); auto; cbn [entriesL app]; now rewrite app_nil_r).
  destruct (rel_destroy m n _ _ _ _ OO R1) as (s1 & D1 & R2 & _ & _). rewrite D1.
  assert (L : lookup (m id) (heap s1) = None).
  { apply lookup_none. intros Q. destruct R2 as (_ & _ & _ & P). apply (Permutation_in _ P) in Q. cbn [entriesL] in Q. rewrite app_nil_r in Q.
    destruct R1 as (_ & _ & ND & _). cbn [entriesL] in ND. rewrite app_nil_r, map_app in ND. rewrite in_map_iff in I. destruct I as (e & <- & I).
    apply in_map_iff in Q as (e' & Q & I'). 
    assert (X : forall (l1 l2 : list nat) x, NoDup (l1 ++ l2) -> In x l1 -> In x l2 -> False).
    { clear. induction l1 as [|y l1 IH]; intros l2 x ND I1 I2; [destruct I1|]. inversion ND as [|? ? N1 N2]; subst. destruct I1 as [->|I1]; [apply N1, in_or_app; now right|eauto]. }
    apply (X _ _ (m (fst e)) ND); [rewrite <- Q; exact (in_map (fun e => m (fst e)) _ _ I')|exact (in_map (fun e => m (fst e)) _ _ I)]. }
  cbn [cl readAt]. now rewrite L.
Qed.
Lemma to_itself cs o l n g p i ks : doesAll [] 0 [] cs o l n g -> get p l = Some (Holds Owning i ks) -> run fresh (cs ++ [Assign p p]) start = None.
Proof.
  intros D G. destruct (reached _ _ _ _ _ D) as (m & s & E & R & OK & _ & _). rewrite run_app, E. cbn [run].
  destruct (rel_get_aloc l p _ G) as (a & A). enough (X : step fresh (Assign p p) s = None) by now rewrite X.
  cbn [step]. rewrite (rel_locate m _ _ _ _ _ _ R G A). unfold is. rewrite (is_ok m _ _ _ _ _ _ R G A). cbn [kindOf top cKind kindEqb].
  unfold assignOwned. rewrite (rel_read m _ _ _ _ _ _ R G A). cbn. now rewrite Nat.eqb_refl.
Qed.
Lemma same_borrow cs o l n g p q old x i : doesAll [] 0 [] cs o l n g -> get p l = Some old -> top old = mkContent Optional (Some i) false -> get q l = Some x ->
  cId (top x) = Some i -> run fresh (cs ++ [Borrow p q]) start = None.
Proof.
  intros D G T H I. destruct (reached _ _ _ _ _ D) as (m & s & E & R & OK & _ & _). rewrite run_app, E. cbn [run].
  destruct (rel_get_aloc l p _ G) as (a & A). destruct (rel_get_aloc l q _ H) as (b & B). enough (X : step fresh (Borrow p q) s = None) by now rewrite X.
  cbn [step]. rewrite (rel_locate m _ _ _ _ _ _ R G A), (rel_locate m _ _ _ _ _ _ R H B). unfold is. rewrite (is_ok m _ _ _ _ _ _ R G A). unfold kindOf. rewrite T.
  cbn [cKind kindEqb]. rewrite (rel_read m _ _ _ _ _ _ R H B). unfold assignTemp. rewrite (rel_read m _ _ _ _ _ _ R G A), T. unfold same. cbn. rewrite I. cbn.
  now rewrite Nat.eqb_refl.
Qed.
End Fails.
