(* Owning pointers: the heap is the trees that the pointers own. *)
From Coq Require Import Lia Permutation.
From Verif Require Import OwnModel OwnSpec.
Local Open Scope list_scope.

(** ** Items *)
Lemma item_rect2 (P : item -> Prop) : (forall c, P (Leaf c)) -> (forall k id l, Forall P l -> P (Holds k id l)) -> forall x, P x.
Proof.
  intros HL HH. fix IH 1. intros [c|k id l]; [apply HL|]. apply HH. induction l as [|x l IHl]; constructor; [apply IH|exact IHl].
Qed.
Lemma upd_length {A} n (x : A) l : length (upd n x l) = length l.
Proof. revert n. induction l as [|y l IH]; intros [|n]; cbn; auto. Qed.
Lemma upd_map {A B} (f : A -> B) n x l : map f (upd n x l) = upd n (f x) (map f l).
Proof. revert n. induction l as [|y l IH]; intros [|n]; cbn; auto. f_equal. apply IH. Qed.
Lemma upd_nth {A} n (x : A) l : (n < length l)%nat -> nth_error (upd n x l) n = Some x.
Proof. revert n. induction l as [|y l IH]; intros [|n] H; cbn in *; try lia; auto. apply IH. lia. Qed.
Lemma upd_other {A} n k (x : A) l : n <> k -> nth_error (upd n x l) k = nth_error l k.
Proof. revert n k. induction l as [|y l IH]; intros [|n] [|k] H; cbn in *; try lia; auto. Qed.
Lemma upd_upd {A} n (x y : A) l : upd n x (upd n y l) = upd n x l.
Proof. revert n. induction l as [|z l IH]; intros [|n]; cbn; auto. f_equal. apply IH. Qed.
Lemma upd_comm {A} n k (x y : A) l : n <> k -> upd n x (upd k y l) = upd k y (upd n x l).
Proof. revert n k. induction l as [|z l IH]; intros [|n] [|k] H; cbn; auto; try lia. f_equal. apply IH. lia. Qed.
Lemma upd_same {A} n (x : A) l : nth_error l n = Some x -> upd n x l = l.
Proof. revert n. induction l as [|z l IH]; intros [|n] H; cbn in *; try discriminate; [now injection H as ->|]. f_equal. now apply IH. Qed.
Lemma nth_len {A} (l : list A) n x : nth_error l n = Some x -> (n < length l)%nat.
Proof. intros H. apply nth_error_Some. congruence. Qed.

(** The objects of a tree, each with what its members contain. *)
Fixpoint entries (x : item) : list (nat * list content) :=
  match x with
  | Leaf _ => []
  | Holds _ id l => (id, map top l) :: (fix go l := match l with [] => [] | x :: l => entries x ++ go l end) l
  end.
Fixpoint entriesL (l : list item) : list (nat * list content) := match l with [] => [] | x :: l => entries x ++ entriesL l end.
Lemma entries_holds k id l : entries (Holds k id l) = (id, map top l) :: entriesL l.
Proof. cbn [entries]. f_equal. Qed.
Lemma order_holds k id l : order (Holds k id l) = id :: orders l.
Proof. cbn [order]. f_equal. Qed.
Lemma order_entries x : Permutation (order x) (map fst (entries x)).
Proof.
  induction x as [c|k id l IH] using item_rect2; [constructor|]. rewrite entries_holds, order_holds. cbn [map fst]. constructor.
  induction IH as [|x l Hx _ IHl]; cbn [orders entriesL]; [constructor|]. rewrite map_app. rewrite Permutation_app_comm. apply Permutation_app; assumption.
Qed.
Lemma orders_entries l : Permutation (orders l) (map fst (entriesL l)).
Proof.
  induction l as [|x l IH]; cbn [orders entriesL]; [constructor|]. rewrite map_app, Permutation_app_comm. apply Permutation_app; [apply order_entries|exact IH].
Qed.
Lemma entriesL_nth l n x : nth_error l n = Some x -> exists R, forall y, Permutation (entriesL (upd n y l)) (entries y ++ R).
Proof.
  revert n. induction l as [|z l IH]; intros [|n] H; cbn [nth_error] in H; try discriminate.
  - exists (entriesL l). intros y. cbn. reflexivity.
  - destruct (IH n H) as (R & HR). exists (entries z ++ R). intros y. cbn [upd entriesL]. rewrite (HR y). rewrite !app_assoc. apply Permutation_app_tail, Permutation_app_comm.
Qed.

(** Where a path leads: a variable, or a member of an object. *)
Inductive spot := AVar (n : nat) | AField (id k : nat).
Fixpoint aloc (p : list nat) (l : list item) : option spot :=
  match p with
  | [] => None
  | [n] => match nth_error l n with Some _ => Some (AVar n) | None => None end
  | n :: q =>
    match nth_error l n with
    | Some (Holds _ id l') => match aloc q l' with Some (AVar k) => Some (AField id k) | r => r end
    | _ => None
    end
  end.
Lemma get_one n l : get [n] l = nth_error l n.
Proof. cbn. now destruct (nth_error l n). Qed.
Lemma get_more n k q l x : get (n :: k :: q) l = Some x -> exists kd id l', nth_error l n = Some (Holds kd id l') /\ get (k :: q) l' = Some x.
Proof. cbn [get]. destruct (nth_error l n) as [[c|kd id l']|]; try discriminate. intros H. now exists kd, id, l'. Qed.
Lemma set_one n y l : set [n] y l = upd n y l.
Proof. cbn. destruct (nth_error l n) eqn:E; [reflexivity|]. revert n E. induction l as [|z l IH]; intros [|n] E; cbn in *; try reflexivity; try discriminate. f_equal. now apply IH. Qed.
Lemma set_more n k q y l kd id l' : nth_error l n = Some (Holds kd id l') -> set (n :: k :: q) y l = upd n (Holds kd id (set (k :: q) y l')) l.
Proof. intros E. cbn [set]. now rewrite E. Qed.
Lemma aloc_more n k q l : aloc (n :: k :: q) l =
  match nth_error l n with Some (Holds _ id l') => match aloc (k :: q) l' with Some (AVar k) => Some (AField id k) | r => r end | _ => None end.
Proof. reflexivity. Qed.
Lemma ctx : forall p l x, get p l = Some x -> exists a R, aloc p l = Some a /\
  match a with
  | AVar n => p = [n] /\ nth_error l n = Some x /\ forall y, Permutation (entriesL (set p y l)) (entries y ++ R) /\ map top (set p y l) = upd n (top y) (map top l)
  | AField id k => exists t, nth_error t k = Some (top x) /\
      forall y, Permutation (entriesL (set p y l)) (entries y ++ (id, upd k (top y) t) :: R) /\ map top (set p y l) = map top l
  end.
Proof.
  induction p as [|n [|k q] IH]; intros l x H; [discriminate| |].
  - rewrite get_one in H. destruct (entriesL_nth l n x H) as (R & HR). exists (AVar n), R. cbn [aloc]. split; [now rewrite H|].
    split; [reflexivity|]. split; [exact H|]. intros y. rewrite set_one. split; [apply HR|apply upd_map].
  - apply get_more in H as (kd & id & l' & E & H). destruct (IH l' x H) as (a & R & HA & HC). rewrite aloc_more, E.
    destruct (entriesL_nth l n _ E) as (R0 & HR0).
    assert (TT : forall z, map top (upd n (Holds kd id z) l) = map top l)
      by (intros z; rewrite upd_map; cbn [top]; apply upd_same; now rewrite nth_error_map, E).
    destruct a as [j|id' j].
    + destruct HC as (HP & HN & HC). exists (AField id j), (R ++ R0). rewrite HA. split; [reflexivity|].
      exists (map top l'). split; [now rewrite nth_error_map, HN|]. intros y. destruct (HC y) as (C1 & C2).
      rewrite (set_more _ _ _ _ _ _ _ _ E). split; [|apply TT]. rewrite (HR0 _), entries_holds, C1, C2. cbn [app].
      rewrite <- app_assoc. apply Permutation_middle.
    + destruct HC as (t & HN & HC). exists (AField id' j), ((id, map top l') :: R ++ R0). rewrite HA. split; [reflexivity|].
      exists t. split; [exact HN|]. intros y. destruct (HC y) as (C1 & C2). rewrite (set_more _ _ _ _ _ _ _ _ E). split; [|apply TT].
      rewrite (HR0 _), entries_holds, C1, C2. cbn [app]. rewrite <- app_assoc. cbn [app]. rewrite Permutation_middle. apply Permutation_app_head.
      apply perm_swap.
Qed.
Lemma set_get : forall p l x, get p l = Some x -> set p x l = l.
Proof.
  induction p as [|n [|k q] IH]; intros l x H; [reflexivity| |].
  - rewrite get_one in H. rewrite set_one. now apply upd_same.
  - apply get_more in H as (kd & id & l' & E & H). rewrite (set_more _ _ _ _ _ _ _ _ E), (IH _ _ H). now apply upd_same.
Qed.
Lemma get_set : forall p l x y, get p l = Some x -> get p (set p y l) = Some y.
Proof.
  induction p as [|n [|k q] IH]; intros l x y H; [discriminate| |].
  - rewrite get_one in *. rewrite set_one. apply upd_nth. exact (nth_len _ _ _ H).
  - apply get_more in H as (kd & id & l' & E & H). rewrite (set_more _ _ _ _ _ _ _ _ E). cbn [get]. rewrite upd_nth by exact (nth_len _ _ _ E).
    exact (IH _ _ _ H).
Qed.
Lemma set_set : forall p l x y z, get p l = Some x -> set p z (set p y l) = set p z l.
Proof.
  induction p as [|n [|k q] IH]; intros l x y z H; [discriminate| |].
  - rewrite !set_one. apply upd_upd.
  - apply get_more in H as (kd & id & l' & E & H). rewrite !(set_more _ _ _ _ _ _ _ _ E).
    rewrite (set_more _ _ _ _ _ kd id (set (k :: q) y l')) by (apply upd_nth; exact (nth_len _ _ _ E)).
    rewrite upd_upd, (IH _ _ _ _ H). reflexivity.
Qed.
Lemma inside_cons n p q : inside p q -> inside (n :: p) (n :: q).
Proof. intros (s & N & E). exists s. split; [exact N|]. cbn. now rewrite E. Qed.
Lemma inside_one n k q : inside (n :: k :: q) [n].
Proof. exists (k :: q). split; [discriminate|reflexivity]. Qed.
Lemma get_apart : forall p q l x y, p <> q -> ~ inside p q -> ~ inside q p -> get p l = Some x -> get q (set p y l) = get q l.
Proof.
  induction p as [|n [|k p] IH]; intros q l x y N I1 I2 H; [discriminate| |].
  - rewrite set_one. destruct q as [|m q]; [reflexivity|]. destruct (Nat.eq_dec n m) as [->|D].
    + destruct q as [|j q]; [congruence|]. elim I2. apply inside_one.
    + cbn [get]. now rewrite upd_other.
  - apply get_more in H as (kd & id & l' & E & H). rewrite (set_more _ _ _ _ _ _ _ _ E).
    destruct q as [|m q]; [reflexivity|]. destruct (Nat.eq_dec n m) as [<-|D]; [|cbn [get]; now rewrite upd_other].
    destruct q as [|j q]; [elim I1; apply inside_one|]. cbn [get]. rewrite upd_nth by exact (nth_len _ _ _ E). rewrite E.
    apply (IH (j :: q) l' x y); [congruence|intros X; apply I1; now apply inside_cons|intros X; apply I2; now apply inside_cons|exact H].
Qed.
Lemma set_apart : forall p q l x x' y z, p <> q -> ~ inside p q -> ~ inside q p -> get p l = Some x -> get q l = Some x' ->
  set q z (set p y l) = set p y (set q z l).
Proof.
  induction p as [|n [|k p] IH]; intros q l x x' y z N I1 I2 H H'; [discriminate| |]; destruct q as [|m [|j q]]; try discriminate.
  - rewrite !set_one. apply upd_comm. congruence.
  - destruct (Nat.eq_dec n m) as [->|D]; [elim I2; apply inside_one|]. apply get_more in H' as (kd' & id' & l2 & E' & H').
    rewrite !set_one. rewrite (set_more _ _ _ _ _ _ _ _ E'). rewrite (set_more _ _ _ _ _ kd' id' l2) by (now rewrite upd_other). apply upd_comm. lia.
  - destruct (Nat.eq_dec n m) as [<-|D]; [elim I1; apply inside_one|]. apply get_more in H as (kd & id & l1 & E & H).
    rewrite !set_one. rewrite (set_more _ _ _ _ _ _ _ _ E). rewrite (set_more _ _ _ _ _ kd id l1) by (rewrite upd_other; [exact E|lia]). apply upd_comm. lia.
  - apply get_more in H as (kd & id & l1 & E & H). apply get_more in H' as (kd' & id' & l2 & E' & H').
    rewrite (set_more _ _ _ _ _ _ _ _ E), (set_more _ _ _ _ _ _ _ _ E'). destruct (Nat.eq_dec n m) as [<-|D].
    + rewrite E in E'. injection E' as <- <- <-.
      rewrite (set_more _ _ _ _ _ kd id (set (k :: p) y l1)) by (apply upd_nth; exact (nth_len _ _ _ E)).
      rewrite (set_more _ _ _ _ _ kd id (set (j :: q) z l1)) by (apply upd_nth; exact (nth_len _ _ _ E)). rewrite !upd_upd. f_equal. f_equal.
      apply (IH (j :: q) l1 x x'); [congruence|intros X; apply I1; now apply inside_cons|intros X; apply I2; now apply inside_cons|exact H|exact H'].
    + rewrite (set_more _ _ _ _ _ kd' id' l2) by (now rewrite upd_other). rewrite (set_more _ _ _ _ _ kd id l1) by (rewrite upd_other; [exact E|lia]).
      apply upd_comm. lia.
Qed.
Lemma aloc_set : forall p q l x y, ~ inside p q -> get q l = Some x -> aloc p (set q y l) = aloc p l.
Proof.
  induction p as [|n [|k p] IH]; intros q l x y I H; [reflexivity| |].
  - cbn [aloc]. destruct (nth_error l n) eqn:E.
    + destruct (nth_error (set q y l) n) eqn:E'; [reflexivity|]. apply nth_error_None in E'. pose proof (nth_len _ _ _ E).
      destruct q as [|m [|j q]]; [discriminate| |].
      * rewrite set_one, upd_length in E'. lia.
      * apply get_more in H as (kd & id & l' & E1 & H). rewrite (set_more _ _ _ _ _ _ _ _ E1), upd_length in E'. lia.
    + destruct (nth_error (set q y l) n) eqn:E'; [|reflexivity]. apply nth_error_None in E. apply nth_len in E'.
      destruct q as [|m [|j q]]; [discriminate| |].
      * rewrite set_one, upd_length in E'. lia.
      * apply get_more in H as (kd & id & l' & E1 & H). rewrite (set_more _ _ _ _ _ _ _ _ E1), upd_length in E'. lia.
  - destruct q as [|m [|j q]]; [discriminate| |].
    + destruct (Nat.eq_dec n m) as [<-|D]; [elim I; apply inside_one|]. rewrite set_one. rewrite !aloc_more. rewrite upd_other by lia. reflexivity.
    + apply get_more in H as (kd & id & l' & E & H). rewrite (set_more _ _ _ _ _ _ _ _ E). destruct (Nat.eq_dec m n) as [->|D].
      * rewrite !aloc_more. rewrite upd_nth by exact (nth_len _ _ _ E). rewrite E.
        rewrite (IH (j :: q) l' x y); [reflexivity|intros X; apply I; now apply inside_cons|exact H].
      * rewrite !aloc_more. rewrite upd_other by lia. reflexivity.
Qed.

(** The items that come up. *)
Fixpoint ok (n : nat) (x : item) : Prop :=
  match x with
  | Leaf c => cKind c <> Func /\ (cId c = None \/ (cKind c = Optional /\ cOwns c = false)) /\ (forall i, cId c = Some i -> (i < n)%nat) /\
              (cKind c = Owning -> cOwns c = true)
  | Holds k id l => k <> Func /\ (id < n)%nat /\ (fix all l := match l with [] => True | x :: l => ok n x /\ all l end) l
  end.
Lemma ok_holds n k id l : ok n (Holds k id l) <-> k <> Func /\ (id < n)%nat /\ Forall (ok n) l.
Proof.
  cbn [ok]. enough (X : (fix all l := match l with [] => True | x :: l => ok n x /\ all l end) l <-> Forall (ok n) l) by tauto.
  induction l as [|x l IH]; [split; auto|]. split; intros H; [constructor; tauto|inversion H; tauto].
Qed.

(** ** Items and the heap *)
Section Rel.
Context (m : nat -> nat).
Definition conc (c : content) : slot := mkSlot (cKind c) (option_map m (cId c)) (cOwns c).
Definition cl (a : spot) : loc := match a with AVar n => LVar n | AField id k => LField (m id) k end.
Definition relE (E : list (nat * list content)) (V : list content) (s : state) : Prop :=
  vars s = map conc V /\ (forall id t, In (id, t) E -> lookup (m id) (heap s) = Some (id, map conc t)) /\
  NoDup (map (fun e => m (fst e)) E) /\ Permutation (map fst (heap s)) (map (fun e => m (fst e)) E).
Lemma relE_perm E E' V s : Permutation E E' -> relE E V s -> relE E' V s.
Proof.
  intros P (H1 & H2 & H3 & H4). split; [exact H1|]. split.
  - intros id t I. apply H2. apply (Permutation_in _ (Permutation_sym P) I).
  - split; [exact (Permutation_NoDup (Permutation_map _ P) H3)|]. rewrite H4. now apply Permutation_map.
Qed.
Lemma lookup_change a x h b : lookup b (change a x h) = if (b =? a)%nat then match lookup a h with Some _ => Some x | None => None end else lookup b h.
Proof.
  induction h as [|[c y] h IH]; cbn; [now destruct (b =? a)%nat|]. destruct (a =? c)%nat eqn:AC; cbn.
  - apply Nat.eqb_eq in AC as <-. destruct (b =? a)%nat eqn:BA; reflexivity.
  - destruct (b =? c)%nat eqn:BC; [|exact IH]. apply Nat.eqb_eq in BC as ->. rewrite Nat.eqb_sym, AC. reflexivity.
Qed.
Lemma keys_change a x h : map fst (change a x h) = map fst h.
Proof. induction h as [|[c y] h IH]; cbn; [reflexivity|]. destruct (a =? c)%nat; cbn; [reflexivity|now f_equal]. Qed.
Lemma lookup_remove a h b : a <> b -> lookup b (remove a h) = lookup b h.
Proof.
  intros N. induction h as [|[c y] h IH]; cbn; [reflexivity|]. destruct (a =? c)%nat eqn:AC; cbn.
  - apply Nat.eqb_eq in AC as <-. destruct (b =? a)%nat eqn:BA; [apply Nat.eqb_eq in BA; congruence|reflexivity].
  - now destruct (b =? c)%nat.
Qed.
Lemma keys_remove a h x : lookup a h = Some x -> Permutation (map fst h) (a :: map fst (remove a h)).
Proof.
  induction h as [|[c y] h IH]; cbn; [discriminate|]. destruct (a =? c)%nat eqn:AC; cbn.
  - apply Nat.eqb_eq in AC as <-. reflexivity.
  - intros H. rewrite (IH H). apply perm_swap.
Qed.
Lemma write_field id k t R V s c : relE ((id, t) :: R) V s -> (k < length t)%nat ->
  exists s', writeAt (LField (m id) k) (conc c) s = Some s' /\ relE ((id, upd k c t) :: R) V s' /\ made s' = made s /\ gone s' = gone s.
Proof.
  intros (H1 & H2 & H3 & H4) L. pose proof (H2 id t (or_introl eq_refl)) as HL. unfold writeAt, readAt. rewrite HL.
  destruct (nth_error (map conc t) k) eqn:E; [|apply nth_error_None in E; rewrite map_length in E; lia].
  eexists. split; [reflexivity|]. split; [|split; reflexivity]. split; [exact H1|]. cbn [heap]. inversion H3 as [|? ? N1 N2]; subst.
  split; [|split; [exact H3|rewrite keys_change; exact H4]]. intros id' t' [X|X].
  - injection X as <- <-. rewrite lookup_change, Nat.eqb_refl, HL, upd_map. reflexivity.
  - rewrite lookup_change. destruct (m id' =? m id)%nat eqn:Q.
    + apply Nat.eqb_eq in Q. elim N1. rewrite <- Q. exact (in_map (fun e => m (fst e)) R (id', t') X).
    + apply H2. now right.
Qed.
Lemma write_var n E V s c : relE E V s -> (n < length V)%nat ->
  exists s', writeAt (LVar n) (conc c) s = Some s' /\ relE E (upd n c V) s' /\ made s' = made s /\ gone s' = gone s.
Proof.
  intros (H1 & H2 & H3 & H4) L. unfold writeAt, readAt. rewrite H1.
  destruct (nth_error (map conc V) n) eqn:E1; [|apply nth_error_None in E1; rewrite map_length in E1; lia].
  eexists. split; [reflexivity|]. split; [|split; reflexivity]. split; [cbn; now rewrite upd_map|]. auto.
Qed.

Definition rel (l F : list item) (s : state) : Prop := relE (entriesL l ++ entriesL F) (map top l) s.
Lemma rel_read l F s p x a : rel l F s -> get p l = Some x -> aloc p l = Some a -> readAt (cl a) s = Some (conc (top x)).
Proof.
  intros R G A. destruct (ctx p l x G) as (a' & R0 & A' & C). rewrite A in A'. injection A' as <-. destruct a as [n|id k].
  - destruct C as (_ & C & _). destruct R as (H1 & _). cbn. rewrite H1, !nth_error_map, C. reflexivity.
  - destruct C as (t & C1 & C2). destruct (C2 x) as (C3 & _). rewrite (set_get _ _ _ G) in C3. rewrite (upd_same _ _ _ C1) in C3.
    destruct R as (_ & H2 & _). cbn. rewrite (H2 id t). { now rewrite nth_error_map, C1. }
    apply in_or_app. left. apply (Permutation_in _ (Permutation_sym C3)). apply in_or_app. right. now left.
Qed.
(** Writing the top of an item where another one is. *)
Lemma rel_write l F s p x a y F' : rel l F s -> get p l = Some x -> aloc p l = Some a ->
  Permutation (entries x ++ entriesL F) (entries y ++ entriesL F') ->
  exists s', writeAt (cl a) (conc (top y)) s = Some s' /\ rel (set p y l) F' s' /\ made s' = made s /\ gone s' = gone s.
Proof.
  intros R G A P. destruct (ctx p l x G) as (a' & R0 & A' & C). rewrite A in A'. injection A' as <-. unfold rel in *. destruct a as [n|id k].
  - destruct C as (_ & C & C2). destruct (C2 y) as (C3 & C4). destruct (C2 x) as (C5 & _). rewrite (set_get _ _ _ G) in C5.
    destruct (write_var n _ _ _ (top y) R) as (s' & W & R' & Q1 & Q2). { rewrite map_length. exact (nth_len _ _ _ C). }
    exists s'. split; [exact W|]. split; [|split; assumption]. rewrite C4. refine (relE_perm _ _ _ _ _ R'). rewrite C3, C5.
    rewrite <- !app_assoc. rewrite (Permutation_app_comm R0 (entriesL F)), (Permutation_app_comm R0 (entriesL F')), !app_assoc. now apply Permutation_app_tail.
  - destruct C as (t & C1 & C2). destruct (C2 y) as (C3 & C4). destruct (C2 x) as (C5 & _). rewrite (set_get _ _ _ G) in C5. rewrite (upd_same _ _ _ C1) in C5.
    assert (P1 : Permutation (entriesL l ++ entriesL F) ((id, t) :: R0 ++ entries x ++ entriesL F)).
    { rewrite C5. rewrite <- app_assoc. cbn [app]. rewrite <- Permutation_middle. constructor. rewrite !app_assoc. apply Permutation_app_tail, Permutation_app_comm. }
    destruct (write_field id k t _ _ _ (top y) (relE_perm _ _ _ _ P1 R) (nth_len _ _ _ C1)) as (s' & W & R' & Q1 & Q2).
    exists s'. split; [exact W|]. split; [|split; assumption]. rewrite C4. refine (relE_perm _ _ _ _ _ R'). rewrite C3.
    rewrite <- app_assoc. cbn [app]. rewrite <- Permutation_middle. constructor. rewrite P. rewrite !app_assoc. apply Permutation_app_tail, Permutation_app_comm.
Qed.
(** The same item for the heap: nothing is written. *)
Lemma rel_swap l F s p x y F' : rel l F s -> get p l = Some x -> top y = top x ->
  Permutation (entries x ++ entriesL F) (entries y ++ entriesL F') -> rel (set p y l) F' s.
Proof.
  intros R G T P. destruct (ctx p l x G) as (a & R0 & A & C). unfold rel in *. destruct a as [n|id k].
  - destruct C as (_ & C & C2). destruct (C2 y) as (C3 & C4). destruct (C2 x) as (C5 & C6). rewrite (set_get _ _ _ G) in C5, C6.
    rewrite C4, T, <- C6. refine (relE_perm _ _ _ _ _ R). rewrite C3, C5.
    rewrite <- !app_assoc. rewrite (Permutation_app_comm R0 (entriesL F)), (Permutation_app_comm R0 (entriesL F')), !app_assoc. now apply Permutation_app_tail.
  - destruct C as (t & C1 & C2). destruct (C2 y) as (C3 & C4). destruct (C2 x) as (C5 & _). rewrite (set_get _ _ _ G) in C5. rewrite (upd_same _ _ _ C1) in C5.
    rewrite C4. refine (relE_perm _ _ _ _ _ R). rewrite C3, C5, T, (upd_same _ _ _ C1). rewrite <- !app_assoc. cbn [app].
    rewrite <- !Permutation_middle. constructor. rewrite (Permutation_app_comm R0 (entriesL F)), (Permutation_app_comm R0 (entriesL F')), !app_assoc.
    now apply Permutation_app_tail.
Qed.
(** Following a path. *)
Lemma follow_ok F : forall q l c s k x, (forall id t, In (id, t) (entriesL l ++ F) -> lookup (m id) (heap s) = Some (id, map conc t)) ->
  (forall n y, nth_error l n = Some y -> readAt (c n) s = Some (conc (top y))) -> get (k :: q) l = Some x ->
  follow (c k) q s = Some (match aloc (k :: q) l with Some (AVar n) => c n | Some a => cl a | None => c k end).
Proof.
  induction q as [|j q IH]; intros l c s k x H2 HR H.
  - rewrite get_one in H. cbn [aloc follow]. now rewrite H.
  - apply get_more in H as (kd & id & l' & E & H). cbn [follow]. rewrite (HR _ _ E). cbn [top conc sPtr cId option_map].
    destruct (entriesL_nth l k _ E) as (R0 & HR0). specialize (HR0 (Holds kd id l')). rewrite (upd_same _ _ _ E), entries_holds in HR0.
    assert (SUB : forall e, In e ((id, map top l') :: entriesL l') -> In e (entriesL l)).
    { intros e I. apply (Permutation_in _ (Permutation_sym HR0)). apply in_or_app. now left. }
    rewrite (H2 id (map top l')) by (apply in_or_app; left; apply SUB; now left).
    assert (HJ : (j < length l')%nat) by (cbn [get] in H; destruct (nth_error l' j) eqn:EJ; [exact (nth_len _ _ _ EJ)|discriminate]).
    rewrite !map_length. apply Nat.ltb_lt in HJ. rewrite HJ.
    rewrite aloc_more, E.
    rewrite (IH l' (fun n => LField (m id) n) s j x); [| | |exact H].
    + destruct (ctx _ _ _ H) as (a & _ & A & _). rewrite A. destruct a; reflexivity.
    + intros id' t' I. apply H2. apply in_or_app. apply in_app_or in I as [I|I]; [left; apply SUB; now right|now right].
    + intros n y Y. cbn. rewrite (H2 id (map top l')) by (apply in_or_app; left; apply SUB; now left). now rewrite !nth_error_map, Y.
Qed.
Lemma rel_locate l F s p x a : rel l F s -> get p l = Some x -> aloc p l = Some a -> locate p s = Some (cl a).
Proof.
  intros (H1 & H2 & _) G A. destruct p as [|n p]; [discriminate|]. cbn [locate].
  assert (HN : (n < length (vars s))%nat) by (rewrite H1, !map_length; cbn [get] in G; destruct (nth_error l n) eqn:EJ; [exact (nth_len _ _ _ EJ)|discriminate]).
  apply Nat.ltb_lt in HN. rewrite HN. rewrite (follow_ok (entriesL F) p l LVar s n x); [|exact H2| |exact G].
  - rewrite A. now destruct a.
  - intros k y Y. cbn. now rewrite H1, !nth_error_map, Y.
Qed.

(** ** Destroying *)
Lemma destructAll_app d l1 l2 s : destructAll d (l1 ++ l2) s = match destructAll d l1 s with Some s => destructAll d l2 s | None => None end.
Proof. revert s. induction l1 as [|x l1 IH]; intros s; cbn; [reflexivity|]. destruct (destruct1 d x s); [apply IH|reflexivity]. Qed.
Lemma destroy_ok n : forall x, ok n x -> forall R V s f, relE (entries x ++ R) V s -> (length (entries x) <= f)%nat ->
  exists s', destruct1 (destroy f) (conc (top x)) s = Some s' /\ relE R V s' /\ made s' = made s /\ gone s' = gone s ++ order x.
Proof.
  induction x as [c|k id l IH] using item_rect2; intros O R V s f RE HF.
  - destruct O as (O1 & O2 & _). exists s. split; [|split; [exact RE|split; [reflexivity|now rewrite app_nil_r]]].
    unfold destruct1. cbn. destruct O2 as [->|[-> ->]]; [reflexivity|]. now destruct (cId c).
  - apply ok_holds in O as (O1 & O2 & O3). rewrite entries_holds in *. cbn [length app] in *. destruct f as [|f]; [lia|].
    assert (X : exists s', destroy (S f) (m id) s = Some s' /\ relE R V s' /\ made s' = made s /\ gone s' = gone s ++ order (Holds k id l)).
    2:{ unfold destruct1. cbn [top conc sPtr sKind sFlag cId cKind cOwns option_map]. destruct k; [exact X|exact X|congruence]. }
    cbn [destroy]. destruct RE as (H1 & H2 & H3 & H4). rewrite (H2 id (map top l)) by now left.
    set (s0 := mkState (heap s) (vars s) (made s) (gone s ++ [id])).
    assert (L : forall l, Forall (fun x => ok n x -> forall R V s f, relE (entries x ++ R) V s -> (length (entries x) <= f)%nat ->
        exists s', destruct1 (destroy f) (conc (top x)) s = Some s' /\ relE R V s' /\ made s' = made s /\ gone s' = gone s ++ order x) l ->
      Forall (ok n) l -> (length (entriesL l) <= f)%nat -> forall R s, relE (entriesL l ++ R) V s ->
      exists s', destructAll (destroy f) (rev (map conc (map top l))) s = Some s' /\ relE R V s' /\ made s' = made s /\ gone s' = gone s ++ orders l).
    { clear. induction l as [|x l IHl]; intros FI FO HL R s RE.
      - exists s. cbn. rewrite app_nil_r. auto.
      - inversion FI as [|? ? X1 X2]; subst. inversion FO as [|? ? Y1 Y2]; subst. cbn [entriesL length] in *. rewrite app_length in HL.
        destruct (IHl X2 Y2 ltac:(lia) (entries x ++ R) s) as (s1 & D1 & R1 & M1 & G1).
        { refine (relE_perm _ _ _ _ _ RE). rewrite !app_assoc. apply Permutation_app_tail, Permutation_app_comm. }
        destruct (X1 Y1 R V s1 f R1 ltac:(lia)) as (s2 & D2 & R2 & M2 & G2).
        exists s2. cbn [map rev]. rewrite destructAll_app, D1. cbn [destructAll]. rewrite D2. split; [reflexivity|]. split; [exact R2|].
        split; [congruence|]. rewrite G2, G1. cbn [orders]. now rewrite app_assoc. }
    destruct (L l IH O3 ltac:(lia) ((id, map top l) :: R) s0) as (s1 & D1 & R1 & M1 & G1).
    { refine (relE_perm ((id, map top l) :: entriesL l ++ R) _ _ _ (Permutation_middle _ _ _) _). split; [exact H1|]. split; [exact H2|]. split; [exact H3|exact H4]. }
    rewrite D1. destruct R1 as (R1 & R2 & R3 & R4). pose proof (R2 id (map top l) (or_introl eq_refl)) as HL. rewrite HL.
    eexists. split; [reflexivity|]. split; [|split; [exact M1|cbn [gone]; rewrite G1; unfold s0; cbn [gone]; rewrite <- app_assoc, order_holds; reflexivity]].
    inversion R3 as [|? ? N1 N2]; subst. split; [exact R1|]. cbn [heap]. split; [|split; [exact N2|]].
    + intros id' t' I. rewrite lookup_remove; [apply R2; now right|]. intros Q. apply N1. cbn [fst]. rewrite Q. exact (in_map (fun e => m (fst e)) R (id', t') I).
    + pose proof (keys_remove _ _ _ HL) as K. rewrite R4 in K. cbn [map fst] in K. apply Permutation_cons_inv in K. now rewrite K.
Qed.
Lemma rel_destroy n l x F s : ok n x -> rel l (x :: F) s ->
  exists s', destructSlot (conc (top x)) s = Some s' /\ rel l F s' /\ made s' = made s /\ gone s' = gone s ++ order x.
Proof.
  intros O R. unfold destructSlot. apply (destroy_ok n x O).
  - refine (relE_perm _ _ _ _ _ R). cbn [entriesL]. rewrite !app_assoc. apply Permutation_app_tail, Permutation_app_comm.
  - destruct R as (_ & _ & _ & H4). apply Permutation_length in H4. rewrite !map_length in H4. cbn [entriesL] in H4. rewrite !app_length in H4. lia.
Qed.
(** Numbers of objects and their addresses. *)
Lemma rel_alive l F s i : rel l F s -> In i (orders l) -> In i (map fst (entriesL l ++ entriesL F)).
Proof. intros _ I. rewrite map_app. apply in_or_app. left. exact (Permutation_in _ (orders_entries l) I). Qed.
Lemma relE_inj E V s i j : relE E V s -> In i (map fst E) -> In j (map fst E) -> m i = m j -> i = j.
Proof.
  intros (_ & H2 & _) I J Q. apply in_map_iff in I as ([i' t] & <- & I). apply in_map_iff in J as ([j' u] & <- & J). cbn [fst] in *.
  pose proof (H2 _ _ I) as A. rewrite Q, (H2 _ _ J) in A. injection A as A _. congruence.
Qed.
Lemma ptrEqb_spec a b : ptrEqb a b = true <-> a = b.
Proof. destruct a, b; cbn; rewrite ?Nat.eqb_eq; split; intros H; try congruence; try discriminate. Qed.
Lemma differ_ok l F s l0 old new : rel l F s -> (forall i, In i (orders l0) -> In i (map fst (entriesL l ++ entriesL F))) -> differ l0 old new ->
  same (conc old) (empty Optional) || negb (same (conc old) (conc new)) = true.
Proof.
  intros R AL [[D1 D2]|[D|[D1 D2]]].
  - unfold same. cbn. rewrite D1, D2. reflexivity.
  - unfold same at 2. cbn. destruct (Bool.eqb (cOwns old) (cOwns new)) eqn:E; [apply eqb_prop in E; congruence|]. rewrite andb_false_r. apply orb_true_r.
  - unfold same at 2. cbn [conc sPtr sFlag]. destruct (ptrEqb (option_map m (cId old)) (option_map m (cId new))) eqn:E; [|apply orb_true_r].
    apply ptrEqb_spec in E. destruct (cId old) as [i|], (cId new) as [j|]; cbn in E; try discriminate; [|congruence]. injection E as E.
    elim D1. f_equal. apply (relE_inj _ _ _ i j R); [apply AL, D2; now left|apply AL, D2; now right|exact E].
Qed.
End Rel.
