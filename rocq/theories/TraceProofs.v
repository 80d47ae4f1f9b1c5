(* The invariant of the trace log, for every schedule. *)
From Coq Require Import Lia ZifyBool ZifyNat Permutation.
From Verif Require Import TraceSpec.
Open Scope nat_scope.

(* ---- lists ---- *)
Lemma nth_snoc {A} (l : list A) x k : nth_error (l ++ [x]) k = if k =? length l then Some x else nth_error l k.
Proof.
  destruct (Nat.eqb_spec k (length l)) as [->|H].
  - rewrite nth_error_app2, Nat.sub_diag; [reflexivity|lia].
  - destruct (Nat.lt_ge_cases k (length l)); [apply nth_error_app1; assumption|].
    rewrite nth_error_app2 by lia.
    assert (nth_error l k = None) as -> by (apply nth_error_None; lia).
    apply nth_error_None. cbn. lia.
Qed.
Lemma nth_some_lt {A} (l : list A) k x : nth_error l k = Some x -> k < length l.
Proof. intros H. apply nth_error_Some. congruence. Qed.

Lemma before_in {A} (x y : A) l : before x y l -> In x l /\ In y l.
Proof. intros (a & b & c & ->). split; apply in_or_app; right; [left; reflexivity|]. right. apply in_or_app. right. left. reflexivity. Qed.
Lemma before_app {A} (x y : A) l r : before x y l -> before x y (l ++ r).
Proof. intros (a & b & c & ->). exists a, b, (c ++ r). rewrite <- !app_assoc. cbn. rewrite <- app_assoc. reflexivity. Qed.
Lemma before_last {A} (x y : A) l : In x l -> before x y (l ++ [y]).
Proof. intros (a & b & ->)%in_split. exists a, b, []. rewrite <- app_assoc. reflexivity. Qed.
Lemma before_snoc {A} (x y z : A) l : before x y (l ++ [z]) -> before x y l \/ In x l /\ y = z.
Proof.
  intros (a & b & c & E). destruct c as [|w c] using rev_ind.
  - right. assert (l ++ [z] = (a ++ x :: b) ++ [y]) as E' by (rewrite E, <- app_assoc; reflexivity).
    apply app_inj_tail in E' as [-> ->]. split; [|reflexivity]. apply in_or_app. right. left. reflexivity.
  - left. assert (l ++ [z] = (a ++ x :: b ++ y :: c) ++ [w]) as E'.
    { rewrite E. rewrite <- !app_assoc. cbn. rewrite <- app_assoc. reflexivity. }
    apply app_inj_tail in E' as [-> _]. exists a, b, c. reflexivity.
Qed.

Lemma done_before_snoc h k m : In (Call k) h -> done_before (h ++ [m]) k = done_before h k.
Proof.
  induction h as [|[j|j] h IH]; intros H; [destruct H| |]; cbn.
  - destruct (Nat.eqb_spec j k); [reflexivity|]. apply IH. destruct H as [[= ->]|H]; [congruence|exact H].
  - f_equal. apply IH. destruct H as [[=]|H]. exact H.
Qed.
Lemma done_before_return h k j : In j (done_before h k) -> In (Return j) h.
Proof.
  induction h as [|[i|i] h IH]; cbn; [tauto| |].
  - destruct (i =? k); [intros []|]. intros H. right. apply IH, H.
  - intros [->|H]; [left; reflexivity|right; apply IH, H].
Qed.

Lemma set_eq {A} (f : nat -> A) i x : set f i x i = x.
Proof. unfold set. rewrite Nat.eqb_refl. reflexivity. Qed.
Lemma set_ne {A} (f : nat -> A) i j x : j <> i -> set f i x j = f j.
Proof. unfold set. intros H. destruct (Nat.eqb_spec j i); congruence. Qed.

Section Inv.
Context (E : nat).

Definition holding (x : pc) : bool :=
  match x with Check _ | Retake _ _ | Grow _ _ | Publish _ _ | Trim _ _ | Unlock _ _ _ => true | _ => false end.
(** The call a thread is in, before and after it has its slot. *)
Definition waiting (x : pc) : option (nat * event) :=
  match x with LoadTail c | Take c _ | Lock c | Check c | Retake c _ | Grow c _ => Some c | _ => None end.
Definition claimed (x : pc) : option (nat * event * nat) :=
  match x with Publish c p | Trim c p => Some (c, p * E) | Unlock c p i | Write c p i => Some (c, p * E + i) | _ => None end.
Definition cur (x : pc) : option (nat * event) :=
  match waiting x with Some c => Some c | None => option_map fst (claimed x) end.
Definition since (x : pc) : option (nat * event * nat) :=
  match x with
  | Take c p => Some (c, S p * E + 1)
  | _ => match claimed x with Some (c, k) => Some (c, S k) | None => None end
  end.
Definition win (x : pc) : nat := match x with Publish _ _ => 2 | Trim _ _ => 1 | _ => 0 end.
Definition window (l : option nat) (f : nat -> pc) : nat := match l with Some t => win (f t) | None => 0 end.

Record Book (f : nat -> pc) (calls : list event) (h : list mark) (cl : list (nat * event)) : Prop := {
  b_call : forall c, In c cl -> nth_error calls (fst c) = Some (snd c);
  b_cur : forall t c, cur (f t) = Some c -> nth_error calls (fst c) = Some (snd c) /\ ~ In (Return (fst c)) h;
  b_uniq : forall t u c d, cur (f t) = Some c -> cur (f u) = Some d -> fst c = fst d -> t = u;
  b_wait : forall t c, waiting (f t) = Some c -> ~ In (fst c) (map fst cl);
  b_claim : forall t c k, claimed (f t) = Some (c, k) -> nth_error cl k = Some c;
  b_nodup : NoDup (map fst cl);
  b_all : forall k, k < length calls -> In k (map fst cl) \/ exists t c, waiting (f t) = Some c /\ fst c = k;
  b_begun : forall k, In (Call k) h <-> k < length calls;
  b_ret : forall k, In (Return k) h -> In k (map fst cl);
  b_order : forall a b, before (Return a) (Call b) h -> In b (map fst cl) -> before a b (map fst cl);
  b_once : NoDup h;
  b_since : forall t c k, since (f t) = Some (c, k) -> forall j d, k <= j -> nth_error cl j = Some d ->
    ~ In (fst d) (done_before h (fst c)) }.

Record Shape (M : nat) (pg : nat -> page) (made head tail num w len : nat) : Prop := {
  sh_made : made = tail + 1 + (if w =? 2 then 1 else 0);
  sh_num : head + num + (if w =? 0 then 0 else 1) = made;
  sh_range : 1 <= num <= M;
  sh_head : 0 < head -> num = M;
  sh_full : forall j, S j < made -> E <= p_index (pg j);
  sh_len : len = (made - 1) * E + Nat.min E (p_index (pg (made - 1)));
  sh_first : 1 < made -> 1 <= p_index (pg (made - 1));
  sh_pub : w = 2 -> p_index (pg (made - 1)) = 1;
  sh_next : forall j, j < made -> p_next (pg j) = if S j =? made then None else Some (S j);
  sh_live : forall j, j < made -> p_live (pg j) = (head <=? j) }.

Definition Where (pg : nat -> page) (tail : nat) (x : pc) : Prop :=
  match x with
  | Take _ p => p <= tail
  | Retake _ p => p = tail
  | Grow _ p => p = tail /\ E <= p_index (pg p)
  | Publish _ p => p = S tail
  | Trim _ p => p = tail
  | Unlock _ p i | Write _ p i => i < E
  | _ => True
  end.

Definition Slots (pg : nat -> page) (made : nat) (f : nat -> pc) (h : list mark) (cl : list (nat * event)) : Prop :=
  forall k c, nth_error cl k = Some c -> (exists t, claimed (f t) = Some (c, k)) \/
    In (Return (fst c)) h /\
    forall j i, k = j * E + i -> i < E -> j < made -> p_live (pg j) = true -> p_events (pg j) i = Some c.

Definition over (x : pc) : bool := match x with Lock _ | Check _ | Grow _ _ => true | _ => false end.

Record Inv (M : nat) (s : state) (cl : list (nat * event)) : Prop := {
  i_lock : forall t, lock s = Some t <-> holding (pcs s t) = true;
  i_book : Book (pcs s) (calls s) (hist s) cl;
  i_shape : Shape M (pages s) (made s) (head s) (tail s) (num s) (window (lock s) (pcs s)) (length cl);
  i_where : forall t, Where (pages s) (tail s) (pcs s t);
  i_slots : Slots (pages s) (made s) (pcs s) (hist s) cl;
  i_over : E < p_index (pages s (made s - 1)) -> exists t, over (pcs s t) = true }.

Lemma inv_start M : 1 <= M -> Inv M start [].
Proof.
  intros M1. split; cbn.
  - intros t. split; discriminate.
  - split; cbn; try discriminate; try tauto; try lia; constructor.
  - split; cbn; try lia. all: intros j Hj; assert (j = 0) as -> by lia; reflexivity.
  - intros t. exact I.
  - intros k c H. destruct k; discriminate.
  - lia.
Qed.

(** Where a thread is in no window, it is in none. *)
Lemma window_same l f t x : (l = Some t <-> holding (f t) = true) -> holding (f t) = false -> window l (set f t x) = window l f.
Proof.
  intros HL H. destruct l as [u|]; [|reflexivity]. cbn. rewrite set_ne; [reflexivity|].
  intros ->. assert (holding (f t) = true) by (apply HL; reflexivity). congruence.
Qed.

(* ---- the books ---- *)
(** A thread goes on in its call, taking no slot. *)
Lemma book_go f calls h cl t x :
  Book f calls h cl -> waiting x = waiting (f t) -> claimed x = claimed (f t) ->
  (forall c k, since x = Some (c, k) -> since (f t) = Some (c, k) \/ length cl <= k) ->
  Book (set f t x) calls h cl.
Proof.
  intros [A B C D F G I J K L Q N] W Cl Sn.
  assert (Wf : forall u, waiting (set f t x u) = waiting (f u)).
  { intros u. unfold set. destruct (Nat.eqb_spec u t) as [->|]; [exact W|reflexivity]. }
  assert (Cf : forall u, claimed (set f t x u) = claimed (f u)).
  { intros u. unfold set. destruct (Nat.eqb_spec u t) as [->|]; [exact Cl|reflexivity]. }
  assert (Uf : forall u, cur (set f t x u) = cur (f u)).
  { intros u. unfold cur. rewrite Wf, Cf. reflexivity. }
  split; try assumption.
  - intros u c H. rewrite Uf in H. exact (B u c H).
  - intros u v c d H1 H2. rewrite Uf in H1, H2. exact (C u v c d H1 H2).
  - intros u c H. rewrite Wf in H. exact (D u c H).
  - intros u c k H. rewrite Cf in H. exact (F u c k H).
  - intros k H. destruct (I k H) as [H1|(u & c & H1 & H2)]; [left; exact H1|right].
    exists u, c. rewrite Wf. split; assumption.
  - intros u c k H. unfold set in H. destruct (Nat.eqb_spec u t) as [->|]; [|exact (N u c k H)].
    destruct (Sn c k H) as [H1|H1]; [exact (N t c k H1)|].
    intros j d Hj Hd. apply nth_some_lt in Hd. lia.
Qed.

(** A thread takes the next slot. *)
Lemma book_claim f calls h cl t x c :
  Book f calls h cl -> waiting (f t) = Some c -> waiting x = None -> claimed x = Some (c, length cl) ->
  since x = Some (c, S (length cl)) ->
  Book (set f t x) calls h (cl ++ [c]).
Proof.
  intros [A B C D F G I J K L Q N] W Wx Cx Sx.
  assert (Uc : cur (f t) = Some c) by (unfold cur; rewrite W; reflexivity).
  assert (Uf : forall u, cur (set f t x u) = cur (f u)).
  { intros u. unfold set. destruct (Nat.eqb_spec u t) as [->|]; [|reflexivity]. unfold cur. rewrite W, Wx, Cx. reflexivity. }
  pose proof (D t c W) as Fresh.
  split.
  - intros d [H|[<-|[]]]%in_app_or; [exact (A d H)|]. exact (proj1 (B t c Uc)).
  - intros u d H. rewrite Uf in H. exact (B u d H).
  - intros u v a d H1 H2. rewrite Uf in H1, H2. exact (C u v a d H1 H2).
  - intros u d H. unfold set in H. destruct (Nat.eqb_spec u t) as [->|Hu]; [congruence|].
    rewrite map_app. intros [H1|[H1|[]]]%in_app_or; [exact (D u d H H1)|].
    apply Hu. apply (C u t d c); [unfold cur; rewrite H; reflexivity|exact Uc|congruence].
  - intros u d k H. unfold set in H. destruct (Nat.eqb_spec u t) as [->|Hu].
    + rewrite Cx in H. injection H as <- <-. rewrite nth_snoc, Nat.eqb_refl. reflexivity.
    + pose proof (F u d k H) as H1. rewrite nth_error_app1; [exact H1|]. apply (nth_some_lt _ _ _ H1).
  - rewrite map_app. cbn. apply (Permutation_NoDup (l := fst c :: map fst cl)).
    + apply Permutation_cons_append.
    + constructor; assumption.
  - intros k Hk. rewrite map_app. destruct (I k Hk) as [H1|(u & d & H1 & H2)]; [left; apply in_or_app; left; exact H1|].
    destruct (Nat.eq_dec u t) as [->|Hu].
    + left. apply in_or_app. right. left. congruence.
    + right. exists u, d. rewrite set_ne by exact Hu. split; assumption.
  - exact J.
  - intros k Hk. rewrite map_app. apply in_or_app. left. exact (K k Hk).
  - intros a b Hab. rewrite map_app. intros [Hb|[Hb|[]]]%in_app_or.
    + apply before_app. exact (L a b Hab Hb).
    + cbn. rewrite Hb. apply before_last. apply K. apply (before_in _ _ _ Hab).
  - exact Q.
  - intros u d k H j e Hj He. unfold set in H. destruct (Nat.eqb_spec u t) as [->|Hu].
    + rewrite Sx in H. injection H as <- <-. apply nth_some_lt in He. rewrite app_length in He. cbn in He. lia.
    + rewrite nth_snoc in He. destruct (Nat.eqb_spec j (length cl)) as [->|Hne]; [|exact (N u d k H j e Hj He)].
      injection He as <-. intros Hd%done_before_return. exact (proj2 (B t c Uc) Hd).
Qed.

(** A call begins. *)
Lemma book_begin f calls h cl t e :
  Book f calls h cl -> f t = Idle ->
  Book (set f t (LoadTail (length calls, e))) (calls ++ [e]) (h ++ [Call (length calls)]) cl.
Proof.
  intros [A B C D F G I J K L Q N] Ft.
  assert (Old : forall u c, cur (f u) = Some c -> fst c < length calls).
  { intros u c H. apply (nth_some_lt _ _ (snd c)). exact (proj1 (B u c H)). }
  assert (OldC : forall k, In k (map fst cl) -> k < length calls).
  { intros k (c & <- & H)%in_map_iff. apply (nth_some_lt _ _ (snd c)). exact (A c H). }
  split.
  - intros c H. rewrite nth_error_app1; [exact (A c H)|]. apply (nth_some_lt _ _ (snd c)). exact (A c H).
  - intros u c H. unfold set in H. destruct (Nat.eqb_spec u t) as [->|Hu].
    + injection H as <-. cbn. rewrite nth_snoc, Nat.eqb_refl. split; [reflexivity|].
      intros [H|[H|[]]]%in_app_or; [|discriminate]. apply K, OldC in H. lia.
    + pose proof (Old u c H). destruct (B u c H) as [B1 B2]. split; [rewrite nth_error_app1; assumption|].
      intros [H1|[H1|[]]]%in_app_or; [exact (B2 H1)|discriminate].
  - intros u v c d H1 H2 Hcd. unfold set in H1, H2. destruct (Nat.eqb_spec u t) as [->|Hu], (Nat.eqb_spec v t) as [->|Hv].
    + reflexivity.
    + injection H1 as <-. pose proof (Old v d H2). cbn in *. lia.
    + injection H2 as <-. pose proof (Old u c H1). cbn in *. lia.
    + exact (C u v c d H1 H2 Hcd).
  - intros u c H. unfold set in H. destruct (Nat.eqb_spec u t) as [->|Hu]; [|exact (D u c H)].
    injection H as <-. cbn. intros H. apply OldC in H. lia.
  - intros u c k H. unfold set in H. destruct (Nat.eqb_spec u t) as [->|Hu]; [discriminate|exact (F u c k H)].
  - exact G.
  - intros k Hk. rewrite app_length in Hk. cbn in Hk. destruct (Nat.eq_dec k (length calls)) as [->|Hne].
    + right. exists t, (length calls, e). rewrite set_eq. split; reflexivity.
    + destruct (I k ltac:(lia)) as [H1|(u & d & H1 & H2)]; [left; exact H1|]. right. exists u, d.
      rewrite set_ne; [split; assumption|]. intros ->. rewrite Ft in H1. discriminate.
  - intros k. rewrite app_length. cbn. split.
    + intros [H|[[= ->]|[]]]%in_app_or; [apply J in H; lia|lia].
    + intros H. apply in_or_app. destruct (Nat.eq_dec k (length calls)) as [->|Hne]; [right; left; reflexivity|].
      left. apply J. lia.
  - intros k [H|[H|[]]]%in_app_or; [exact (K k H)|discriminate].
  - intros a b Hab Hb. apply before_snoc in Hab as [Hab|[_ [= ->]]]; [exact (L a b Hab Hb)|]. apply OldC in Hb. lia.
  - apply (Permutation_NoDup (l := Call (length calls) :: h)); [apply Permutation_cons_append|].
    constructor; [|exact Q]. intros H. apply J in H. lia.
  - intros u c k H j d Hj Hd. unfold set in H. destruct (Nat.eqb_spec u t) as [->|Hu]; [discriminate|].
    rewrite done_before_snoc; [exact (N u c k H j d Hj Hd)|]. apply J. apply (Old u).
    unfold since in H. destruct (f u); try discriminate; cbn in *; congruence.
Qed.

(** A call returns. *)
Lemma book_return f calls h cl t c k :
  Book f calls h cl -> waiting (f t) = None -> claimed (f t) = Some (c, k) ->
  Book (set f t Idle) calls (h ++ [Return (fst c)]) cl.
Proof.
  intros [A B C D F G I J K L Q N] Wt Ct.
  assert (Uc : cur (f t) = Some c) by (unfold cur; rewrite Wt, Ct; reflexivity).
  split.
  - exact A.
  - intros u d H. unfold set in H. destruct (Nat.eqb_spec u t) as [->|Hu]; [discriminate|].
    destruct (B u d H) as [B1 B2]. split; [exact B1|]. intros [H1|[[= H1]|[]]]%in_app_or; [exact (B2 H1)|].
    apply Hu. apply (C u t d c H Uc). congruence.
  - intros u v a d H1 H2 Hcd. unfold set in H1, H2.
    destruct (Nat.eqb_spec u t) as [->|Hu]; [discriminate|]. destruct (Nat.eqb_spec v t) as [->|Hv]; [discriminate|].
    exact (C u v a d H1 H2 Hcd).
  - intros u d H. unfold set in H. destruct (Nat.eqb_spec u t) as [->|Hu]; [discriminate|exact (D u d H)].
  - intros u d j H. unfold set in H. destruct (Nat.eqb_spec u t) as [->|Hu]; [discriminate|exact (F u d j H)].
  - exact G.
  - intros j Hj. destruct (I j Hj) as [H1|(u & d & H1 & H2)]; [left; exact H1|]. right. exists u, d.
    rewrite set_ne; [split; assumption|]. intros ->. congruence.
  - intros j. rewrite <- J. split.
    + intros [H|[H|[]]]%in_app_or; [exact H|discriminate].
    + intros H. apply in_or_app. left. exact H.
  - intros j [H|[[= <-]|[]]]%in_app_or; [exact (K j H)|]. apply in_map. apply (nth_error_In _ k). exact (F t c k Ct).
  - intros a b Hab Hb. apply before_snoc in Hab as [Hab|[_ [=]]]. exact (L a b Hab Hb).
  - apply (Permutation_NoDup (l := Return (fst c) :: h)); [apply Permutation_cons_append|].
    constructor; [|exact Q]. exact (proj2 (B t c Uc)).
  - intros u d j H i e Hi He. unfold set in H. destruct (Nat.eqb_spec u t) as [->|Hu]; [discriminate|].
    rewrite done_before_snoc; [exact (N u d j H i e Hi He)|]. apply J.
    assert (cur (f u) = Some d) as Ud. { unfold since in H. unfold cur. destruct (f u); try discriminate; cbn in *; congruence. }
    apply (nth_some_lt _ _ (snd d)). exact (proj1 (B u d Ud)).
Qed.

(* ---- the slots ---- *)
Lemma slots_go pg pg' made f h cl t x :
  Slots pg made f h cl -> claimed x = claimed (f t) ->
  (forall j, j < made -> p_live (pg' j) = true -> p_live (pg j) = true /\ p_events (pg' j) = p_events (pg j)) ->
  Slots pg' made (set f t x) h cl.
Proof.
  intros S C P k c Hk. destruct (S k c Hk) as [[u Hu]|[H1 H2]].
  - left. exists u. unfold set. destruct (Nat.eqb_spec u t) as [->|]; [rewrite C|]; exact Hu.
  - right. split; [exact H1|]. intros j i Hj Hi Hm Hl. destruct (P j Hm Hl) as [P1 P2]. rewrite P2. exact (H2 j i Hj Hi Hm P1).
Qed.

Lemma slots_claim pg pg' made made' f h cl t x c :
  Slots pg made f h cl -> waiting (f t) = Some c -> claimed x = Some (c, length cl) -> length cl <= made * E ->
  (forall j, j < made -> p_live (pg' j) = true -> p_live (pg j) = true /\ p_events (pg' j) = p_events (pg j)) ->
  Slots pg' made' (set f t x) h (cl ++ [c]).
Proof.
  intros S W C Len P k d Hk. rewrite nth_snoc in Hk. destruct (Nat.eqb_spec k (length cl)) as [->|Hne].
  - injection Hk as <-. left. exists t. rewrite set_eq. exact C.
  - pose proof (nth_some_lt _ _ _ Hk) as Lt. destruct (S k d Hk) as [[u Hu]|[H1 H2]].
    + left. exists u. rewrite set_ne; [exact Hu|]. intros ->. destruct (f t); discriminate.
    + right. split; [exact H1|]. intros j i Hj Hi Hm Hl. assert (j < made) as Hm' by nia.
      destruct (P j Hm' Hl) as [P1 P2]. rewrite P2. exact (H2 j i Hj Hi Hm' P1).
Qed.

Lemma slots_begin pg made f h cl t c m : f t = Idle ->
  Slots pg made f h cl -> Slots pg made (set f t (LoadTail c)) (h ++ [m]) cl.
Proof.
  intros Ft S k d Hk. destruct (S k d Hk) as [[u Hu]|[H1 H2]].
  - left. exists u. rewrite set_ne; [exact Hu|]. intros ->. rewrite Ft in Hu. discriminate.
  - right. split; [apply in_or_app; left; exact H1|exact H2].
Qed.

Lemma slots_return pg made f calls h cl t c p i : i < E -> f t = Write c p i ->
  Book f calls h cl ->
  Slots pg made f h cl ->
  Slots (set pg p (mkpage (p_next (pg p)) (p_index (pg p)) (set (p_events (pg p)) i (Some c)) (p_live (pg p)))) made
    (set f t Idle) (h ++ [Return (fst c)]) cl.
Proof.
  intros Hi Ft B S k d Hk.
  assert (Hc : nth_error cl (p * E + i) = Some c) by (apply (b_claim _ _ _ _ B t); rewrite Ft; reflexivity).
  assert (Ev : forall j i', k = j * E + i' -> i' < E -> k <> p * E + i -> 
    p_events (set pg p (mkpage (p_next (pg p)) (p_index (pg p)) (set (p_events (pg p)) i (Some c)) (p_live (pg p))) j) i' =
    p_events (pg j) i').
  { intros j i' Hj Hi' Hne. unfold set at 1. destruct (Nat.eqb_spec j p) as [->|]; [|reflexivity]. cbn.
    apply set_ne. intros ->. congruence. }
  assert (Lv : forall j, p_live (set pg p (mkpage (p_next (pg p)) (p_index (pg p)) (set (p_events (pg p)) i (Some c)) (p_live (pg p))) j) =
    p_live (pg j)).
  { intros j. unfold set. destruct (Nat.eqb_spec j p) as [->|]; reflexivity. }
  destruct (Nat.eq_dec k (p * E + i)) as [->|Hne].
  - right. assert (d = c) as -> by congruence. split; [apply in_or_app; right; left; reflexivity|].
    intros j i' Hj Hi' Hm Hl. assert (j = p) as -> by nia. assert (i' = i) as -> by lia.
    rewrite set_eq. cbn. apply set_eq.
  - destruct (S k d Hk) as [[u Hu]|[H1 H2]].
    + left. exists u. rewrite set_ne; [exact Hu|]. intros ->. rewrite Ft in Hu. cbn in Hu. congruence.
    + right. split; [apply in_or_app; left; exact H1|]. intros j i' Hj Hi' Hm Hl.
      rewrite Ev by assumption. rewrite Lv in Hl. exact (H2 j i' Hj Hi' Hm Hl).
Qed.

End Inv.
