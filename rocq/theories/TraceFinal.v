(* What the invariant says of whole runs of the trace log. *)
From Coq Require Import Lia ZifyBool ZifyNat Permutation.
From Verif Require Import TraceSpec TraceProofs TraceInv.
Open Scope nat_scope.

Section Runs.
Context (E M : nat) (E1 : 1 <= E) (M1 : 1 <= M).
Notation Inv := (Inv E M).
Notation runs := (runs E M).
Notation run := (run E M).
Notation step := (step E M).

Lemma run_snoc s sched x : run s (sched ++ [x]) = step (run s sched) (fst x) (snd x).
Proof. unfold TraceModel.run. rewrite fold_left_app. reflexivity. Qed.
Lemma run_app s a b : run s (a ++ b) = run (run s a) b.
Proof. unfold TraceModel.run. apply fold_left_app. Qed.
Lemma step_freed s t m : freed s = true -> step s t m = s.
Proof. intros H. unfold TraceModel.step. rewrite H. reflexivity. Qed.
Lemma run_freed s sched : freed s = true -> run s sched = s.
Proof.
  intros H. induction sched as [|x l IH] using rev_ind; [reflexivity|]. rewrite run_snoc, IH. apply step_freed, H.
Qed.

Lemma run_inv_from s cl sched : Inv s cl -> freed (run s sched) = false -> exists cl', Inv (run s sched) cl'.
Proof.
  intros Iv. induction sched as [|[t m] sched IH] using rev_ind; intros H; [exists cl; exact Iv|].
  rewrite run_snoc in *. cbn [fst snd] in *.
  destruct (freed (run s sched)) eqn:Fr.
  - rewrite step_freed in H by exact Fr. congruence.
  - destruct (IH eq_refl) as [cl' Iv']. destruct (step_inv E M E1 M1 _ _ t m Iv' Fr) as [[H1 _]|[_ H1]]; [congruence|exact H1].
Qed.
Lemma runs_inv sched : freed (runs sched) = false -> exists cl, Inv (runs sched) cl.
Proof. apply (run_inv_from start []). apply inv_start, M1. Qed.

(** The first access to a deleted page. *)
Lemma freed_at sched : freed (runs sched) = true -> exists pre post t c p cl,
  sched = pre ++ post /\ freed (runs pre) = false /\ Inv (runs pre) cl /\
  (pcs (runs pre) t = Take c p \/ exists i, pcs (runs pre) t = Write c p i) /\ p < head (runs pre).
Proof.
  induction sched as [|[t m] sched IH] using rev_ind; [discriminate|]. intros H.
  unfold TraceModel.runs in *. rewrite run_snoc in H. cbn [fst snd] in H. destruct (freed (run start sched)) eqn:Fr.
  - destruct (IH eq_refl) as (pre & post & u & c & p & cl & -> & R). exists pre, (post ++ [(t, m)]), u, c, p, cl.
    rewrite app_assoc. split; [reflexivity|exact R].
  - destruct (runs_inv sched Fr) as [cl Iv]. unfold TraceModel.runs in Iv. destruct (step_inv E M E1 M1 _ _ t m Iv Fr) as [[_ (c & p & H1 & H2)]|[H1 _]]; [|congruence].
    exists sched, [(t, m)], t, c, p, cl. split; [reflexivity|]. split; [exact Fr|]. split; [exact Iv|]. split; [exact H1|exact H2].
Qed.

(* ---- counting ---- *)
Lemma claims_le s cl : Inv s cl -> length cl <= length (calls s).
Proof.
  intros [_ B _ _ _ _]. rewrite <- (map_length fst), <- (seq_length (length (calls s)) 0).
  apply NoDup_incl_length; [apply B|]. intros k (c & <- & H)%in_map_iff. apply in_seq. split; [lia|].
  apply (nth_some_lt _ _ (snd c)). exact (b_call _ _ _ _ _ B c H).
Qed.

Lemma step_calls s t m : exists l, calls (step s t m) = calls s ++ l.
Proof.
  unfold TraceModel.step. destruct (freed s); [exists []; symmetry; apply app_nil_r|].
  destruct (pcs s t), m; cbn; try (exists []; rewrite app_nil_r; reflexivity).
  - eexists. reflexivity.
  - exists []. rewrite app_nil_r. destruct (p_live (pages s p)); reflexivity.
  - exists []. rewrite app_nil_r. destruct (lock s); reflexivity.
  - exists []. rewrite app_nil_r. destruct (p_live (pages s (tail s))); reflexivity.
  - exists []. rewrite app_nil_r. destruct (p_live (pages s p)); reflexivity.
  - exists []. rewrite app_nil_r. destruct (p_live (pages s p)); reflexivity.
  - exists []. rewrite app_nil_r. destruct (M <=? num s); [|reflexivity]. destruct (p_live (pages s (head s))); [|reflexivity].
    destruct (p_next (pages s (head s))); reflexivity.
  - exists []. rewrite app_nil_r. destruct (p_live (pages s p)); reflexivity.
Qed.
Lemma run_calls s sched : length (calls s) <= length (calls (run s sched)).
Proof.
  induction sched as [|x l IH] using rev_ind; [reflexivity|]. rewrite run_snoc.
  destruct (step_calls (run s l) (fst x) (snd x)) as [y ->]. rewrite app_length. lia.
Qed.

Lemma head_claims s cl : Inv s cl -> 0 < head s -> (head s + M - 1) * E < length cl.
Proof.
  intros [_ _ [A B C D F G H I J K] _ _ _] Hh. specialize (D Hh). rewrite G.
  assert (head s + M <= made s) by (destruct (window (lock s) (pcs s) =? 0); lia).
  assert (1 <= p_index (pages s (made s - 1))) by (apply H; lia).
  assert ((head s + M - 1) * E <= (made s - 1) * E) by (apply Nat.mul_le_mono_r; lia). lia.
Qed.

(** Few enough calls: nothing is ever deleted, so nothing deleted is touched. *)
Theorem safe_few sched : length (calls (runs sched)) <= M * E -> freed (runs sched) = false.
Proof.
  intros H. destruct (freed (runs sched)) eqn:Fr; [|reflexivity]. exfalso.
  destruct (freed_at sched Fr) as (pre & post & t & c & p & cl & -> & F0 & Iv & _ & Hp).
  pose proof (head_claims _ _ Iv ltac:(lia)) as L. pose proof (claims_le _ _ Iv).
  unfold TraceModel.runs in *. rewrite run_app in H. pose proof (run_calls (run start pre) post).
  assert (M * E <= (head (run start pre) + M - 1) * E) by (apply Nat.mul_le_mono_r; lia). lia.
Qed.

Lemma nodup_app {A} (l r : list A) : NoDup l -> NoDup r -> (forall x, In x l -> ~ In x r) -> NoDup (l ++ r).
Proof.
  induction l as [|x l IH]; intros Hl Hr H; [exact Hr|]. inversion Hl; subst. cbn. constructor.
  - intros [H1|H1]%in_app_or; [contradiction|]. exact (H x (or_introl eq_refl) H1).
  - apply IH; [assumption..|]. intros y Hy. apply H. right. exact Hy.
Qed.
Lemma done_before_nodup h k : NoDup h -> NoDup (done_before h k).
Proof.
  induction h as [|[j|j] h IH]; intros H; inversion H; subst; cbn; [constructor| |].
  - destruct (j =? k); [constructor|apply IH; assumption].
  - constructor; [|apply IH; assumption]. intros H1. apply done_before_return in H1. contradiction.
Qed.
Lemma nth_skipn {A} (l : list A) n k : nth_error (skipn n l) k = nth_error l (n + k).
Proof. revert l. induction n as [|n IH]; intros l; [reflexivity|]. destruct l; [cbn; destruct k; reflexivity|]. apply IH. Qed.
Lemma nodup_skipn {A} (l : list A) n : NoDup l -> NoDup (skipn n l).
Proof.
  intros H. rewrite <- (firstn_skipn n l) in H. revert H. generalize (firstn n l) (skipn n l). intros a b.
  induction a as [|x a IH]; [auto|]. intros H. inversion H; subst. auto.
Qed.

(** Enough rivals to delete the page a call is about to touch. *)
Lemma rivals_many s cl t c p : Inv s cl -> (pcs s t = Take c p \/ exists i, pcs s t = Write c p i) -> p < head s ->
  running (hist s) (fst c) /\ (M - 1) * E <= rivals (length (calls s)) (hist s) (fst c).
Proof.
  intros Iv Pt Hp. pose proof (head_claims _ _ Iv ltac:(lia)) as Len.
  pose proof (claims_le _ _ Iv) as CL.
  destruct Iv as [L B Sh W Sl O].
  assert (Cur : cur E (pcs s t) = Some c) by (destruct Pt as [->|[i ->]]; reflexivity).
  destruct (b_cur _ _ _ _ _ B t c Cur) as [C1 C2].
  assert (Cn : fst c < length (calls s)) by (apply (nth_some_lt _ _ (snd c)); exact C1).
  split. { split; [apply (b_begun _ _ _ _ _ B); exact Cn|exact C2]. }
  assert (exists k0, since E (pcs s t) = Some (c, k0) /\ k0 <= S p * E + 1 /\
    forall j d, k0 <= j -> nth_error cl j = Some d -> fst d <> fst c) as (k0 & S0 & K0 & Ne).
  { pose proof (W t) as Wt. destruct Pt as [Pt|[i Pt]]; rewrite Pt in *; cbn in Wt.
    - exists (S p * E + 1). split; [reflexivity|]. split; [lia|]. intros j d _ Hd Eq.
      apply (b_wait _ _ _ _ _ B t c); [rewrite Pt; reflexivity|]. rewrite <- Eq. apply in_map. apply (nth_error_In _ _ Hd).
    - exists (S (p * E + i)). split; [reflexivity|]. split; [nia|]. intros j d Hj Hd Eq.
      assert (nth_error cl (p * E + i) = Some c) as Hc by (apply (b_claim _ _ _ _ _ B t); rewrite Pt; reflexivity).
      pose proof (b_nodup _ _ _ _ _ B) as ND. rewrite NoDup_nth_error in ND.
      assert (p * E + i = j); [|lia]. apply ND; [rewrite map_length; apply (nth_some_lt _ _ _ Hc)|].
      rewrite !nth_error_map, Hc, Hd. cbn. congruence. }
  pose proof (b_since _ _ _ _ _ B t c k0 S0) as Since.
  set (late := map fst (skipn k0 cl)).
  assert (In_late : forall k, In k late -> exists j d, k0 <= j /\ nth_error cl j = Some d /\ fst d = k).
  { intros k (d & <- & H)%in_map_iff. apply In_nth_error in H as [j H]. rewrite nth_skipn in H.
    exists (k0 + j), d. split; [lia|split; [exact H|reflexivity]]. }
  assert (Hl : (M - 1) * E <= length late).
  { unfold late. rewrite map_length, skipn_length.
    assert ((p + M) * E <= (head s + M - 1) * E) by (apply Nat.mul_le_mono_r; lia). nia. }
  assert (ND : NoDup (fst c :: late ++ done_before (hist s) (fst c))).
  { constructor.
    - intros [H|H]%in_app_or.
      + destruct (In_late _ H) as (j & d & H1 & H2 & H3). exact (Ne j d H1 H2 H3).
      + apply done_before_return in H. exact (C2 H).
    - apply nodup_app.
      + unfold late. rewrite <- skipn_map. apply nodup_skipn. apply B.
      + apply done_before_nodup. apply B.
      + intros k Hk. destruct (In_late _ Hk) as (j & d & H1 & H2 & <-). exact (Since j d H1 H2). }
  assert (Inc : incl (fst c :: late ++ done_before (hist s) (fst c)) (seq 0 (length (calls s)))).
  { assert (InCl : forall k, In k (map fst cl) -> In k (seq 0 (length (calls s)))).
    { intros k (d & <- & H)%in_map_iff. apply in_seq. split; [lia|]. apply (nth_some_lt _ _ (snd d)). exact (b_call _ _ _ _ _ B d H). }
    intros k [<-|[H|H]%in_app_or].
    - apply in_seq. lia.
    - apply InCl. destruct (In_late _ H) as (j & d & H1 & H2 & <-). apply in_map. apply (nth_error_In _ _ H2).
    - apply InCl. apply (b_ret _ _ _ _ _ B). apply (done_before_return _ _ _ H). }
  pose proof (NoDup_incl_length ND Inc) as Ln. cbn in Ln. rewrite app_length, seq_length in Ln. unfold rivals. lia.
Qed.

Theorem safe_rivals sched :
  (forall pre post k, sched = pre ++ post -> running (hist (runs pre)) k ->
    rivals (length (calls (runs pre))) (hist (runs pre)) k < (M - 1) * E) ->
  freed (runs sched) = false.
Proof.
  intros H. destruct (freed (runs sched)) eqn:Fr; [|reflexivity]. exfalso.
  destruct (freed_at sched Fr) as (pre & post & t & c & p & cl & -> & F0 & Iv & Pt & Hp).
  destruct (rivals_many _ _ _ _ _ Iv Pt Hp) as [R1 R2]. specialize (H pre post (fst c) eq_refl R1). lia.
Qed.

(* ---- the log when nobody is in a call ---- *)
Record Rest (s : state) (cl : list (nat * event)) : Prop := {
  r_made : made s = S (tail s);
  r_num : head s + num s = made s;
  r_range : 1 <= num s <= M;
  r_head : 0 < head s -> num s = M;
  r_full : forall j, j < tail s -> E <= p_index (pages s j);
  r_index : p_index (pages s (tail s)) <= E;
  r_len : length cl = tail s * E + p_index (pages s (tail s));
  r_next : forall j, j <= tail s -> p_next (pages s j) = if j =? tail s then None else Some (S j);
  r_slot : forall p i c, head s <= p -> p <= tail s -> i < E -> nth_error cl (p * E + i) = Some c ->
    p_events (pages s p) i = Some c }.

Lemma rest s cl : Inv s cl -> quiet s -> Rest s cl.
Proof.
  intros [L B Sh W Sl O] Q.
  assert (w0 : window (lock s) (pcs s) = 0). { destruct (lock s) as [t|]; [cbn; rewrite Q|]; reflexivity. }
  rewrite w0 in Sh. destruct Sh as [A SB C D F G H I J K]. cbn in A, SB.
  assert (Mk : made s = S (tail s)) by lia. replace (made s - 1) with (tail s) in * by lia.
  assert (Ix : p_index (pages s (tail s)) <= E).
  { destruct (Nat.lt_ge_cases E (p_index (pages s (tail s)))) as [X|X]; [|exact X].
    destruct (O X) as [t Ht]. rewrite Q in Ht. discriminate. }
  split; try assumption; try lia.
  - intros j Hj. apply F. lia.
  - intros j Hj. rewrite J by lia. destruct (Nat.eqb_spec (S j) (made s)), (Nat.eqb_spec j (tail s)); try reflexivity; lia.
  - intros p i c H1 H2 H3 H4. destruct (Sl _ _ H4) as [[t Ht]|[_ Hs]]; [rewrite Q in Ht; discriminate|].
    apply Hs; [reflexivity|exact H3|lia|]. rewrite K by lia. apply Nat.leb_le. exact H1.
Qed.

Definition shown (cl : list (nat * event)) : list (option event) := map (fun c => Some (snd c)) cl.

Lemma skipn_nth {A} (l : list A) k x : nth_error l k = Some x -> skipn k l = x :: skipn (S k) l.
Proof. revert k. induction l as [|y l IH]; intros [|k] H; cbn in *; try discriminate; [congruence|]. apply IH, H. Qed.

Lemma iterate_rest s cl : Rest s cl -> forall m p i fuel, head s <= p -> p <= tail s ->
  (i < E \/ p = tail s /\ i = p_index (pages s (tail s))) -> m + (p * E + i) = length cl -> m <= fuel ->
  iterate E fuel s p i = Some (shown (skipn (p * E + i) cl)).
Proof.
  intros R. destruct R as [Mk Nm Rg Hd Fu Ix Ln Nx Sl].
  induction m as [|m IH]; intros p i fuel Hp Ht Hi Hm Hf.
  - assert (p = tail s /\ i = p_index (pages s (tail s))) as [-> ->].
    { destruct Hi as [Hi|Hi]; [|exact Hi]. assert (p = tail s) as -> by nia. split; [reflexivity|]. lia. }
    rewrite skipn_all2 by lia. unfold shown. cbn [map]. destruct fuel; cbn [iterate]; rewrite !Nat.eqb_refl; reflexivity.
  - destruct fuel as [|fuel]; [lia|]. cbn [iterate].
    assert (Lt : p * E + i < length cl) by lia.
    assert (Hi' : i < E). { destruct Hi as [Hi|[-> ->]]; [exact Hi|lia]. }
    destruct (Nat.eqb_spec p (tail s)) as [->|Hne]; cbn [andb].
    + destruct (Nat.eqb_spec i (p_index (pages s (tail s)))) as [->|Hni]; [lia|]. cbn [andb].
      destruct (nth_error cl (tail s * E + i)) as [c|] eqn:Hc; [|apply nth_error_None in Hc; lia].
      rewrite (skipn_nth _ _ _ Hc). unfold shown. cbn [map]. unfold deref. rewrite (Sl _ _ _ Hp Ht Hi' Hc). cbn [option_map].
      unfold next. destruct (Nat.leb_spec E (S i)) as [Ge|Lt'].
      * rewrite Nx by lia. rewrite Nat.eqb_refl. assert (S i = p_index (pages s (tail s))) as Si by lia.
        rewrite (IH (tail s) (p_index (pages s (tail s)))); [|lia|lia|right; auto|lia|lia]. cbn. rewrite <- Si, Nat.add_succ_r. reflexivity.
      * rewrite (IH (tail s) (S i)); [|lia..]. cbn. rewrite Nat.add_succ_r. reflexivity.
    + destruct (nth_error cl (p * E + i)) as [c|] eqn:Hc; [|apply nth_error_None in Hc; lia].
      rewrite (skipn_nth _ _ _ Hc). unfold shown. cbn [map]. unfold deref. rewrite (Sl _ _ _ Hp Ht Hi' Hc). cbn [option_map].
      unfold next. destruct (Nat.leb_spec E (S i)) as [Ge|Lt'].
      * rewrite Nx by lia. destruct (Nat.eqb_spec p (tail s)); [lia|].
        assert (S i = E) as Si by lia.
        replace (S (p * E + i)) with (S p * E + 0) by (cbn; lia). rewrite (IH (S p) 0); [reflexivity|lia|lia|lia|cbn; lia|lia].
      * rewrite (IH p (S i)); [|lia..]. cbn. rewrite Nat.add_succ_r. reflexivity.
Qed.

Lemma map_seq_skipn {A B} (g : nat -> B) (h : A -> B) (l : list A) k n : k + n <= length l ->
  (forall i c, i < n -> nth_error l (k + i) = Some c -> g i = h c) -> map g (seq 0 n) = map h (firstn n (skipn k l)).
Proof.
  revert g k. induction n as [|n IH]; intros g k Hk H; [reflexivity|].
  destruct (nth_error l k) as [c|] eqn:Hc; [|apply nth_error_None in Hc; lia].
  rewrite (skipn_nth _ _ _ Hc). cbn. f_equal.
  - apply H; [lia|]. rewrite Nat.add_0_r. exact Hc.
  - rewrite <- seq_shift, map_map. apply (IH (fun x => g (S x)) (S k)); [lia|]. intros i d Hi Hd. apply H; [lia|]. rewrite <- Hd. f_equal. lia.
Qed.

Lemma skipn_twice {A} (l : list A) a b : skipn a (skipn b l) = skipn (b + a) l.
Proof. revert l. induction b as [|b IH]; intros l; [reflexivity|]. destruct l; [cbn; apply skipn_nil|apply IH]. Qed.
Lemma dump_end fuel s skip : dump E fuel s None skip = [].
Proof. destruct fuel; reflexivity. Qed.

Lemma dump_rest s cl : Rest s cl -> forall fuel p skip, head s <= p -> p <= tail s -> tail s < p + fuel ->
  dump E fuel s (Some p) skip = shown (skipn ((p + skip) * E) cl).
Proof.
  intros [Mk Nm Rg Hd Fu Ix Ln Nx Sl]. induction fuel as [|fuel IH]; intros p skip Hp Ht Hf; [lia|]. cbn [dump].
  destruct skip as [|skip].
  - rewrite Nat.add_0_r. rewrite Nx by lia.
    assert (Here : forall n, n <= E -> p * E + n <= length cl ->
      map (deref s p) (seq 0 n) = shown (firstn n (skipn (p * E) cl))).
    { intros n Hn Hl. apply map_seq_skipn; [exact Hl|]. intros i c Hi Hc. unfold deref.
      rewrite (Sl p i c Hp Ht ltac:(lia) Hc). reflexivity. }
    destruct (Nat.eqb_spec p (tail s)) as [->|Hne].
    + rewrite dump_end, app_nil_r, Nat.min_r by exact Ix. rewrite Here by lia. rewrite firstn_all2; [reflexivity|].
      rewrite skipn_length. lia.
    + assert (S p * E <= tail s * E) by (apply Nat.mul_le_mono_r; lia).
      rewrite Nat.min_l by (apply Fu; lia). rewrite Here by nia. rewrite IH by lia. rewrite Nat.add_0_r.
      unfold shown. rewrite <- map_app. f_equal. rewrite <- (firstn_skipn E (skipn (p * E) cl)) at 2. f_equal.
      rewrite skipn_twice. f_equal. cbn. lia.
  - rewrite Nx by lia. destruct (Nat.eqb_spec p (tail s)) as [->|Hne].
    + rewrite dump_end, skipn_all2; [reflexivity|]. rewrite Ln. nia.
    + rewrite IH by lia. unfold shown. do 2 f_equal. f_equal. lia.
Qed.

Lemma shown_order s cl : Inv s cl -> forall d,
  shown (skipn d cl) = map (fun k => nth_error (calls s) k) (skipn d (map fst cl)).
Proof.
  intros [_ B _ _ _ _] d. rewrite skipn_map, map_map. unfold shown. apply map_ext_in. intros c H. symmetry.
  apply (b_call _ _ _ _ _ B). rewrite <- (firstn_skipn d cl). apply in_or_app. right. exact H.
Qed.

Lemma linear_order s cl : Inv s cl -> quiet s -> linear (length (calls s)) (hist s) (map fst cl).
Proof.
  intros [_ B _ _ _ _] Q.
  assert (All : forall k, k < length (calls s) -> In k (map fst cl)).
  { intros k Hk. destruct (b_all _ _ _ _ _ B k Hk) as [H|(t & c & H & _)]; [exact H|]. rewrite Q in H. discriminate. }
  split.
  - apply NoDup_Permutation; [apply B|apply seq_NoDup|]. intros k. rewrite in_seq. split.
    + intros (c & <- & H)%in_map_iff. split; [lia|]. apply (nth_some_lt _ _ (snd c)). exact (b_call _ _ _ _ _ B c H).
    + intros H. apply All. lia.
  - intros a b H. apply (b_order _ _ _ _ _ B a b H). apply All. apply (b_begun _ _ _ _ _ B). apply (before_in _ _ _ H).
Qed.

(** The log holds the latest calls, in an order that respects what was seen from outside. *)
Theorem log_rest sched : let s := runs sched in let n := length (calls s) in
  freed s = false -> quiet s ->
  exists order d, linear n (hist s) order /\
    (n <= M * E -> d = 0) /\ n - d <= M * E /\ (0 < d -> (M - 1) * E < n - d) /\
    (forall fuel, n <= fuel -> iteration E fuel s = Some (map (fun k => nth_error (calls s) k) (skipn d order))) /\
    (forall startPage, dumpEntireLog E s startPage = map (fun k => nth_error (calls s) k) (skipn (d + startPage * E) order)) /\
    dumpStats E s = n - d.
Proof.
  intros s n Fr Q. destruct (runs_inv sched Fr) as [cl Iv]. fold s in Iv. clearbody s.
  pose proof (linear_order _ _ Iv Q) as Lin. pose proof (rest _ _ Iv Q) as R.
  assert (Len : length cl = n).
  { rewrite <- (map_length fst). rewrite (Permutation_length (proj1 Lin)). apply seq_length. }
  exists (map fst cl), (head s * E). split; [exact Lin|].
  pose proof (head_claims _ _ Iv) as HC. pose proof R as [Mk Nm Rg Hd Fu Ix Ln Nx Sl].
  split. { intros Hn. destruct (Nat.eq_dec (head s) 0) as [->|Hh]; [reflexivity|]. specialize (HC ltac:(lia)).
    assert (M * E <= (head s + M - 1) * E) by (apply Nat.mul_le_mono_r; lia). lia. }
  split. { rewrite <- Len, Ln. assert (tail s * E = (head s + num s - 1) * E) as -> by (f_equal; lia).
    assert (num s * E <= M * E) by (apply Nat.mul_le_mono_r; lia).
    assert ((head s + num s - 1) * E = head s * E + (num s - 1) * E) as -> by (rewrite <- Nat.mul_add_distr_r; f_equal; lia). 
    assert ((num s - 1) * E + E = num s * E) by (replace (num s) with (S (num s - 1)) at 2 by lia; cbn; lia). lia. }
  split. { intros Hh. assert (0 < head s) as Hh' by (destruct (head s); lia). specialize (HC Hh').
    rewrite <- Len. assert ((head s + M - 1) * E = head s * E + (M - 1) * E) by (rewrite <- Nat.mul_add_distr_r; f_equal; lia). lia. }
  split. { intros fuel Hf. unfold iteration. rewrite (iterate_rest s cl R (length cl - (head s * E + 0))); try nia.
    - rewrite Nat.add_0_r. f_equal. apply shown_order, Iv. }
  split. { intros sp. unfold dumpEntireLog. rewrite (dump_rest s cl R) by lia. rewrite (shown_order s cl Iv). do 2 f_equal. lia. }
  unfold dumpStats. rewrite <- Len, Ln. assert (tail s * E = (head s + num s - 1) * E) as -> by (f_equal; lia).
  assert ((head s + num s - 1) * E = head s * E + (num s - 1) * E) as -> by (rewrite <- Nat.mul_add_distr_r; f_equal; lia). generalize (head s * E) ((num s - 1) * E). clear. lia.
Qed.

Theorem stats_short sched : let s := runs sched in
  freed s = false -> quiet s -> M * E < length (calls s) -> dumpStats E s < length (calls s).
Proof.
  intros s Fr Q H. destruct (log_rest sched Fr Q) as (order & d & _ & _ & H1 & _ & _ & _ & H2). fold s in H1, H2. lia.
Qed.

(* ---- going on ---- *)
Definition rank (x : pc) : nat :=
  match x with
  | Idle => 0 | Write _ _ _ => 1 | Unlock _ _ _ => 2 | Trim _ _ => 3 | Publish _ _ => 4 | Grow _ _ => 5
  | Retake _ _ => 6 | Check _ => 7 | Lock _ => 8 | Take _ _ => 9 | LoadTail _ => 10
  end.
(** The page a thread has in hand is still there. *)
Definition fine (s : state) (t : nat) : Prop :=
  match pcs s t with Take _ p | Unlock _ p _ | Write _ p _ => head s <= p | _ => True end.

Lemma progress s cl t : Inv s cl -> freed s = false -> pcs s t <> Idle -> (lock s = None \/ lock s = Some t) ->
  freed (step s t Go) = true \/
  (rank (pcs (step s t Go) t) < rank (pcs s t) /\ (forall u, u <> t -> pcs (step s t Go) u = pcs s u) /\
   (lock (step s t Go) = None \/ lock (step s t Go) = Some t) /\ calls (step s t Go) = calls s).
Proof.
  intros Iv Fr Pt Lk. unfold TraceModel.step. rewrite Fr.
  destruct (pcs s t) eqn:P; [congruence|..]; cbn.
  - right. rewrite set_eq. repeat split; try assumption; [cbn; lia|]. intros u Hu. apply set_ne, Hu.
  - destruct (p_live (pages s p)); [right|left; reflexivity]. cbn. rewrite set_eq.
    repeat split; try assumption; [match goal with |- context [if ?q then _ else _] => destruct q end; cbn; lia|]. intros u Hu. apply set_ne, Hu.
  - right. destruct (lock s) as [u|] eqn:L.
    + exfalso. destruct Lk as [Lk|[= ->]]; [discriminate|]. apply (i_lock _ _ _ _ Iv) in L. rewrite P in L. discriminate.
    + cbn. rewrite set_eq. repeat split; [cbn; lia| |right; reflexivity]. intros u Hu. apply set_ne, Hu.
  - destruct (p_live (pages s (tail s))); [right|left; reflexivity]. cbn. rewrite set_eq.
    repeat split; try assumption; [match goal with |- context [if ?q then _ else _] => destruct q end; cbn; lia|]. intros u Hu. apply set_ne, Hu.
  - destruct (p_live (pages s p)); [right|left; reflexivity]. cbn. rewrite set_eq.
    repeat split; try assumption; [match goal with |- context [if ?q then _ else _] => destruct q end; cbn; lia|]. intros u Hu. apply set_ne, Hu.
  - destruct (p_live (pages s p)); [right|left; reflexivity]. cbn. rewrite set_eq.
    repeat split; try assumption; [cbn; lia|]. intros u Hu. apply set_ne, Hu.
  - right. rewrite set_eq. repeat split; try assumption; [cbn; lia|]. intros u Hu. apply set_ne, Hu.
  - destruct (M <=? num s); [destruct (p_live (pages s (head s))); [destruct (p_next (pages s (head s)))|]|]; cbn;
      try (left; reflexivity); right; rewrite set_eq; repeat split; try assumption; try (cbn; lia); intros u Hu; apply set_ne, Hu.
  - right. rewrite set_eq. repeat split; [cbn; lia| |left; reflexivity]. intros u Hu. apply set_ne, Hu.
  - destruct (p_live (pages s p)); [right|left; reflexivity]. cbn. rewrite set_eq.
    repeat split; try assumption; [cbn; lia|]. intros u Hu. apply set_ne, Hu.
Qed.

(** A thread on its own keeps its page. *)
Lemma fine_step s cl t : Inv s cl -> freed s = false -> fine s t -> freed (step s t Go) = false /\ fine (step s t Go) t.
Proof.
  intros Iv Fr Fi.
  assert (NF : freed (step s t Go) = false).
  { destruct (step_inv E M E1 M1 s cl t Go Iv Fr) as [[_ (c & p & H1 & H2)]|[H _]]; [|exact H].
    unfold fine in Fi. destruct H1 as [H1|[i H1]]; rewrite H1 in Fi; lia. }
  split; [exact NF|]. destruct Iv as [L B Sh W Sl O]. pose proof (W t) as Wt.
  revert NF. unfold TraceModel.step. rewrite Fr. unfold fine in *. destruct (pcs s t) eqn:P; cbn [goto pcs head put hold].
  - intros _. rewrite P. exact I.
  - intros _. rewrite set_eq. pose proof (sh_made _ _ _ _ _ _ _ _ _ Sh) as A. pose proof (sh_num _ _ _ _ _ _ _ _ _ Sh) as A2.
    pose proof (sh_range _ _ _ _ _ _ _ _ _ Sh) as A3. pose proof (window_le E M E1 M1 (lock s) (pcs s)).
    destruct (Nat.eqb_spec (window (lock s) (pcs s)) 2), (Nat.eqb_spec (window (lock s) (pcs s)) 0); lia.
  - destruct (p_live (pages s p)); [|discriminate]. intros _. cbn. rewrite set_eq. match goal with |- context [if ?q then _ else _] => destruct q end; [exact Fi|exact I].
  - intros _. destruct (lock s); cbn; [rewrite P|rewrite set_eq]; exact I.
  - destruct (p_live (pages s (tail s))); [|discriminate]. intros _. cbn. rewrite set_eq. match goal with |- context [if ?q then _ else _] => destruct q end; exact I.
  - destruct (p_live (pages s p)) eqn:Lv; [|discriminate]. intros _. cbn. rewrite set_eq. match goal with |- context [if ?q then _ else _] => destruct q end; [|exact I].
    cbn in Wt. subst p. rewrite (sh_live _ _ _ _ _ _ _ _ _ Sh) in Lv; [apply Nat.leb_le; exact Lv|].
    rewrite (sh_made _ _ _ _ _ _ _ _ _ Sh). lia.
  - destruct (p_live (pages s p)); [|discriminate]. intros _. cbn. rewrite set_eq. exact I.
  - intros _. rewrite set_eq. exact I.
  - cbn in Wt. subst p. destruct (others_free _ _ t L) as [Lk _]; [rewrite P; reflexivity|].
    rewrite Lk in Sh. cbn in Sh. rewrite P in Sh. destruct Sh as [SA SB SC SD SF SG SH SI SJ SK]. cbn in SA, SB.
    rewrite (SK (head s)) by lia. rewrite Nat.leb_refl. rewrite (SJ (head s)) by lia.
    destruct (Nat.eqb_spec (S (head s)) (made s)); [lia|]. destruct (M <=? num s); intros _; cbn; rewrite set_eq; lia.
  - intros _. rewrite set_eq. exact Fi.
  - destruct (p_live (pages s p)); [|discriminate]. intros _. cbn. rewrite set_eq. exact I.
Qed.

(** A thread on its own finishes its call. *)
Lemma solo_finish : forall r s cl t, rank (pcs s t) <= r -> Inv s cl -> freed s = false -> fine s t ->
  (lock s = None \/ lock s = Some t) ->
  exists k, let s' := run s (repeat (t, Go) k) in
    freed s' = false /\ pcs s' t = Idle /\ (forall u, u <> t -> pcs s' u = pcs s u) /\ lock s' = None /\ calls s' = calls s.
Proof.
  induction r as [|r IH]; intros s cl t Hr Iv Fr Fi Lk.
  - exists 0. cbn. assert (pcs s t = Idle) as P by (destruct (pcs s t); cbn in Hr; try lia; reflexivity).
    repeat split; auto. destruct Lk as [Lk|Lk]; [exact Lk|]. apply (i_lock _ _ _ _ Iv) in Lk. rewrite P in Lk. discriminate.
  - destruct (Nat.eq_dec (rank (pcs s t)) 0) as [Z|NZ]; [apply (IH s cl t); auto; lia|].
    assert (pcs s t <> Idle) as P by (intros X; rewrite X in NZ; cbn in NZ; lia).
    destruct (fine_step s cl t Iv Fr Fi) as [F1 F2].
    destruct (progress s cl t Iv Fr P Lk) as [X|(R1 & R2 & R3 & R4)]; [congruence|].
    destruct (step_inv E M E1 M1 s cl t Go Iv Fr) as [[X _]|[_ [cl' Iv']]]; [congruence|].
    destruct (IH (step s t Go) cl' t ltac:(lia) Iv' F1 F2 R3) as (k & K1 & K2 & K3 & K4 & K5).
    exists (S k). change (run s (repeat (t, Go) (S k))) with (run (step s t Go) (repeat (t, Go) k)). repeat split; try assumption.
    + intros u Hu. rewrite (K3 u Hu). apply R2, Hu.
    + rewrite K5. exact R4.
Qed.

Lemma solo_call s cl t : Inv s cl -> freed s = false -> pcs s t = Idle -> lock s = None ->
  exists sched, let s' := run s sched in freed s' = false /\ pcs s' t = Idle /\
    (forall u, u <> t -> pcs s' u = pcs s u) /\ lock s' = None /\ length (calls s') = S (length (calls s)).
Proof.
  intros Iv Fr Pt Lk. set (s1 := step s t (Begin 0 0 0)).
  assert (I1 : Inv s1 cl) by (apply step_begin; assumption).
  assert (F1 : freed s1 = false). { unfold s1, TraceModel.step. rewrite Fr, Pt. reflexivity. }
  assert (P1 : pcs s1 = set (pcs s) t (LoadTail (length (calls s), mkev t 0 0 0))). { unfold s1, TraceModel.step. rewrite Fr, Pt. reflexivity. }
  assert (L1 : lock s1 = None). { unfold s1, TraceModel.step. rewrite Fr, Pt. exact Lk. }
  assert (C1 : calls s1 = calls s ++ [mkev t 0 0 0]). { unfold s1, TraceModel.step. rewrite Fr, Pt. reflexivity. }
  destruct (solo_finish 10 s1 cl t) as (k & K1 & K2 & K3 & K4 & K5); auto.
  { rewrite P1, set_eq. cbn. lia. } { unfold fine. rewrite P1, set_eq. exact I. }
  exists ((t, Begin 0 0 0) :: repeat (t, Go) k). change (run s _) with (run s1 (repeat (t, Go) k)).
  repeat split; try assumption.
  - intros u Hu. rewrite (K3 u Hu), P1. apply set_ne, Hu.
  - rewrite K5, C1, app_length. cbn. lia.
Qed.

Lemma solo_calls t n s cl : Inv s cl -> freed s = false -> pcs s t = Idle -> lock s = None ->
  exists sched, let s' := run s sched in freed s' = false /\ pcs s' t = Idle /\
    (forall u, u <> t -> pcs s' u = pcs s u) /\ lock s' = None /\ length (calls s') = n + length (calls s).
Proof.
  revert s cl. induction n as [|n IH]; intros s cl Iv Fr Pt Lk.
  - exists []. cbn. auto.
  - destruct (solo_call s cl t Iv Fr Pt Lk) as (a & A1 & A2 & A3 & A4 & A5).
    destruct (run_inv_from s cl a Iv A1) as [cl' Iv'].
    destruct (IH (run s a) cl' Iv' A1 A2 A4) as (b & B1 & B2 & B3 & B4 & B5).
    exists (a ++ b). rewrite run_app. repeat split; try assumption.
    + intros u Hu. rewrite (B3 u Hu). apply A3, Hu.
    + rewrite B5, A5. lia.
Qed.

(** One slow thread, one busy one. *)
Theorem freed_reachable : exists sched, freed (runs sched) = true.
Proof.
  set (pre := [(0, Begin 0 0 0); (0, Go)]).
  assert (F0 : freed (runs pre) = false) by reflexivity.
  destruct (runs_inv pre F0) as [cl0 Iv0].
  destruct (solo_calls 1 (M * E + 1) (runs pre) cl0 Iv0 F0 eq_refl eq_refl) as (mid & A1 & A2 & A3 & A4 & A5).
  destruct (run_inv_from _ _ mid Iv0 A1) as [cl Iv].
  exists (pre ++ mid ++ [(0, Go)]). unfold TraceModel.runs in *. rewrite !run_app.
  set (s := run (run start pre) mid) in *.
  assert (P0 : pcs s 0 = Take (0, mkev 0 0 0 0) 0) by (rewrite A3 by lia; reflexivity).
  change (run s [(0, Go)]) with (step s 0 Go).
  assert (Oth : forall t c, waiting (pcs s t) = Some c -> t = 0).
  { intros t c H. destruct (Nat.eq_dec t 0) as [|Ht]; [assumption|]. destruct (Nat.eq_dec t 1) as [->|Ht1].
    - rewrite A2 in H. discriminate.
    - rewrite A3 in H by exact Ht1. cbn in H. unfold set in H. destruct (Nat.eqb_spec t 0); [lia|]. discriminate. }
  assert (Cn : length (calls s) = M * E + 2) by (rewrite A5; cbn; lia).
  assert (Len : M * E + 1 <= length cl).
  { pose proof (i_book _ _ _ _ Iv) as B. rewrite <- (map_length fst).
    assert (incl (seq 1 (M * E + 1)) (map fst cl)) as Inc.
    { intros k Hk%in_seq. destruct (b_all _ _ _ _ _ B k ltac:(lia)) as [H|(t & c & H1 & H2)]; [exact H|].
      pose proof (Oth t c H1). subst t. rewrite P0 in H1. injection H1 as <-. cbn in H2. lia. }
    apply NoDup_incl_length in Inc; [|apply seq_NoDup]. rewrite seq_length in Inc. exact Inc. }
  assert (Hh : 0 < head s).
  { destruct (Nat.eq_dec (head s) 0) as [Z|]; [|lia]. exfalso.
    pose proof (i_shape _ _ _ _ Iv) as Sh. rewrite A4 in Sh. cbn in Sh.
    pose proof (proj1 (shape_len E M E1 M1 _ _ _ _ _ _ _ Sh)) as Ln. destruct Sh as [SA SB SC SD SF SG SH SI SJ SK]. cbn in SA, SB.
    assert (made s * E <= M * E) by (apply Nat.mul_le_mono_r; lia). lia. }
  unfold TraceModel.step. rewrite A1, P0.
  rewrite (sh_live _ _ _ _ _ _ _ _ _ (i_shape _ _ _ _ Iv)).
  - destruct (Nat.leb_spec (head s) 0); [lia|]. reflexivity.
  - pose proof (sh_made _ _ _ _ _ _ _ _ _ (i_shape _ _ _ _ Iv)). lia.
Qed.

(** Nobody is held up for ever. *)
Lemma release : forall r s cl u, rank (pcs s u) <= r -> Inv s cl -> freed s = false -> lock s = Some u ->
  exists k, let s' := run s (repeat (u, Go) k) in
    freed s' = true \/ freed s' = false /\ lock s' = None /\ (forall v, v <> u -> pcs s' v = pcs s v).
Proof.
  induction r as [|r IH]; intros s cl u Hr Iv Fr Lk.
  - apply (i_lock _ _ _ _ Iv) in Lk. destruct (pcs s u); cbn in *; try discriminate; lia.
  - assert (Hu : pcs s u <> Idle). { intros X. apply (i_lock _ _ _ _ Iv) in Lk. rewrite X in Lk. discriminate. }
    destruct (progress s cl u Iv Fr Hu (or_intror Lk)) as [X|(R1 & R2 & R3 & R4)]; [exists 1; left; exact X|].
    destruct (step_inv E M E1 M1 s cl u Go Iv Fr) as [[X _]|[F1 [cl' Iv']]]; [exists 1; left; exact X|].
    destruct R3 as [R3|R3]; [exists 1; right; auto|].
    destruct (IH (step s u Go) cl' u ltac:(lia) Iv' F1 R3) as (k & [K|(K1 & K2 & K3)]).
    + exists (S k). left. exact K.
    + exists (S k). right. split; [exact K1|]. split; [exact K2|]. intros v Hv. change (run s (repeat (u, Go) (S k))) with (run (step s u Go) (repeat (u, Go) k)). rewrite (K3 v Hv). apply R2, Hv.
Qed.
Lemma finish : forall r s cl t, rank (pcs s t) <= r -> Inv s cl -> freed s = false -> (lock s = None \/ lock s = Some t) ->
  exists k, let s' := run s (repeat (t, Go) k) in freed s' = true \/ pcs s' t = Idle.
Proof.
  induction r as [|r IH]; intros s cl t Hr Iv Fr Lk.
  - exists 0. right. destruct (pcs s t) eqn:P; cbn in *; try lia. exact P.
  - destruct (Nat.eq_dec (rank (pcs s t)) 0) as [Z|NZ]; [apply (IH s cl t); auto; lia|].
    assert (pcs s t <> Idle) as P by (intros X; rewrite X in NZ; cbn in NZ; lia).
    destruct (progress s cl t Iv Fr P Lk) as [X|(R1 & R2 & R3 & R4)]; [exists 1; left; exact X|].
    destruct (step_inv E M E1 M1 s cl t Go Iv Fr) as [[X _]|[F1 [cl' Iv']]]; [exists 1; left; exact X|].
    destruct (IH (step s t Go) cl' t ltac:(lia) Iv' F1 R3) as (k & K). exists (S k). exact K.
Qed.
Theorem available sched t : freed (runs sched) = false ->
  exists more, freed (runs (sched ++ more)) = true \/ pcs (runs (sched ++ more)) t = Idle.
Proof.
  intros Fr. destruct (runs_inv sched Fr) as [cl Iv]. set (s := runs sched) in *.
  destruct (lock s) as [u|] eqn:Lk.
  - destruct (Nat.eq_dec u t) as [->|Hu].
    + destruct (finish _ s cl t (le_n _) Iv Fr (or_intror Lk)) as [k K]. exists (repeat (t, Go) k).
      unfold TraceModel.runs in *. rewrite run_app. exact K.
    + destruct (release _ s cl u (le_n _) Iv Fr Lk) as (k & [K|(K1 & K2 & K3)]).
      * exists (repeat (u, Go) k). unfold TraceModel.runs in *. rewrite run_app. left. exact K.
      * destruct (run_inv_from s cl _ Iv K1) as [cl' Iv'].
        destruct (finish _ _ cl' t (le_n _) Iv' K1 (or_introl K2)) as [k' K'].
        exists (repeat (u, Go) k ++ repeat (t, Go) k'). unfold TraceModel.runs in *. rewrite !run_app. exact K'.
  - destruct (finish _ s cl t (le_n _) Iv Fr (or_introl Lk)) as [k K]. exists (repeat (t, Go) k).
    unfold TraceModel.runs in *. rewrite run_app. exact K.
Qed.

(** A dump taken while a call is under way. *)
Theorem dump_early : let s := runs [(0, Begin 0 0 0); (0, Go); (0, Go)] in
  freed s = false /\ lock s = None /\ dumpEntireLog E s 0 = [None].
Proof.
  cbn. destruct (Nat.ltb_spec 0 E); [|lia]. cbn. unfold dumpEntireLog, dump. cbn.
  split; [reflexivity|]. split; [reflexivity|]. destruct E as [|[|e]]; [lia|reflexivity|reflexivity].
Qed.
End Runs.
