(* Array cells as lists: point update and its lemmas. *)
From Verif Require Export Base.

Section Upd.
Context {A : Type}.

(** [a[i] = x] for an array given as a list; no effect out of range. *)
Fixpoint upd (l : list A) (i : nat) (x : A) : list A :=
  match l, i with
  | [], _ => []
  | _ :: r, O => x :: r
  | y :: r, S i => y :: upd r i x
  end.

Lemma upd_length l i x : length (upd l i x) = length l.
Proof. revert i. induction l as [|y l IH]; intros [|i]; cbn; auto. Qed.

Lemma nth_upd_eq l i x : (i < length l)%nat -> nth_error (upd l i x) i = Some x.
Proof. revert i. induction l as [|y l IH]; intros [|i] H; cbn in *; try lia; auto. apply IH. lia. Qed.

Lemma nth_upd_ne l i j x : i <> j -> nth_error (upd l i x) j = nth_error l j.
Proof.
  revert i j. induction l as [|y l IH]; intros [|i] [|j] H; cbn; auto; try congruence.
Qed.

Lemma nth_upd l i j x : nth_error (upd l i x) j =
  if (i =? j)%nat then (if (i <? length l)%nat then Some x else None) else nth_error l j.
Proof.
  destruct (Nat.eqb_spec i j) as [->|H]; [|apply nth_upd_ne; assumption].
  destruct (Nat.ltb_spec j (length l)); [apply nth_upd_eq; assumption|].
  apply nth_error_None. rewrite upd_length. assumption.
Qed.

Lemma upd_app_r l r i x : (length l <= i)%nat -> upd (l ++ r) i x = l ++ upd r (i - length l) x.
Proof.
  revert i. induction l as [|y l IH]; intros i H; cbn in *; [rewrite Nat.sub_0_r; reflexivity|].
  destruct i; [lia|]. cbn. f_equal. apply IH. lia.
Qed.

Lemma upd_app_l l r i x : (i < length l)%nat -> upd (l ++ r) i x = upd l i x ++ r.
Proof.
  revert i. induction l as [|y l IH]; intros i H; cbn in *; [lia|].
  destruct i; [reflexivity|]. cbn. f_equal. apply IH. lia.
Qed.

Lemma upd_split l i x : (i < length l)%nat -> upd l i x = firstn i l ++ x :: skipn (S i) l.
Proof.
  revert i. induction l as [|y l IH]; intros i H; cbn in *; [lia|].
  destruct i; [reflexivity|]. cbn. f_equal. apply IH. lia.
Qed.

Lemma nth_split_eq l i (x : A) : nth_error l i = Some x -> l = firstn i l ++ x :: skipn (S i) l.
Proof.
  revert i. induction l as [|y l IH]; intros [|i] H; cbn in *; try discriminate.
  - injection H as ->. reflexivity.
  - f_equal. apply IH. exact H.
Qed.

Lemma nth_lt l i (x : A) : nth_error l i = Some x -> (i < length l)%nat.
Proof. intros H. apply nth_error_Some. congruence. Qed.
Lemma nth_ex l i : (i < length l)%nat -> exists x : A, nth_error l i = Some x.
Proof. intros H. destruct (nth_error l i) eqn:E; [eauto|]. apply nth_error_None in E. lia. Qed.

Lemma list_ext (l r : list A) : (forall i, nth_error l i = nth_error r i) -> l = r.
Proof.
  revert r. induction l as [|x l IH]; intros [|y r] H; auto.
  - specialize (H 0%nat). discriminate.
  - specialize (H 0%nat). discriminate.
  - pose proof (H 0%nat) as E. cbn in E. injection E as ->. f_equal. apply IH. intros i. apply (H (S i)).
Qed.

(* Swapping two cells permutes. *)
Lemma swap_perm l i j (x y : A) : nth_error l i = Some x -> nth_error l j = Some y ->
  Permutation l (upd (upd l i y) j x).
Proof.
  intros Hi Hj. destruct (Nat.eq_dec i j) as [->|Hne].
  - rewrite Hi in Hj. injection Hj as <-. assert (E : upd (upd l j x) j x = l).
    { apply list_ext. intros k. rewrite !nth_upd, upd_length.
      destruct (Nat.eqb_spec j k) as [->|]; [|reflexivity].
      pose proof (nth_lt _ _ _ Hi) as H. apply Nat.ltb_lt in H. rewrite H. auto. }
    rewrite E. reflexivity.
  - assert (W : forall i j x y, (i < j)%nat -> nth_error l i = Some x -> nth_error l j = Some y ->
                Permutation l (upd (upd l i y) j x)).
    { clear. intros i j x y Hlt Hi Hj. pose proof (nth_lt _ _ _ Hi). pose proof (nth_lt _ _ _ Hj).
      pose proof (nth_split_eq _ _ _ Hi) as E1. set (a := firstn i l) in *. set (b := skipn (S i) l) in *.
      assert (La : length a = i) by (unfold a; rewrite firstn_length; lia).
      assert (Hjb : nth_error b (j - S i) = Some y).
      { rewrite E1 in Hj. rewrite nth_error_app2 in Hj by lia. rewrite La in Hj.
        replace (j - i)%nat with (S (j - S i)) in Hj by lia. exact Hj. }
      pose proof (nth_split_eq _ _ _ Hjb) as E2. set (b1 := firstn _ b) in *. set (b2 := skipn _ b) in *.
      assert (Lb : (length b1 = j - S i)%nat).
      { unfold b1. rewrite firstn_length. pose proof (nth_lt _ _ _ Hjb). lia. }
      rewrite E1 at 2. rewrite upd_app_r by lia. rewrite La, Nat.sub_diag. cbn [upd].
      rewrite upd_app_r by lia. rewrite La. replace (j - i)%nat with (S (j - S i)) by lia. cbn [upd].
      rewrite E2. rewrite upd_app_r by lia. rewrite Lb, Nat.sub_diag. cbn [upd].
      rewrite E1 at 1. rewrite E2. apply Permutation_app_head.
      transitivity (y :: x :: b1 ++ b2).
      - transitivity (x :: y :: b1 ++ b2); [|apply perm_swap]. constructor. symmetry. apply Permutation_middle.
      - constructor. apply Permutation_middle. }
    destruct (Nat.lt_ge_cases i j) as [H|H]; [apply W; assumption|].
    assert (E : upd (upd l i y) j x = upd (upd l j x) i y).
    { apply list_ext. intros k. rewrite !nth_upd, !upd_length.
      destruct (Nat.eqb_spec j k), (Nat.eqb_spec i k); try reflexivity. lia. }
    rewrite E. apply W; [lia|assumption|assumption].
Qed.
End Upd.

Lemma skipn_skipn {A} (x y : nat) (l : list A) : skipn x (skipn y l) = skipn (x + y) l.
Proof.
  revert l; induction y as [|y IH]; intros l; [rewrite Nat.add_0_r; reflexivity|].
  rewrite Nat.add_succ_r. destruct l; cbn; [apply skipn_nil|apply IH].
Qed.
