(* Proofs about the hashes. *)
From Coq Require Import Lia ZifyBool ZifyNat.
From Verif Require Import UtilProofs HashSpec.
Local Notation "'do' p <- m ; k" := (match m with Some p => k | None => None end) (at level 200, p pattern, m at level 100, k at level 200).

(* ---- memory ---- *)
Lemma put_mid a b c l : length l = length b -> put (a ++ b ++ c) (length a) l = Some (a ++ l ++ c).
Proof.
  intros E. unfold put. rewrite !app_length. replace (length a + length l <=? length a + (length b + length c))%nat with true by lia.
  rewrite firstn_app, firstn_all, Nat.sub_diag. cbn [firstn]. rewrite app_nil_r. do 3 f_equal. rewrite skipn_app, skipn_all2 by lia. cbn [app]. replace (length a + length l - length a)%nat with (length l) by lia. rewrite skipn_app, skipn_all2 by lia. rewrite E, Nat.sub_diag. reflexivity.
Qed.
Lemma split3 (m : list Z) p n : (p + n <= length m)%nat -> exists a b c, m = a ++ b ++ c /\ length a = p /\ length b = n.
Proof.
  intros H. exists (firstn p m), (firstn n (skipn p m)), (skipn n (skipn p m)). rewrite (firstn_skipn n), firstn_skipn. rewrite !firstn_length, skipn_length. split; [reflexivity|lia].
Qed.
Lemma put_ok m p l : (p + length l <= length m)%nat -> exists m', put m p l = Some m' /\ length m' = length m /\ firstn (p + length l) m' = firstn p m ++ l.
Proof.
  intros H. destruct (split3 m p (length l) H) as (a & b & c & -> & E1 & E2). subst p. exists (a ++ l ++ c). split; [apply put_mid; lia|]. split; [rewrite !app_length; lia|].
  rewrite app_assoc, firstn_app, app_length, firstn_all2 by (rewrite app_length; lia). replace (length a + length l - (length a + length l))%nat with 0%nat by lia. cbn [firstn]. rewrite app_nil_r. f_equal. rewrite firstn_app, firstn_all, Nat.sub_diag. cbn [firstn]. rewrite app_nil_r. reflexivity.
Qed.
Lemma firstn_len_app (a b : list Z) : firstn (length a) (a ++ b) = a.
Proof. rewrite firstn_app, firstn_all, Nat.sub_diag. cbn [firstn]. apply app_nil_r. Qed.
Lemma firstn_firstn_le (l : list Z) i j : (i <= j)%nat -> firstn i (firstn j l) = firstn i l.
Proof. intros H. rewrite firstn_firstn. f_equal. lia. Qed.
Lemma skipn_plus (l : list Z) i j : skipn i (skipn j l) = skipn (j + i) l.
Proof. revert l. induction j as [|j IH]; intros l; [reflexivity|]. destruct l; [rewrite !skipn_nil; reflexivity|]. apply IH. Qed.

(** Two places with the same [n] bytes. *)
Definition agree (n : nat) (m : list Z) (p : nat) (m' : list Z) (p' : nat) : Prop :=
  (p + n <= length m)%nat /\ (p' + n <= length m')%nat /\ firstn n (skipn p m) = firstn n (skipn p' m').
Lemma agree_sub n m p m' p' i k : agree n m p m' p' -> (i + k <= n)%nat -> agree k m (p + i) m' (p' + i).
Proof.
  intros (H1 & H2 & E) H. split; [lia|]. split; [lia|]. rewrite <- !skipn_plus. rewrite <- (firstn_firstn_le _ k (n - i)) by lia. rewrite <- (firstn_firstn_le (skipn i (skipn p' m')) k (n - i)) by lia. rewrite <- !skipn_firstn_comm, E. reflexivity.
Qed.
Lemma agree_refl n m p : (p + n <= length m)%nat -> agree n m p m p.
Proof. intros H. repeat split; lia. Qed.
Lemma rd_agree n m p m' p' : agree n m p m' p' -> rd n m p = rd n m' p' /\ exists v, rd n m p = Some v.
Proof. intros (H1 & H2 & E). unfold rd. replace (p + n <=? length m)%nat with true by lia. replace (p' + n <=? length m')%nat with true by lia. rewrite E. split; [reflexivity|]. exists (le (firstn n (skipn p' m'))). reflexivity. Qed.
Lemma words_agree k : forall m p m' p', agree (8 * k) m p m' p' -> words k m p = words k m' p' /\ exists v, words k m p = Some v.
Proof.
  induction k as [|k IH]; intros m p m' p' A; [split; [reflexivity|exists []; reflexivity]|]. cbn [words]. destruct (rd_agree 8 m p m' p') as (E & v & V). { rewrite <- (Nat.add_0_r p), <- (Nat.add_0_r p'). apply (agree_sub _ _ _ _ _ 0 8 A). lia. }
  rewrite <- E, V. destruct (IH m (p + 8)%nat m' (p' + 8)%nat) as (Ew & ws & Vw). { apply (agree_sub _ _ _ _ _ 8 (8 * k) A). lia. } rewrite <- Ew, Vw. split; [reflexivity|]. exists (v :: ws). reflexivity.
Qed.

(* ---- mixing ---- *)
Lemma set_length s i x : length (set s i x) = length s.
Proof. revert i. induction s as [|y s IH]; intros i; [reflexivity|]. destruct i; cbn [set length]; [reflexivity|rewrite IH; reflexivity]. Qed.
Lemma set_is64 s : Forall is64 s -> forall i x, is64 x -> Forall is64 (set s i x).
Proof. induction 1 as [|y s Hy Hs IH]; intros i x Hx; [constructor|]. destruct i; cbn [set]; constructor; try assumption. apply IH, Hx. Qed.
Lemma at_is64 s i : Forall is64 s -> is64 (at_ s i).
Proof. intros H. unfold at_. destruct (nth_in_or_default i s 0) as [I|E]; [rewrite Forall_forall in H; apply H, I|rewrite E; unfold is64; lia]. Qed.
Lemma u64_is64 x : is64 (u64 x).
Proof. apply u64_range. Qed.
Definition okOp (o : op) : bool := match o with Rot _ k => (0 <=? k) && (k <=? 64) | _ => true end.
Lemma rotl_is64 x k : 0 <= k <= 64 -> is64 x -> is64 (rotl 64 x k).
Proof. intros Hk Hx. apply lor_bound; [lia|apply u64_range|apply shiftr_bound; [lia|exact Hx]]. Qed.
Lemma run_ok d ops : forallb okOp ops = true -> forall s, Forall is64 s -> Forall is64 (run d ops s) /\ length (run d ops s) = length s.
Proof.
  induction ops as [|o ops IH]; intros Ho s Hs; [split; [exact Hs|reflexivity]|]. cbn [forallb] in Ho. apply andb_true_iff in Ho. destruct Ho as (Ho & Hops). unfold run. cbn [fold_left]. fold (run d ops (step d s o)).
  assert (S : Forall is64 (step d s o) /\ length (step d s o) = length s).
  { destruct o as [i|i j|i j|i k]; cbn [step]; (split; [apply set_is64; [exact Hs|]|apply set_length]); try apply u64_is64.
    - apply lxor_bound; [lia|apply at_is64, Hs|apply at_is64, Hs].
    - cbn [okOp] in Ho. apply rotl_is64; [lia|apply at_is64, Hs]. }
  destruct S as (S1 & S2). destruct (IH Hops _ S1) as (I1 & I2). split; [exact I1|congruence].
Qed.
Definition good (n : nat) (s : list Z) : Prop := Forall is64 s /\ length s = n.
Lemma run_good d ops n s : forallb okOp ops = true -> good n s -> good n (run d ops s).
Proof. intros Ho (H1 & H2). destruct (run_ok d ops Ho s H1) as (I1 & I2). split; [exact I1|congruence]. Qed.
Lemma set_good n s i x : good n s -> is64 x -> good n (set s i x).
Proof. intros (H1 & H2) Hx. split; [apply set_is64; assumption|rewrite set_length; exact H2]. Qed.

Lemma mixAt_agree m p m' p' s n : agree 96 m p m' p' -> good n s -> mixAt m p s = mixAt m' p' s /\ exists s', mixAt m p s = Some s' /\ good n s'.
Proof.
  intros A G. destruct (words_agree numVars m p m' p' A) as (E & v & V). unfold mixAt. rewrite <- E, V. split; [reflexivity|]. eexists. split; [reflexivity|]. apply run_good; [reflexivity|exact G].
Qed.
Lemma mixBlocks_agree k : forall m p m' p' s n, agree (96 * k) m p m' p' -> good n s -> mixBlocks k m p s = mixBlocks k m' p' s /\ exists s', mixBlocks k m p s = Some s' /\ good n s'.
Proof.
  induction k as [|k IH]; intros m p m' p' s n A G; [split; [reflexivity|exists s; split; [reflexivity|exact G]]|]. cbn [mixBlocks].
  destruct (mixAt_agree m p m' p' s n) as (E & s' & V & G'). { rewrite <- (Nat.add_0_r p), <- (Nat.add_0_r p'). apply (agree_sub _ _ _ _ _ 0 96 A). lia. } { exact G. }
  rewrite <- E, V. apply IH with (n := n); [|exact G']. apply (agree_sub _ _ _ _ _ 96 (96 * k) A). lia.
Qed.
Lemma mixBlocks_plus j : forall k m p s, mixBlocks (j + k) m p s = do s <- mixBlocks j m p s; mixBlocks k m (p + 96 * j) s.
Proof.
  induction j as [|j IH]; intros k m p s; cbn [mixBlocks Nat.add]; [rewrite Nat.mul_0_r, Nat.add_0_r; reflexivity|]. destruct (mixAt m p s) as [s1|]; [|reflexivity]. rewrite IH. unfold blockSize. destruct (mixBlocks j m (p + 96) s1) as [s2|]; [|reflexivity]. f_equal. lia.
Qed.
Lemma data_good n s d l : good n s -> good n (run d (map Data l) s).
Proof. apply run_good. induction l; [reflexivity|exact IHl]. Qed.
Lemma end_agree m p m' p' s : agree 96 m p m' p' -> good 12 s -> end_ m p s = end_ m' p' s /\ exists r, end_ m p s = Some r /\ is64 (fst r) /\ is64 (snd r).
Proof.
  intros A G. destruct (words_agree numVars m p m' p' A) as (E & v & V). unfold end_. rewrite <- E, V. split; [reflexivity|]. eexists. split; [reflexivity|]. cbn [fst snd].
  assert (Ge : good 12 (run [] endOps (run [] endOps (run [] endOps (run v (map Data (seq 0 numVars)) s))))) by (repeat (apply run_good; [reflexivity|]); exact G). split; apply at_is64, Ge.
Qed.

(* ---- short messages ---- *)
Lemma shortLoop_agree k : forall m p m' p' s, agree (32 * k) m p m' p' -> good 4 s -> shortLoop k m p s = shortLoop k m' p' s /\ exists s', shortLoop k m p s = Some s' /\ good 4 s'.
Proof.
  induction k as [|k IH]; intros m p m' p' s A G; [split; [reflexivity|exists s; split; [reflexivity|exact G]]|]. cbn [shortLoop].
  destruct (words_agree 4 m p m' p') as (E & v & V). { rewrite <- (Nat.add_0_r p), <- (Nat.add_0_r p'). apply (agree_sub _ _ _ _ _ 0 32 A). lia. }
  rewrite <- E, V. cbv zeta. apply IH; [apply (agree_sub _ _ _ _ _ 32 (32 * k) A); lia|]. repeat (apply set_good; [|apply u64_is64]). apply run_good; [reflexivity|]. repeat (apply set_good; [|apply u64_is64]). exact G.
Qed.
Lemma plusAt_agree n m p m' p' sh s i : agree n m p m' p' -> good 4 s -> plusAt n m p sh s i = plusAt n m' p' sh s i /\ exists s', plusAt n m p sh s i = Some s' /\ good 4 s'.
Proof. intros A G. destruct (rd_agree n m p m' p' A) as (E & v & V). unfold plusAt. rewrite <- E, V. split; [reflexivity|]. eexists. split; [reflexivity|]. apply set_good; [exact G|apply u64_is64]. Qed.
Lemma shortTail_agree r m p m' p' s : (r < 16)%nat -> agree r m p m' p' -> good 4 s -> shortTail r m p s = shortTail r m' p' s /\ exists s', shortTail r m p s = Some s' /\ good 4 s'.
Proof.
  intros Hr A G.
  assert (P : forall n i sh s j, (i + n <= r)%nat -> good 4 s -> plusAt n m (p + i) sh s j = plusAt n m' (p' + i) sh s j /\ exists s', plusAt n m (p + i) sh s j = Some s' /\ good 4 s').
  { intros n i sh s0 j Hi G0. apply plusAt_agree; [|exact G0]. apply (agree_sub _ _ _ _ _ i n A Hi). }
  assert (P0 : forall n sh s j, (n <= r)%nat -> good 4 s -> plusAt n m p sh s j = plusAt n m' p' sh s j /\ exists s', plusAt n m p sh s j = Some s' /\ good 4 s').
  { intros n sh s0 j Hi G0. specialize (P n 0%nat sh s0 j Hi G0). rewrite !Nat.add_0_r in P. exact P. }
  Ltac go P P0 := repeat match goal with
    | G : good 4 ?s |- context [plusAt ?n ?m (?p + ?i) ?sh ?s ?j] => 
      let E := fresh in let x := fresh "s" in let V := fresh in let G' := fresh "G" in destruct (P n i sh s j ltac:(lia) G) as (E & x & V & G'); rewrite <- E, V; clear E V
    | G : good 4 ?s |- context [plusAt ?n ?m ?p ?sh ?s ?j] => 
      let E := fresh in let x := fresh "s" in let V := fresh in let G' := fresh "G" in destruct (P0 n sh s j ltac:(lia) G) as (E & x & V & G'); rewrite <- E, V; clear E V
    end.
  do 16 (destruct r as [|r]; [unfold shortTail, when; cbn [Nat.leb]; go P P0; (split; [reflexivity|]); eexists; (split; [reflexivity|]); try assumption; repeat (apply set_good; [|apply u64_is64]); assumption|]). lia.
Qed.
Lemma scConst_64 : is64 scConst.
Proof. unfold is64, scConst. lia. Qed.
Lemma short_agree m m' n s1 s2 : agree n m 0 m' 0 -> is64 s1 -> is64 s2 -> short m n s1 s2 = short m' n s1 s2 /\ exists r, short m n s1 s2 = Some r /\ is64 (fst r) /\ is64 (snd r).
Proof.
  intros A H1 H2. pose proof scConst_64 as Hc. assert (G : good 4 [s1; s2; scConst; scConst]) by (split; [repeat constructor; try assumption; apply H1 || apply H2 || apply Hc|reflexivity]).
  assert (T : forall r p s, (r < 16)%nat -> (p + r <= n)%nat -> good 4 s ->
    (do s <- shortTail r m p (set s 3 (u64 (at_ s 3 + u64 (Z.shiftl (Z.of_nat n) 56)))); let s := run [] shortEndOps s in Some (at_ s 0, at_ s 1)) =
    (do s <- shortTail r m' p (set s 3 (u64 (at_ s 3 + u64 (Z.shiftl (Z.of_nat n) 56)))); let s := run [] shortEndOps s in Some (at_ s 0, at_ s 1)) /\
    exists q, (do s <- shortTail r m p (set s 3 (u64 (at_ s 3 + u64 (Z.shiftl (Z.of_nat n) 56)))); let s := run [] shortEndOps s in Some (at_ s 0, at_ s 1)) = Some q /\ is64 (fst q) /\ is64 (snd q)).
  { intros r p s Hr Hp Gs. destruct (shortTail_agree r m p m' p (set s 3 (u64 (at_ s 3 + u64 (Z.shiftl (Z.of_nat n) 56)))) Hr) as (E & s' & V & G').
    - apply (agree_sub n m 0 m' 0 p r A Hp).
    - apply set_good; [exact Gs|apply u64_is64].
    - rewrite <- E, V. split; [reflexivity|]. eexists. split; [reflexivity|]. cbn [fst snd]. assert (Ge : good 4 (run [] shortEndOps s')) by (apply run_good; [reflexivity|exact G']). split; apply at_is64, Ge. }
  unfold short. cbv zeta. pose proof (Nat.div_mod n 32 ltac:(lia)) as Dm. pose proof (Nat.mod_upper_bound n 32 ltac:(lia)) as Ub. set (k := (n / 32)%nat) in *. set (r := (n mod 32)%nat) in *. clearbody k r.
  destruct (Nat.ltb_spec 15 n) as [L|L].
  - destruct (shortLoop_agree k m 0 m' 0 [s1; s2; scConst; scConst]) as (E & s & V & Gs); [apply (agree_sub n m 0 m' 0 0 (32 * k) A); lia|exact G|]. rewrite <- E, V. destruct (Nat.leb_spec 16 r) as [L2|L2].
    + destruct (words_agree 2 m (k * 32) m' (k * 32)) as (Ew & w & Vw); [apply (agree_sub n m 0 m' 0 (k * 32) 16 A); lia|]. rewrite <- Ew, Vw. apply T; [lia|lia|]. apply run_good; [reflexivity|]. repeat (apply set_good; [|apply u64_is64]). exact Gs.
    + apply T; [lia|lia|exact Gs].
  - apply T; [lia|lia|exact G].
Qed.

(* ---- messages in pieces ---- *)
Lemma start_good s1 s2 : is64 s1 -> is64 s2 -> good 12 (start s1 s2).
Proof. intros H1 H2. pose proof scConst_64 as Hc. split; [unfold start; repeat (apply Forall_cons; [assumption|]); apply Forall_nil|reflexivity]. Qed.
Lemma zeros_length n : length (zeros n) = n.
Proof. apply repeat_length. Qed.
(** The last block. *)
Definition lastBlock (t : list Z) : list Z := t ++ zeros (95 - length t) ++ [Z.of_nat (length t)].
Lemma last_written a t b c : length (t ++ b) = 96%nat -> (length t < 96)%nat -> 
  (do m <- put (a ++ (t ++ b) ++ c) (length a + length t) (zeros (96 - length t)); put m (length a + 96 - 1) [Z.of_nat (length t)]) = Some (a ++ lastBlock t ++ c).
Proof.
  intros L Lt. rewrite app_length in L. rewrite <- app_assoc. rewrite (app_assoc a t). rewrite <- app_length. rewrite put_mid by (rewrite zeros_length; lia).
  assert (Z1 : zeros (96 - length t) = zeros (95 - length t) ++ [0]) by (replace (96 - length t)%nat with (95 - length t + 1)%nat by lia; unfold zeros; apply repeat_app). rewrite Z1.
  replace ((a ++ t) ++ (zeros (95 - length t) ++ [0]) ++ c) with ((a ++ t ++ zeros (95 - length t)) ++ [0] ++ c) by (rewrite <- !app_assoc; reflexivity).
  replace (length a + 96 - 1)%nat with (length (a ++ t ++ zeros (95 - length t))) by (rewrite !app_length, zeros_length; lia). rewrite put_mid by reflexivity. unfold lastBlock. rewrite <- !app_assoc. reflexivity.
Qed.
Lemma lastBlock_length t : (length t < 96)%nat -> length (lastBlock t) = 96%nat.
Proof. intros H. unfold lastBlock. rewrite !app_length, zeros_length. cbn [length]. lia. Qed.
Lemma agree_mid n a b c : length b = n -> agree n (a ++ b ++ c) (length a) b 0.
Proof. intros <-. split; [rewrite !app_length; lia|]. split; [lia|]. rewrite skipn_app, skipn_all, Nat.sub_diag. cbn [skipn app]. rewrite firstn_app, firstn_all, Nat.sub_diag. cbn [firstn]. rewrite app_nil_r. reflexivity. Qed.

(** A message of at least two blocks. *)
Definition longHash (seed1 seed2 : Z) (msg : list Z) : option (Z * Z) :=
  do s <- mixBlocks (length msg / 96) msg 0 (start seed1 seed2); end_ (lastBlock (skipn (length msg / 96 * 96) msg)) 0 s.
Lemma hash128_long msg s1 s2 : (192 <= length msg)%nat -> hash128 msg s1 s2 = longHash s1 s2 msg.
Proof.
  intros L. unfold hash128, longHash. replace (length msg <? bufSize)%nat with false by (unfold bufSize; lia). cbv zeta. change blockSize with 96%nat. destruct (mixBlocks _ _ _ _) as [s|]; [|reflexivity].
  pose proof (Nat.div_mod (length msg) 96 ltac:(lia)) as Dm. pose proof (Nat.mod_upper_bound (length msg) 96 ltac:(lia)) as Ub. set (e := (length msg / 96 * 96)%nat) in *. set (t := skipn e msg). assert (Lt : length t = (length msg - e)%nat) by (unfold t; apply skipn_length). assert (L96 : (length t < 96)%nat) by lia.
  rewrite <- Lt. assert (P0 : put (zeros 96) 0 t = Some (t ++ skipn (length t) (zeros 96))) by (unfold put; rewrite zeros_length; replace (0 + length t <=? 96)%nat with true by lia; reflexivity). rewrite P0.
  pose proof (last_written [] t (skipn (length t) (zeros 96)) [] ltac:(rewrite app_length, skipn_length, zeros_length; lia) L96) as W. cbn [length app Nat.add] in W. rewrite !app_nil_r in W. cbn [app] in W.
  destruct (put (t ++ skipn (length t) (zeros 96)) (length t) (zeros (96 - length t))) as [m|]; [|discriminate]. rewrite W. reflexivity.
Qed.
Lemma hash128_ok msg s1 s2 : is64 s1 -> is64 s2 -> exists r, hash128 msg s1 s2 = Some r /\ is64 (fst r) /\ is64 (snd r).
Proof.
  intros H1 H2. destruct (Nat.ltb_spec (length msg) 192) as [L|L].
  - unfold hash128. replace (length msg <? bufSize)%nat with true by (unfold bufSize; lia). apply (short_agree msg msg (length msg) s1 s2); [apply agree_refl; lia|exact H1|exact H2].
  - rewrite hash128_long by exact L. unfold longHash. pose proof (Nat.div_mod (length msg) 96 ltac:(lia)) as Dm. pose proof (Nat.mod_upper_bound (length msg) 96 ltac:(lia)) as Ub.
    destruct (mixBlocks_agree (length msg / 96) msg 0 msg 0 (start s1 s2) 12) as (_ & s & -> & G); [apply agree_refl; lia|apply start_good; assumption|].
    apply (end_agree (lastBlock (skipn (length msg / 96 * 96) msg)) 0 (lastBlock (skipn (length msg / 96 * 96) msg)) 0 s); [|exact G]. apply agree_refl. rewrite lastBlock_length; [lia|rewrite skipn_length; lia].
Qed.

Section Pieces.
Context (seed1 seed2 : Z) (H1 : is64 seed1) (H2 : is64 seed2).

(** The words that stand for the first [k] blocks. *)
Definition after (k : nat) (msg : list Z) (s : list Z) : Prop := mixBlocks k msg 0 (start seed1 seed2) = Some s.
Definition Inv (h : spooky) (msg : list Z) : Prop :=
  length (sdata h) = 192%nat /\ slen h = zlen msg /\ (srem h < 192)%nat /\
  (if (length msg <? 192)%nat then srem h = length msg /\ firstn (srem h) (sdata h) = msg /\ at_ (sstate h) 0 = seed1 /\ at_ (sstate h) 1 = seed2
   else exists k, length msg = (96 * k + srem h)%nat /\ after k msg (sstate h) /\ firstn (srem h) (sdata h) = skipn (96 * k) msg).
Lemma after_good k msg s : (96 * k <= length msg)%nat -> after k msg s -> good 12 s.
Proof. intros L A. destruct (mixBlocks_agree k msg 0 msg 0 (start seed1 seed2) 12) as (_ & s' & E & G); [apply agree_refl; lia|apply start_good; assumption|]. unfold after in A. rewrite E in A. injection A as <-. exact G. Qed.
Lemma after_app k msg l s : (96 * k <= length msg)%nat -> after k msg s -> after k (msg ++ l) s.
Proof.
  intros L A. unfold after in *. rewrite <- A. symmetry. apply (mixBlocks_agree k msg 0 (msg ++ l) 0 _ 12); [|apply start_good; assumption]. split; [lia|]. split; [rewrite app_length; lia|]. cbn [skipn]. rewrite firstn_app. replace (96 * k - length msg)%nat with 0%nat by lia. cbn [firstn]. rewrite app_nil_r. reflexivity.
Qed.
Lemma Inv_blocks h msg : Inv h msg -> exists k, length msg = (96 * k + srem h)%nat /\ firstn (srem h) (sdata h) = skipn (96 * k) msg /\
  after k msg (if slen h <? Z.of_nat bufSize then start (at_ (sstate h) 0) (at_ (sstate h) 1) else sstate h).
Proof.
  intros (I1 & I2 & I3 & I4). unfold zlen in I2. destruct (Nat.ltb_spec (length msg) 192) as [L|L].
  - destruct I4 as (E1 & E2 & E3 & E4). exists 0%nat. split; [lia|]. split; [exact E2|]. replace (slen h <? Z.of_nat bufSize) with true by (unfold bufSize; lia). rewrite E3, E4. reflexivity.
  - destruct I4 as (k & E1 & E2 & E3). exists k. split; [exact E1|]. split; [exact E3|]. replace (slen h <? Z.of_nat bufSize) with false by (unfold bufSize; lia). exact E2.
Qed.
Lemma zlen_app' (a b : list Z) : zlen (a ++ b) = zlen a + zlen b.
Proof. unfold zlen. rewrite app_length. lia. Qed.
Lemma update_ok h msg l : Inv h msg -> zlen (msg ++ l) < 2 ^ 64 -> exists h', update h l = Some h' /\ Inv h' (msg ++ l).
Proof.
  intros I Hz. pose proof I as (I1 & I2 & I3 & I4). assert (Lz : u64 (Z.of_nat (length l) + slen h) = zlen (msg ++ l)) by (rewrite I2, zlen_app' in *; unfold u64, zlen in *; rewrite Z.mod_small; lia).
  unfold update. cbv zeta. destruct (Nat.ltb_spec (length l + srem h) bufSize) as [L|L]; unfold bufSize in L.
  - destruct (put_ok (sdata h) (srem h) l ltac:(lia)) as (d & -> & Ld & Fd). eexists. split; [reflexivity|]. unfold Inv. cbn [sdata sstate slen srem]. split; [lia|]. split; [exact Lz|]. split; [lia|].
    rewrite (Nat.add_comm (length l)). rewrite Fd, app_length. destruct (Nat.ltb_spec (length msg) 192) as [Lm|Lm].
    + destruct I4 as (E1 & E2 & E3 & E4). replace (length msg + length l <? 192)%nat with true by lia. rewrite E2. split; [lia|]. split; [reflexivity|]. split; assumption.
    + destruct I4 as (k & E1 & E2 & E3). replace (length msg + length l <? 192)%nat with false by lia. exists k. split; [lia|]. split; [apply after_app; [lia|exact E2]|]. rewrite E3, skipn_app. replace (96 * k - length msg)%nat with 0%nat by lia. reflexivity.
  - destruct (Inv_blocks h msg I) as (k & E1 & E3 & A). set (s0 := if slen h <? Z.of_nat bufSize then _ else _) in *. pose proof (after_good k msg s0 ltac:(lia) A) as G0. pose proof (after_app k msg l s0 ltac:(lia) A) as A0. clearbody s0. rewrite Lz. clear Lz.
    (* what is used of the stashed bytes *)
    assert (W : exists s1 d p j, (if (srem h =? 0)%nat then Some (s0, sdata h, 0%nat) else if (length l <? bufSize - srem h)%nat then None else do data <- put (sdata h) (srem h) (firstn (bufSize - srem h) l); do s <- mixAt data 0 s0; do s <- mixAt data blockSize s; Some (s, data, (bufSize - srem h)%nat)) = Some (s1, d, p)
      /\ length d = 192%nat /\ (length msg + p = 96 * j)%nat /\ (p <= length l)%nat /\ after j (msg ++ l) s1 /\ good 12 s1).
    { destruct (Nat.eqb_spec (srem h) 0) as [R0|R0].
      - exists s0, (sdata h), 0%nat, k. split; [reflexivity|]. split; [exact I1|]. split; [lia|]. split; [lia|]. split; assumption.
      - cbv zeta. unfold bufSize in *. replace (length l <? 192 - srem h)%nat with false by lia. destruct (put_ok (sdata h) (srem h) (firstn (192 - srem h) l) ltac:(rewrite firstn_length; lia)) as (d & -> & Ld & Fd). rewrite firstn_length in Fd. replace (srem h + Nat.min (192 - srem h) (length l))%nat with 192%nat in Fd by lia. rewrite firstn_all2 in Fd by lia.
        assert (Ag : agree 192 d 0 (msg ++ l) (96 * k)). { split; [lia|]. split; [rewrite app_length; lia|]. cbn [skipn]. rewrite firstn_all2 by lia. rewrite Fd, E3, skipn_app. replace (96 * k - length msg)%nat with 0%nat by lia. cbn [skipn]. rewrite firstn_app, skipn_length. replace (192 - (length msg - 96 * k))%nat with (192 - srem h)%nat by lia. rewrite (firstn_all2 (skipn (96 * k) msg)) by (rewrite skipn_length; lia). reflexivity. }
        destruct (mixBlocks_agree 2 d 0 (msg ++ l) (96 * k) s0 12 Ag G0) as (Em & s2 & Vm & G2). rewrite Vm in Em. cbn [mixBlocks Nat.add] in Vm. change blockSize with 96%nat in *. destruct (mixAt d 0 s0) as [s1|]; [|discriminate]. destruct (mixAt d 96 s1) as [s3|] eqn:M3; [|discriminate]. injection Vm as ->.
        exists s2, d, (192 - srem h)%nat, (k + 2)%nat. split; [reflexivity|]. split; [lia|]. split; [lia|]. split; [lia|]. split; [|exact G2]. unfold after in *. rewrite mixBlocks_plus, A0, Nat.add_0_l. symmetry. exact Em. }
    destruct W as (s1 & d & p & j & -> & Ld & Lp & Lpl & Aj & G1). change blockSize with 96%nat. pose proof (Nat.div_mod (length l - p) 96 ltac:(lia)) as Dm. pose proof (Nat.mod_upper_bound (length l - p) 96 ltac:(lia)) as Ub. set (q := ((length l - p) / 96)%nat) in *. clearbody q.
    assert (Ag : agree (96 * q) l p (msg ++ l) (96 * j)). { split; [lia|]. split; [rewrite app_length; lia|]. rewrite skipn_app, (skipn_all2 msg) by lia. cbn [app]. replace (96 * j - length msg)%nat with p by lia. reflexivity. }
    destruct (mixBlocks_agree q l p (msg ++ l) (96 * j) s1 12 Ag G1) as (Eq & s2 & Vq & G2). rewrite Vq. rewrite Vq in Eq.
    assert (Ll : length (skipn (p + q * 96) l) = (length l - p - q * 96)%nat) by (rewrite skipn_length; lia). destruct (put_ok d 0 (skipn (p + q * 96) l) ltac:(lia)) as (d' & -> & Ld' & Fd'). cbn [firstn app] in Fd'. rewrite Nat.add_0_l, Ll in Fd'.
    eexists. split; [reflexivity|]. unfold Inv. cbn [sdata sstate slen srem]. split; [lia|]. split; [reflexivity|]. split; [lia|]. rewrite app_length. replace (length msg + length l <? 192)%nat with false by lia. exists (j + q)%nat. split; [lia|]. split.
    + unfold after in *. rewrite mixBlocks_plus, Aj, Nat.add_0_l. symmetry. exact Eq.
    + rewrite Fd', skipn_app, (skipn_all2 msg) by lia. cbn [app]. f_equal. lia.
Qed.
Lemma final_ok h msg : Inv h msg -> exists h', final h = Some (theHash seed1 seed2 msg, h') /\ Inv h' msg.
Proof.
  intros I. pose proof I as (I1 & I2 & I3 & I4). unfold theHash, final. unfold zlen in I2. destruct (Nat.ltb_spec (length msg) 192) as [L|L].
  - destruct I4 as (E1 & E2 & E3 & E4). replace (slen h <? Z.of_nat bufSize) with true by (unfold bufSize; lia). rewrite E3, E4, I2, Nat2Z.id. unfold hash128. replace (length msg <? bufSize)%nat with true by (unfold bufSize; lia).
    destruct (short_agree (sdata h) msg (length msg) seed1 seed2) as (Es & r & Er & _); [|exact H1|exact H2|].
    { split; [lia|]. split; [lia|]. cbn [skipn]. rewrite (firstn_all2 msg) by lia. rewrite <- E1. exact E2. }
    rewrite <- Es, Er. exists h. split; [reflexivity|exact I].
  - destruct I4 as (k & E1 & A & E3). replace (slen h <? Z.of_nat bufSize) with false by (unfold bufSize; lia). rewrite hash128_long by exact L. unfold longHash.
    pose proof (after_good k msg (sstate h) ltac:(lia) A) as G0.
    assert (W : exists s p r j, (if (blockSize <=? srem h)%nat then do s <- mixAt (sdata h) 0 (sstate h); Some (s, blockSize, (srem h - blockSize)%nat) else Some (sstate h, 0%nat, srem h)) = Some (s, p, r)
      /\ (p + r = srem h)%nat /\ (r < 96)%nat /\ (p + 96 <= 192)%nat /\ (96 * j + r = length msg)%nat /\ after j msg s /\ firstn r (skipn p (sdata h)) = skipn (96 * j) msg).
    { change blockSize with 96%nat. destruct (Nat.leb_spec 96 (srem h)) as [B|B].
      - destruct (mixAt_agree (sdata h) 0 msg (96 * k) (sstate h) 12) as (Em & s & Vm & G); [|exact G0|].
        { split; [lia|]. split; [lia|]. cbn [skipn]. rewrite <- (firstn_firstn_le (sdata h) 96 (srem h)) by lia. rewrite E3. reflexivity. }
        rewrite Vm. rewrite Vm in Em. exists s, 96%nat, (srem h - 96)%nat, (k + 1)%nat. split; [reflexivity|]. split; [lia|]. split; [lia|]. split; [lia|]. split; [lia|]. split.
        + unfold after in *. rewrite mixBlocks_plus, A, Nat.add_0_l. cbn [mixBlocks]. rewrite <- Em. reflexivity.
        + rewrite firstn_skipn_comm. replace (96 + (srem h - 96))%nat with (srem h) by lia. rewrite E3, skipn_plus. f_equal. lia.
      - exists (sstate h), 0%nat, (srem h), k. split; [reflexivity|]. split; [lia|]. split; [lia|]. split; [lia|]. split; [lia|]. split; [exact A|exact E3]. }
    destruct W as (s & p & r & j & -> & Epr & Lr & Lp & Ej & Aj & Et). change blockSize with 96%nat.
    assert (D : exists a b c, sdata h = a ++ (skipn (96 * j) msg ++ b) ++ c /\ length a = p /\ length (skipn (96 * j) msg ++ b) = 96%nat).
    { destruct (split3 (sdata h) p 96 ltac:(lia)) as (a & b & c & Es & La & Lb). exists a, (skipn r b), c. rewrite Es in Et. rewrite skipn_app, skipn_all2 in Et by lia. replace (p - length a)%nat with 0%nat in Et by lia. cbn [skipn app] in Et. rewrite firstn_app in Et. replace (r - length b)%nat with 0%nat in Et by lia. cbn [firstn] in Et. rewrite app_nil_r in Et. rewrite <- Et, firstn_skipn. split; [exact Es|]. split; [exact La|exact Lb]. }
    destruct D as (a & b & c & Es & La & Lb). assert (Lt : length (skipn (96 * j) msg) = r) by (rewrite skipn_length; lia). set (t := skipn (96 * j) msg) in *.
    pose proof (last_written a t b c Lb ltac:(lia)) as W. rewrite La, Lt in W. rewrite Es. destruct (put (a ++ (t ++ b) ++ c) (p + r) (zeros (96 - r))) as [m|]; [|discriminate]. rewrite W.
    pose proof (agree_mid 96 a (lastBlock t) c (lastBlock_length t ltac:(lia))) as Ag. rewrite La in Ag. destruct (end_agree _ _ _ _ s Ag (after_good j msg s ltac:(lia) Aj)) as (Ee & q & Ve & _). rewrite Ve. rewrite Ve in Ee.
    assert (Ej' : (length msg / 96 = j)%nat) by (symmetry; apply (Nat.div_unique (length msg) 96 j r); lia). rewrite Ej'. unfold after in Aj. rewrite Aj. rewrite (Nat.mul_comm j 96). fold t. rewrite <- Ee. eexists. split; [reflexivity|].
    unfold Inv. cbn [sdata sstate slen srem]. replace (length msg <? 192)%nat with false by lia. split; [|split; [exact I2|split; [exact I3|exists k; split; [exact E1|split; [exact A|]]]]].
    + apply (f_equal (@length Z)) in Es. rewrite !app_length in *. rewrite lastBlock_length by lia. lia.
    + rewrite <- E3, Es. unfold lastBlock. rewrite <- Epr, <- La, <- Lt. clear. rewrite <- !app_assoc. rewrite !(app_assoc a t). rewrite <- app_length. rewrite !firstn_len_app. reflexivity.
Qed.
Lemma calls_ok cs : forall h msg, Inv h msg -> zlen (msg ++ appended cs) < 2 ^ 64 -> calls h cs = Some (expected (theHash seed1 seed2) msg cs).
Proof.
  induction cs as [|[l|] cs IH]; intros h msg I Hz; cbn [calls expected appended] in *; [reflexivity| |].
  - destruct (update_ok h msg l I) as (h' & -> & I'). { rewrite !zlen_app' in *. unfold zlen in *. lia. } apply IH; [exact I'|]. rewrite <- app_assoc. exact Hz.
  - destruct (final_ok h msg I) as (h' & -> & I'). rewrite (IH h' msg I' Hz). reflexivity.
Qed.
Theorem pieces data rest cs : length data = 192%nat -> zlen (appended cs) < 2 ^ 64 -> calls (init seed1 seed2 data rest) cs = Some (expected (theHash seed1 seed2) [] cs).
Proof. intros Hd Hz. apply calls_ok; [|exact Hz]. unfold Inv, init. cbn [sdata sstate slen srem length Nat.ltb Nat.leb]. split; [exact Hd|]. split; [reflexivity|]. split; [lia|]. repeat split. Qed.
End Pieces.
Lemma get_writes : exists h r h', update (init 0 0 (repeat 1 192) []) (repeat 1 193) = Some h /\ final h = Some (r, h') /\ sdata h' <> sdata h.
Proof.
  assert (U : exists h, update (init 0 0 (repeat 1 192) []) (repeat 1 193) = Some h /\ srem h = 1%nat /\ sdata h = repeat 1 192 /\ slen h = 193).
  { destruct (update (init 0 0 (repeat 1 192) []) (repeat 1 193)) as [h|] eqn:E; [|vm_compute in E; discriminate E]. exists h. split; [reflexivity|]. vm_compute in E. injection E as <-. repeat split. }
  destruct U as (h & U & R & D & L). assert (I : Inv 0 0 h (repeat 1 193)).
  { destruct (update_ok 0 0 ltac:(unfold is64; lia) ltac:(unfold is64; lia) (init 0 0 (repeat 1 192) []) [] (repeat 1 193)) as (h' & U' & I'); [|vm_compute; reflexivity|rewrite U in U'; injection U' as <-; exact I']. unfold Inv, init. cbn [sdata sstate slen srem length Nat.ltb Nat.leb]. split; [reflexivity|]. split; [reflexivity|]. split; [lia|]. repeat split. }
  destruct (final_ok 0 0 ltac:(unfold is64; lia) ltac:(unfold is64; lia) h _ I) as (h' & F & _). exists h, (theHash 0 0 (repeat 1 193)), h'. split; [exact U|]. split; [exact F|].
  unfold final in F. rewrite L, R, D in F. change (193 <? Z.of_nat bufSize) with false in F. change (blockSize <=? 1)%nat with false in F. cbv iota in F.
  destruct (put (repeat 1 192) (0 + 1) (zeros (blockSize - 1))) as [d1|] eqn:P1; [|discriminate F]. destruct (put d1 (0 + blockSize - 1) [Z.of_nat 1]) as [d2|] eqn:P2; [|discriminate F]. destruct (end_ d2 0 (sstate h)) as [r|]; [|discriminate F]. injection F as _ <-. cbn [sdata]. rewrite D. vm_compute in P1. injection P1 as <-. vm_compute in P2. injection P2 as <-. discriminate.
Qed.
