(* Proofs about CookModel: the theorems about whole histories, and what goes wrong otherwise. *)
From Coq Require Import Lia ZifyBool ZifyNat Permutation.
From Verif Require Export CookHistory.
Open Scope nat_scope.

Lemma within_all (jobs : id -> prog) i : within (fun _ => True) (jobs i).
Proof. induction (jobs i) as [|x k IH|p k IH|k q IH|k q IH]; cbn; auto; split; try exact I; exact IH. Qed.
Lemma final_right dbg jobs fuel vs v tr logs : proper jobs (vs ++ [v]) -> history dbg jobs fuel noJobs (vs ++ [v]) = Ok (tr, logs) ->
  forall i k, In i (asked (todo v)) -> needs jobs (files v) i k -> resultOf tr k = Some (shown (fresh (files v) (jobs k))).
Proof. intros (T & D & F) H i k Hi N. exact (history_right dbg jobs (fun _ => True) fuel T (fun i _ => within_all jobs i) vs v tr logs D F (fun _ _ _ _ => I) H i k Hi N). Qed.
Lemma final_once dbg jobs fuel vs tr logs : proper jobs vs -> history dbg jobs fuel noJobs vs = Ok (tr, logs) -> length logs = length vs /\ Forall (@NoDup id) logs.
Proof.
  intros (T & D & F) H. pose proof (history_ok dbg jobs (fun _ => True) fuel T (fun i _ => within_all jobs i) vs D F (fun _ _ _ _ => I)) as P. rewrite H in P.
  destruct P as (_ & L & Q). split; [exact L|]. eapply Forall_impl; [|exact Q]. cbn. tauto.
Qed.
Lemma final_only dbg jobs (ok : id -> Prop) fuel vs tr logs : proper jobs vs -> (forall i, ok i -> within ok (jobs i)) -> (forall v i, In v vs -> In i (asked (todo v)) -> ok i) ->
  history dbg jobs fuel noJobs vs = Ok (tr, logs) -> forall l i, In l logs -> In i l -> ok i.
Proof.
  intros (T & D & F) W A H. pose proof (history_ok dbg jobs ok fuel T W vs D F A) as P. rewrite H in P.
  destruct P as (_ & _ & Q). rewrite Forall_forall in Q. intros l i Hl. now apply Q.
Qed.
Lemma final_safe dbg jobs fuel vs w : proper jobs vs -> history dbg jobs fuel noJobs vs = Dead w ->
  exists l v r, vs = l ++ v :: r /\ reason dbg jobs (map files l) (files v) w.
Proof. intros (T & D & F) H. pose proof (history_ok dbg jobs (fun _ => True) fuel T (fun i _ => within_all jobs i) vs D F (fun _ _ _ _ => I)) as P. rewrite H in P. exact P. Qed.
Lemma final_ends dbg jobs (ids : list id) fuel vs : proper jobs vs -> (forall i, In i ids -> within (fun k => In k ids) (jobs i)) -> (forall v, In v vs -> incl (asked (todo v)) ids) ->
  length ids < fuel -> history dbg jobs fuel noJobs vs <> Deep.
Proof.
  intros (T & D & F) W A L H. pose proof (history_ok dbg jobs (fun k => In k ids) fuel T W vs D F (fun v i h => A v h i)) as P. rewrite H in P.
  destruct P as (l & LE & ND & IN). pose proof (NoDup_incl_length ND IN). lia.
Qed.
Lemma final_idle dbg jobs fuel vs v v' tr logs : proper jobs (vs ++ [v; v']) -> incl (asked (todo v')) (asked (todo v)) -> untouched jobs (asked (todo v)) (files v) (files v') ->
  history dbg jobs fuel noJobs (vs ++ [v; v']) = Ok (tr, logs) -> exists l, logs = l ++ [[]].
Proof. intros (T & D & F). now apply history_idle. Qed.

Lemma ask_loops dbg jobs order d fuel w i cs : session dbg jobs order d (S fuel) w noJobs (Ask i :: Cook i :: cs) = Dead Loop.
Proof.
  unfold session, noJobs. cbn [theap commands bind acquire findJob create heap]. unfold create. cbn [heap wish length]. 
  destruct (nth_error [] (hd 0 w)) as [[j|]|] eqn:E; [destruct (hd 0 w); discriminate|destruct (hd 0 w); discriminate|].
  cbn [bind]. unfold isCooked. cbn [checked setHeap status fst setChecked app heap findJob jid]. unfold acquire. cbn [heap setChecked setHeap findJob jid]. rewrite Nat.eqb_refl. reflexivity.
Qed.

(** Examples. *)
Definition inOrder : list addr -> list addr := fun l => l.
Lemma inOrder_any : anyOrder inOrder. Proof. intros l. apply Permutation_refl. Qed.
Lemma rev_any : anyOrder (@rev addr). Proof. intros l. apply Permutation_sym, Permutation_rev. Qed.
(** A page, what it links to, and a shared job that is cooked at once. *)
Definition site (i : id) : prog :=
  match i with
  | 0 => Refer 1 (CookNow 2 (Refer 2 (Open 5 (fun c => match c with Some x => Emit x End | None => Emit 0 End end))))
  | 1 => Refer 3 (Refer 0 (Emit 11 End))
  | 2 => Open 6 (fun c => match c with Some x => Emit x (Refer 3 End) | None => End end)
  | _ => Emit (Z.of_nat i) End
  end.
Definition filesA : disk := fun p => match p with 5 => Text 100 50 | 6 => Text 100 60 | _ => Gone end.
Definition filesB : disk := fun p => match p with 5 => Text 100 50 | 6 => Text 101 61 | _ => Gone end.
Definition visitA : visit := mkvisit filesA [] inOrder [Cook 0; Deferred].
Definition visitB : visit := mkvisit filesB [] (@rev addr) [Cook 1; Cook 0; Deferred].
Definition visitC : visit := mkvisit filesB [0] inOrder [Cook 0; Deferred].
Lemma careful_cook i : careful [Cook i; Deferred].
Proof. split; [repeat constructor|]. now exists [Cook i]. Qed.
Lemma site_proper : proper site [visitA; visitB; visitC].
Proof.
  split; [|split].
  - intros [|[|[|i]]]; cbn; auto.
    + intros [c|]; cbn; intros x [<-|[]]; now left.
    + intros x [].
    + intros [c|]; cbn; intros x [].
    + intros x [].
  - split.
    + intros d p [<-|[<-|[<-|[]]]]; do 7 (destruct p as [|p]; cbn; try discriminate).
    + intros d d' p t [<-|[<-|[<-|[]]]] [<-|[<-|[<-|[]]]]; do 7 (destruct p as [|p]; cbn; try discriminate; try reflexivity); congruence.
  - constructor; [split; [apply careful_cook|apply inOrder_any]|]. constructor; [split; [|apply rev_any]|constructor; [split; [apply careful_cook|apply inOrder_any]|constructor]].
    split; [repeat constructor|]. now exists [Cook 1; Cook 0].
Qed.
Lemma site_within i : In i [0; 1; 2; 3] -> within (fun k => In k [0; 1; 2; 3]) (site i).
Proof. intros [<-|[<-|[<-|[<-|[]]]]]; cbn; repeat split; auto; try (intros [c|]; cbn; repeat split; auto). Qed.
Lemma site_run : match history true site 9 noJobs [visitA; visitB; visitC] with Ok (tr, logs) => map (resultOf tr) [0; 1; 2; 3] = map (fun k => Some (shown (fresh filesB (site k)))) [0; 1; 2; 3] /\ logs = [[0; 2; 1; 3]; [2]; []] | _ => False end.
Proof. vm_compute. split; reflexivity. Qed.
Lemma site_needs k : In k [0; 1; 2; 3] -> needs site filesB 0 k.
Proof.
  assert (H1 : needs site filesB 0 1) by (apply (needs_ref _ _ _ 0); [constructor|now left]).
  intros [<-|[<-|[<-|[<-|[]]]]]; [constructor|exact H1|apply (needs_ref _ _ _ 0); [constructor|right; now left]|apply (needs_ref _ _ _ 1); [exact H1|now left]].
Qed.
Lemma site_closed i k : In i [0; 1; 2; 3] -> needs site filesB i k -> In k [0; 1; 2; 3].
Proof.
  intros H N. induction N as [|j k N IH Hk]; [exact H|].
  destruct IH as [<-|[<-|[<-|[<-|[]]]]]; cbn in Hk.
  - destruct Hk as [<-|[<-|[]]]; cbn; auto.
  - destruct Hk as [<-|[<-|[]]]; cbn; auto.
  - destruct Hk as [<-|[]]; cbn; auto.
  - destruct Hk.
Qed.
Lemma site_untouched : untouched site (asked (todo visitB)) (files visitB) (files visitC).
Proof.
  intros i k p Hi N Hp. split; [reflexivity|]. intros t.
  assert (HK : In k [0; 1; 2; 3]). { apply (site_closed i k); [|exact N]. destruct Hi as [<-|[<-|[]]]; cbn; auto. }
  cbn [files visitB] in *. destruct HK as [<-|[<-|[<-|[<-|[]]]]]; cbn in Hp; try contradiction; destruct Hp as [<-|[]]; cbn; discriminate.
Qed.

(** A job that reads a file. *)
Definition reader (i : id) : prog := Open 5 (fun c => match c with Some x => Emit x End | None => End end).
Definition one (f : file) : disk := fun p => if p =? 5 then f else Gone.
Definition visitOne (f : file) : visit := mkvisit (one f) [] inOrder [Cook 0; Deferred].
Lemma missing_dies f : stat (one f) 5 <> None -> stat (one f) 5 <> Some 0%Z -> history true reader 9 noJobs [visitOne f; visitOne Gone] = Dead Missing.
Proof. unfold stat, one. cbn. destruct f as [|t|t c]; cbn; [congruence| |]; intros _ H; unfold history, session; cbn; destruct (Z.eqb_spec t 0) as [->|]; try congruence; cbn; destruct (t =? 0)%Z eqn:E; try (apply Z.eqb_eq in E; congruence); reflexivity. Qed.
Lemma zero_unread c : exists tr, history true reader 9 noJobs [visitOne (Text 0 c)] = Ok (tr, [[0]]) /\ resultOf tr 0 = Some ([(5, 0%Z)], [], [], []) /\ shown (fresh (one (Text 0 c)) (reader 0)) = ([(5, 0%Z)], [], [c], []).
Proof. exists (mktr [Some (mkjob 0 1 (Some (mkres [(5, 0%Z)] [] [] [])))] [0]). split; [reflexivity|]. split; reflexivity. Qed.
Lemma same_time_stale t c c' : t <> 0%Z -> exists tr, history true reader 9 noJobs [visitOne (Text t c); visitOne (Text t c')] = Ok (tr, [[0]; []]) /\
  resultOf tr 0 = Some ([(5, t)], [], [c], []) /\ shown (fresh (one (Text t c')) (reader 0)) = ([(5, t)], [], [c'], []).
Proof.
  intros N. exists (mktr [Some (mkjob 0 1 (Some (mkres [(5, t)] [] [c] [])))] [0]). split; [|split; reflexivity].
  apply Z.eqb_neq in N. unfold history, session. cbn. rewrite N. cbn. rewrite Z.eqb_refl. cbn. reflexivity.
Qed.
Lemma shut_again t : t <> 0%Z -> exists tr, history true reader 9 noJobs [visitOne (Shut t); visitOne (Shut t)] = Ok (tr, [[0]; [0]]).
Proof.
  intros N. exists (mktr [Some (mkjob 0 1 (Some (mkres [(5, 0%Z)] [] [] [5])))] [0]). apply Z.eqb_neq in N. unfold history, session. cbn. rewrite N. cbn. rewrite ?N. reflexivity.
Qed.
