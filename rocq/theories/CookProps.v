(* C50: cooking. After every session of a history, whatever was cooked and whatever it needs is as if it were cooked from the files of that
   session; nothing is cooked twice in a session, nor when nothing has changed. [proper]: cook functions that cook a job right now also refer to it, the time of a file tells
   its contents, and every session keeps what it cooks, does not ask whether a job is cooked, and ends by cooking what was deferred. *)
From Verif Require Import CookModel CookSpec CookFinal.
Open Scope nat_scope.

(** The results after the last session, for everything that was cooked and all that it needs, whatever was in the tracker before. *)
Theorem C50_right dbg jobs fuel vs v tr logs : proper jobs (vs ++ [v]) -> history dbg jobs fuel noJobs (vs ++ [v]) = Ok (tr, logs) ->
  forall i k, In i (asked (todo v)) -> needs jobs (files v) i k -> resultOf tr k = Some (shown (fresh (files v) (jobs k))).
Proof. exact (final_right dbg jobs fuel vs v tr logs). Qed.
Print Assumptions C50_right.

(** No job is cooked twice in a session. *)
Theorem C50_once dbg jobs fuel vs tr logs : proper jobs vs -> history dbg jobs fuel noJobs vs = Ok (tr, logs) -> length logs = length vs /\ Forall (@NoDup id) logs.
Proof. exact (final_once dbg jobs fuel vs tr logs). Qed.
Print Assumptions C50_once.

(** Only jobs that can be reached from those asked for are cooked. *)
Theorem C50_only dbg jobs (ok : id -> Prop) fuel vs tr logs : proper jobs vs -> (forall i, ok i -> within ok (jobs i)) -> (forall v i, In v vs -> In i (asked (todo v)) -> ok i) ->
  history dbg jobs fuel noJobs vs = Ok (tr, logs) -> forall l i, In l logs -> In i l -> ok i.
Proof. exact (final_only dbg jobs ok fuel vs tr logs). Qed.
Print Assumptions C50_only.

(** A session after which no file that was looked at has changed cooks nothing. *)
Theorem C50_idle dbg jobs fuel vs v v' tr logs : proper jobs (vs ++ [v; v']) -> incl (asked (todo v')) (asked (todo v)) -> untouched jobs (asked (todo v)) (files v) (files v') ->
  history dbg jobs fuel noJobs (vs ++ [v; v']) = Ok (tr, logs) -> exists l, logs = l ++ [[]].
Proof. exact (final_idle dbg jobs fuel vs v v' tr logs). Qed.
Print Assumptions C50_idle.

(** No deleted job is used and no deferred job forgotten; an assertion fails only for the reasons in CookSpec. *)
Theorem C50_safe dbg jobs fuel vs w : proper jobs vs -> history dbg jobs fuel noJobs vs = Dead w ->
  exists l v r, vs = l ++ v :: r /\ reason dbg jobs (map files l) (files v) w.
Proof. exact (final_safe dbg jobs fuel vs w). Qed.
Print Assumptions C50_safe.

(** Cooking ends, cycles of references included, if finitely many jobs can be reached. *)
Theorem C50_ends dbg jobs (ids : list id) fuel vs : proper jobs vs -> (forall i, In i ids -> within (fun k => In k ids) (jobs i)) -> (forall v, In v vs -> incl (asked (todo v)) ids) ->
  length ids < fuel -> history dbg jobs fuel noJobs vs <> Deep.
Proof. exact (final_ends dbg jobs ids fuel vs). Qed.
Print Assumptions C50_ends.

(** Three sessions over jobs with a cycle of references: one file changes before the second, none before the third, and an address is asked for again. *)
Example C50_case_hyps : proper site [visitA; visitB; visitC].
Proof. exact site_proper. Qed.
Example C50_case : match history true site 9 noJobs [visitA; visitB; visitC] with
  | Ok (tr, logs) => map (resultOf tr) [0; 1; 2; 3] = map (fun k => Some (shown (fresh filesB (site k)))) [0; 1; 2; 3] /\ logs = [[0; 2; 1; 3]; [2]; []]
  | _ => False
  end.
Proof. exact site_run. Qed.
Example C50_case_needs k : In k [0; 1; 2; 3] -> needs site filesB 0 k.
Proof. exact (site_needs k). Qed.
Example C50_case_untouched : untouched site (asked (todo visitB)) (files visitB) (files visitC).
Proof. exact site_untouched. Qed.
Example C50_case_within i : In i [0; 1; 2; 3] -> within (fun k => In k [0; 1; 2; 3]) (site i).
Proof. exact (site_within i). Qed.

(** The claim for all programs fails. Asking whether a job is cooked, before it is, makes every attempt to cook it fail an assertion, ... *)
Theorem C50_ask_refuted dbg jobs order d fuel w i cs : session dbg jobs order d (S fuel) w noJobs (Ask i :: Cook i :: cs) = Dead Loop.
Proof. exact (ask_loops dbg jobs order d fuel w i cs). Qed.
Print Assumptions C50_ask_refuted.
(** ... and when it is only referred to, it is never cooked. *)
Theorem C50_ask_skips_refuted : match history true site 9 noJobs [mkvisit filesA [] inOrder [Ask 3; Cook 0; Deferred]] with
  | Ok (tr, logs) => logs = [[0; 2; 1]] /\ resultOf tr 3 = None /\ resultOf tr 1 = Some (shown (fresh filesA (site 1))) /\ referred (fresh filesA (site 1)) = [3; 0]
  | _ => False
  end.
Proof. vm_compute. repeat split. Qed.
Print Assumptions C50_ask_skips_refuted.
(** A job that is dropped leaves its address behind: a new job at the same address is taken for cooked and has no result. *)
Theorem C50_recycled_refuted : match history true site 9 noJobs [mkvisit filesA [9; 0] inOrder [CookDrop 7; Cook 8; Deferred]] with
  | Ok (tr, logs) => logs = [[7]] /\ roots tr = [0] /\ resultOf tr 8 = None
  | _ => False
  end.
Proof. vm_compute. repeat split. Qed.
Print Assumptions C50_recycled_refuted.
(** A deferred job that is deleted before it is cooked is used nevertheless. *)
Theorem C50_dropped_refuted : history true (fun i => match i with 0 => Refer 1 End | _ => End end) 9 noJobs [mkvisit filesA [] inOrder [CookDrop 0; Deferred]] = Dead Freed.
Proof. vm_compute. reflexivity. Qed.
Print Assumptions C50_dropped_refuted.
(** A cook function that cooks a job right now without referring to it: the job is deleted, and so is what it had deferred. *)
Theorem C50_untidy_refuted : history true (fun i => match i with 0 => CookNow 1 End | 1 => Refer 2 End | _ => End end) 9 noJobs [mkvisit filesA [] inOrder [Cook 0; Deferred]] = Dead Freed.
Proof. vm_compute. reflexivity. Qed.
Print Assumptions C50_untidy_refuted.
(** With assertions on, deleting a file that was read makes the next session fail. *)
Theorem C50_missing_refuted f : stat (one f) 5 <> None -> stat (one f) 5 <> Some 0%Z -> history true reader 9 noJobs [visitOne f; visitOne Gone] = Dead Missing.
Proof. exact (missing_dies f). Qed.
Print Assumptions C50_missing_refuted.
(** A file whose time is 0 is not read, and no error is recorded. *)
Theorem C50_zero_refuted c : exists tr, history true reader 9 noJobs [visitOne (Text 0 c)] = Ok (tr, [[0]]) /\ resultOf tr 0 = Some ([(5, 0%Z)], [], [], []) /\
  shown (fresh (one (Text 0 c)) (reader 0)) = ([(5, 0%Z)], [], [c], []).
Proof. exact (zero_unread c). Qed.
Print Assumptions C50_zero_refuted.
(** A change within the same second is not noticed. *)
Theorem C50_second_refuted t c c' : t <> 0%Z -> exists tr, history true reader 9 noJobs [visitOne (Text t c); visitOne (Text t c')] = Ok (tr, [[0]; []]) /\
  resultOf tr 0 = Some ([(5, t)], [], [c], []) /\ shown (fresh (one (Text t c')) (reader 0)) = ([(5, t)], [], [c'], []).
Proof. exact (same_time_stale t c c'). Qed.
Print Assumptions C50_second_refuted.
(** A file that is there but cannot be opened makes its job be cooked in every session. *)
Theorem C50_shut_refuted t : t <> 0%Z -> exists tr, history true reader 9 noJobs [visitOne (Shut t); visitOne (Shut t)] = Ok (tr, [[0]; [0]]).
Proof. exact (shut_again t). Qed.
Print Assumptions C50_shut_refuted.
