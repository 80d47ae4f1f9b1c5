(* C41, C42: making directories and saving files. *)
From Coq Require Import String.
From Verif Require Import Txt FsModel FsSpec FsProofs FsSaveProofs.

(** C41. Whatever fails on the way: if the result is OK, or AlreadyExists and the path has no "..", every leading part
    of the path is a directory; all that was there is still there; what is new is directories named by leading
    parts of the path. *)
Theorem C41_makeDirs_partial : forall dbg s p s' r, placed s -> zlen p < 2 ^ 31 -> makeDirs_ dbg s p = Ret s' r ->
  (r = OK \/ r = AlreadyExists /\ downward p -> forall q, leads q p -> q <> [] -> is_dir s' q) /\
  (forall l k, at_ (disk s) l = Some k -> at_ (disk s') l = Some k) /\
  (forall l, at_ (disk s) l = None -> at_ (disk s') l <> None -> at_ (disk s') l = Some KDir /\ exists q, leads q p /\ named s' q l) /\
  cwd s' = cwd s.
Proof. exact makeDirs_all. Qed.
Print Assumptions C41_makeDirs_partial.

(** C41. With a file in the way the result is an error. *)
Theorem C41_blocked : forall dbg s q r c s' x, placed s -> zlen (q ++ slash :: r) < 2 ^ 31 -> downward (q ++ slash :: r) -> is_file s q c ->
  makeDirs_ dbg s (q ++ slash :: r) = Ret s' x -> x <> OK /\ x <> AlreadyExists.
Proof. exact makeDirs_blocked. Qed.
Print Assumptions C41_blocked.

(** C41. Without assertions it always returns; and without ".." and a separator at the end, with no file in the way and no
    failing call, it succeeds (with or without assertions). *)
Theorem C41_returns : forall s p, zlen p < 2 ^ 31 -> makeDirs_ false s p <> Dead.
Proof. exact (fun s p H => makeDirs_defined false (S (length p)) s p eq_refl H (le_n _)). Qed.
Print Assumptions C41_returns.
Theorem C41_succeeds : forall dbg s p, placed s -> works s -> zlen p < 2 ^ 31 -> downward p -> trailing p = false \/ Forall (fun c => posixSep c = true) p -> unobstructed s p ->
  exists s' r, makeDirs_ dbg s p = Ret s' r /\ (r = OK \/ r = AlreadyExists).
Proof. exact (fun dbg s p P W H => makeDirs_succeeds dbg (S (length p)) s p P W H (le_n _)). Qed.
Print Assumptions C41_succeeds.

Definition home : fsst := mkfs (TDir [(txt "d", TDir [(txt "f", TFile (txt "old"))]); (txt "g", TFile [])]) [txt "d"] [] [].
Example C41_case : exists s' r, makeDirs_ true home (txt "a/./b//c") = Ret s' r /\ r = OK /\ disk s' = TDir [(txt "d", TDir [(txt "f", TFile (txt "old")); (txt "a", TDir [(txt "b", TDir [(txt "c", TDir [])])])]); (txt "g", TFile [])] /\ length (trace s') = 3%nat.
Proof. exists (match makeDirs_ true home (txt "a/./b//c") with Ret s _ => s | Dead => home end), OK. split; [vm_compute; reflexivity|]. split; [reflexivity|]. split; vm_compute; reflexivity. Qed.
Example C41_case_hyps : placed home /\ works home /\ downward (txt "a/./b//c") /\ trailing (txt "a/./b//c") = false /\ is_file home (txt "f") (txt "old") /\ makeDirs_ true home (txt "f") = Ret home AccessDenied /\ makeDirs_ false home (txt "f/x") = Ret home AccessDenied.
Proof. split; [reflexivity|]. split; [constructor|]. split; [intros H; repeat (destruct H as [H|H]; [discriminate|]); exact H|]. split; [reflexivity|]. split; [exists [txt "f"; txt "d"]; split; reflexivity|]. split; vm_compute; reflexivity. Qed.

(** C41 refuted for "..": with no directory a, making "a/../f" answers that it is there already, though f is a file. *)
Theorem C41_dotdot_refuted : exists s' c, placed home /\ makeDirs_ true home (txt "a/../f") = Ret s' AlreadyExists /\ is_file s' (txt "a/../f") c.
Proof. exists (mkfs (TDir [(txt "d", TDir [(txt "f", TFile (txt "old")); (txt "a", TDir [])]); (txt "g", TFile [])]) [txt "d"] [] [TDir [(txt "d", TDir [(txt "f", TFile (txt "old")); (txt "a", TDir [])]); (txt "g", TFile [])]]), (txt "old"). split; [reflexivity|]. split; [vm_compute; reflexivity|]. exists [txt "f"; txt "d"]. split; vm_compute; reflexivity. Qed.
Print Assumptions C41_dotdot_refuted.
(** C41 refuted with a separator at the end: nothing is made, and with assertions the program stops. *)
Theorem C41_trailing_refuted : exists s', makeDirs_ false home (txt "a/b/") = Ret s' Unknown /\ disk s' = disk home /\ makeDirs_ true home (txt "a/b/") = Dead.
Proof. exists (match makeDirs_ false home (txt "a/b/") with Ret s _ => s | Dead => home end). split; [vm_compute; reflexivity|]. split; vm_compute; reflexivity. Qed.
Print Assumptions C41_trailing_refuted.
(** C41 refuted with assertions: a path through a file stops the program. *)
Theorem C41_through_file_refuted : forall s p, p <> [] -> lookup (disk s) (cwd s) p = NotDir -> makeDirs_ true s p = Dead.
Proof. exact makeDirs_notdir. Qed.
Print Assumptions C41_through_file_refuted.
Example C41_through_file_case : lookup (disk home) (cwd home) (txt "f/x") = NotDir. Proof. reflexivity. Qed.

(** C42. Whatever fails on the way. Unchanged: nothing was written, and the file had exactly the contents (it may have
    been a directory only if the bytes of uninitialised memory were the contents). OK: the file has the contents, or, if a
    write failed, a part of them. Otherwise all that was there still is. In each case only the file and directories
    named by leading parts of the path may be new, and only the file may be different. *)
Theorem C42_save_partial : forall dbg junk s p v s' r, placed s -> zlen p < 2 ^ 31 -> save dbg junk s p v = Ret s' r ->
  cwd s' = cwd s /\
  (r = Unchanged -> disk s' = disk s /\ trace s' = trace s /\ ((exists c, is_file s p c /\ v = firstn (Z.to_nat (zlen c mod 2 ^ 32)) c) \/ is_dir s p /\ v = junk)) /\
  (r = OK -> exists w, is_file s' p w /\ starts w v /\ (writes s -> w = v)) /\
  (r <> OK -> forall l k, at_ (disk s) l = Some k -> at_ (disk s') l = Some k) /\
  (forall l k, at_ (disk s) l = Some k -> ~ named s' p l -> at_ (disk s') l = Some k) /\
  (forall l, at_ (disk s) l = None -> at_ (disk s') l <> None -> r = OK /\ named s' p l \/ at_ (disk s') l = Some KDir /\ exists q, leads q p /\ named s' q l).
Proof. exact save_ok. Qed.
Print Assumptions C42_save_partial.

(** C42. Unchanged if and only if the file has the contents, when the file is shorter than 4 GB and the path not a
    directory, and reading it does not fail. *)
Theorem C42_unchanged_iff : forall dbg junk s p v s' r, placed s -> zlen p < 2 ^ 31 -> failing s = None -> ~ is_dir s p -> (forall c, is_file s p c -> zlen c < 2 ^ 32) ->
  save dbg junk s p v = Ret s' r -> (r = Unchanged <-> is_file s p v).
Proof. exact save_unchanged. Qed.
Print Assumptions C42_unchanged_iff.

(** C42. Without failing calls it succeeds: for a path without "..", a separator or "." at the end, whose directory is not
    obstructed by a file. *)
Theorem C42_succeeds : forall dbg junk s p v, placed s -> works s -> zlen p < 2 ^ 31 -> p <> [] -> downward p -> trailing p = false -> last (names posixSep p) [] <> [dot] ->
  (forall q r c, p = q ++ slash :: r -> ~ is_file s q c) -> ~ is_dir s p -> (forall c, is_file s p c -> zlen c < 2 ^ 32) ->
  exists s' r, save dbg junk s p v = Ret s' r /\ (r = OK \/ r = Unchanged).
Proof. exact save_succeeds. Qed.
Print Assumptions C42_succeeds.

Example C42_case : exists s' s'', save true [] home (txt "a/f") (txt "new") = Ret s' OK /\ is_file s' (txt "a/f") (txt "new") /\ is_file s' (txt "f") (txt "old") /\ save true [] s' (txt "a/f") (txt "new") = Ret s'' Unchanged.
Proof.
  exists (match save true [] home (txt "a/f") (txt "new") with Ret s _ => s | Dead => home end), (match save true [] home (txt "a/f") (txt "new") with Ret s _ => s | Dead => home end).
  split; [vm_compute; reflexivity|]. split; [exists [txt "f"; txt "a"; txt "d"]; split; vm_compute; reflexivity|]. split; [exists [txt "f"; txt "d"]; split; vm_compute; reflexivity|]. vm_compute. reflexivity.
Qed.
Example C42_case_hyps : placed home /\ works home /\ writes home /\ failing home = None /\ downward (txt "a/f") /\ trailing (txt "a/f") = false /\ last (names posixSep (txt "a/f")) [] <> [dot] /\ ~ is_dir home (txt "a/f").
Proof. split; [reflexivity|]. split; [constructor|]. split; [constructor|]. split; [reflexivity|]. split; [intros H; repeat (destruct H as [H|H]; [discriminate|]); exact H|]. split; [reflexivity|]. split; [discriminate|]. intros (l & N & _). discriminate N. Qed.

(** C42 refuted when a write fails: for every file with other contents, the result is OK and the file is empty, so its old
    contents are lost and the new ones are not there. *)
Theorem C42_lost_refuted : forall dbg junk s p l c v, placed s -> zlen p < 2 ^ 31 -> named s p l -> at_ (disk s) l = Some (KFile c) -> zlen c < 2 ^ 32 -> c <> v -> v <> [] ->
  faults s = [Fine; Fine; Broken] -> exists s', save dbg junk s p v = Ret s' OK /\ forall q, at_ (disk s') q = if list_eq_dec (list_eq_dec Z.eq_dec) q l then Some (KFile []) else at_ (disk s) q.
Proof. exact save_lost. Qed.
Print Assumptions C42_lost_refuted.
(** C42 refuted at crash points: whenever a file with other contents is replaced, even with no failing call, there is a
    point at which the file is empty, contrary to the promise of a temporary file and a rename (FileSystem.h:605-630). *)
Theorem C42_crash_refuted : forall dbg junk s p l c v, placed s -> zlen p < 2 ^ 31 -> named s p l -> at_ (disk s) l = Some (KFile c) -> zlen c < 2 ^ 32 -> c <> v -> v <> [] -> works s ->
  exists s' t1 t2, save dbg junk s p v = Ret s' OK /\ trace s' = trace s ++ [t1; t2] /\
    (forall q, at_ t1 q = if list_eq_dec (list_eq_dec Z.eq_dec) q l then Some (KFile []) else at_ (disk s) q) /\
    (forall q, at_ t2 q = if list_eq_dec (list_eq_dec Z.eq_dec) q l then Some (KFile v) else at_ (disk s) q) /\ disk s' = t2.
Proof. exact save_crash. Qed.
Print Assumptions C42_crash_refuted.
(** C42 refuted for files of 4 GB and more without assertions: contents followed by 4 GB of anything are taken for the
    contents. *)
Theorem C42_big_refuted : forall junk s p c v, is_file s p (v ++ c) -> zlen c = 2 ^ 32 -> zlen v < 2 ^ 32 -> failing s = None -> save false junk s p v = Ret (pop s) Unchanged.
Proof. exact (fun junk s p c v F H G N => save_big false junk s p c v F H G N eq_refl). Qed.
Print Assumptions C42_big_refuted.
Example C42_refuted_case : placed home /\ named home (txt "f") [txt "f"; txt "d"] /\ at_ (disk home) [txt "f"; txt "d"] = Some (KFile (txt "old")).
Proof. split; [reflexivity|]. split; reflexivity. Qed.
