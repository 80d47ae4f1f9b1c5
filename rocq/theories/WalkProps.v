(* C40, C58, C59: walking and removing a directory tree, and file systems below a directory. *)
From Coq Require Import String.
From Verif Require Import Txt FsModel FsSpec FsProps WalkSpec WalkProofs RemoveProofs VirtualProofs.

(** C40. The walk of a directory ends, and reports every directory in it and itself exactly once, each after its parent, each with
    all its subdirectories and files, and the sizes of the files if asked for. *)
Theorem C40_walk_partial : forall dbg junk s flags top l es, placed s -> proper (disk s) -> walkable top -> named s top l -> get (disk s) (rev l) = Some (TDir es) -> zlen top + reach (TDir es) < 2 ^ 31 ->
  exists k ts ls, (forall fuel, (k <= fuel)%nat -> walkAll dbg junk fuel s flags dirNames top = Some ts) /\ Forall2 (about s flags) ts ls /\ NoDup ls /\
    (forall l', In l' ls <-> (exists x, l' = x ++ l) /\ at_ (disk s) l' = Some KDir) /\
    (forall a n r b, ls = a ++ (n :: r) :: b -> n :: r = l \/ In r a).
Proof. exact walk_all. Qed.
Print Assumptions C40_walk_partial.

(** C40. If the body of the loop takes names out of the list of subdirectories, or puts them in another order, the walk goes to
    those left only, in that order. *)
Theorem C40_edited_partial : forall dbg junk s flags edit top l es, (forall t, incl (edit t) (dirNames t)) -> placed s -> proper (disk s) -> walkable top -> named s top l -> get (disk s) (rev l) = Some (TDir es) ->
  zlen top + reach (TDir es) < 2 ^ 31 -> exists k ts, (forall fuel, (k <= fuel)%nat -> walkAll dbg junk fuel s flags edit top = Some ts) /\ toured s flags edit l ts.
Proof. exact (fun dbg junk s flags edit top l es Ed P Pr => walk_ok dbg junk s flags P Pr edit Ed top l es). Qed.
Print Assumptions C40_edited_partial.

Definition yard : fsst := mkfs (TDir [(txt "p", TDir [(txt "q", TDir [(txt "d", TDir [(txt "x", TFile (txt "precious"))])])]); (txt "d", TDir [(txt "x", TFile (txt "1")); (txt "e", TDir [(txt "y", TFile [])])])]) [txt "q"; txt "p"] [] [].
Example C40_case : walkAll true [] 9 yard true dirNames (txt "/d/.//") = Some [mktriple (txt "/d/.//") [txt "e"] [(txt "x", 1)]; mktriple (txt "/d/e") [] [(txt "y", 0)]].
Proof. vm_compute. reflexivity. Qed.
Example yard_proper : proper (disk yard).
Proof. unfold yard, disk. prove_proper; apply file_proper. Qed.
Example C40_case_hyps : placed yard /\ walkable (txt "/d/.//") /\ named yard (txt "/d/.//") [txt "d"] /\ exists es, get (disk yard) (rev [txt "d"]) = Some (TDir es) /\ zlen (txt "/d/.//") + reach (TDir es) < 2 ^ 31.
Proof. split; [reflexivity|]. split; [split; [discriminate|reflexivity]|]. split; [reflexivity|]. exists [(txt "x", TFile (txt "1")); (txt "e", TDir [(txt "y", TFile [])])]. split; reflexivity. Qed.
Example C40_edited_case : walkAll true [] 9 yard false (fun t => filter (fun n => negb (bytes_eqb n (txt "p"))) (dirNames t)) (txt "/") = Some [mktriple (txt "/") [txt "p"; txt "d"] []; mktriple (txt "/d") [txt "e"] [(txt "x", 0)]; mktriple (txt "/d/e") [] [(txt "y", 0)]].
Proof. vm_compute. reflexivity. Qed.

(** C40 refuted for a path that goes up twice: the walk of "../.." from /p/q reports directories that do not exist in
    place of those that do, as joining drops both "..". *)
Theorem C40_up_twice_refuted : exists ts, walkAll true [] 9 yard false dirNames (txt "../..") = Some ts /\ named yard (txt "../..") [] /\
  (forall t, In t ts -> ~ named yard (dirPath t) [txt "p"] /\ ~ named yard (dirPath t) [txt "e"; txt "d"]) /\
  In (mktriple (txt "p") [] []) ts /\ (forall l, ~ named yard (txt "p") l).
Proof.
  exists [mktriple (txt "../..") [txt "p"; txt "d"] []; mktriple (txt "p") [] []; mktriple (txt "d") [] [(txt "x", 0)]]. split; [vm_compute; reflexivity|]. split; [reflexivity|]. split.
  - intros t [<-|[<-|[<-|[]]]]; split; discriminate.
  - split; [right; left; reflexivity|]. intros l. discriminate.
Qed.
Print Assumptions C40_up_twice_refuted.
(** C40 refuted for the empty path, for all file systems: the walk ends at once, though the empty path is how the current
    directory is named elsewhere (C25). And a directory that does not exist is reported as an empty one. *)
Theorem C40_empty_refuted : forall dbg junk fuel s flags edit, walkAll dbg junk fuel s flags edit [] = Some [].
Proof. exact (fun dbg junk fuel s flags edit => match fuel with O => eq_refl | S _ => eq_refl end). Qed.
Print Assumptions C40_empty_refuted.
Theorem C40_missing_refuted : forall dbg junk fuel s flags top, top <> [] -> (exists dir n, lookup (disk s) (cwd s) top = Missing dir n) \/ lookup (disk s) (cwd s) top = NoEnt ->
  walkAll dbg junk (S fuel) s flags dirNames top = Some [mktriple top [] []].
Proof. exact walk_missing. Qed.
Print Assumptions C40_missing_refuted.

(** C58. Whatever fails on the way, nothing outside the directory is ever different, at no point in time; and if the result is OK
    all of it is gone. Without failing calls it is OK. The program only stops if assertions are compiled in and a call failed. *)
Theorem C58_remove_partial : forall dbg junk s p l es, placed s -> proper (disk s) -> l <> [] -> ~ below l (cwd s) -> named s p l -> get (disk s) (rev l) = Some (TDir es) -> direct p -> walkable p -> zlen p + reach (TDir es) < 2 ^ 31 ->
  exists k, forall fuel, (k <= fuel)%nat ->
  match removeDirTree dbg junk fuel s p with
  | Dead => dbg = true /\ ~ works s
  | Ret s' r =>
    cwd s' = cwd s /\ only_removed l (disk s) (disk s') /\ (exists ts, trace s' = trace s ++ ts /\ Forall (only_removed l (disk s)) ts) /\
    (r = OK -> forall q, below l q -> at_ (disk s') q = None) /\ (works s -> r = OK)
  end.
Proof. exact remove_ok. Qed.
Print Assumptions C58_remove_partial.
Example C58_case : exists s', removeDirTree true [] 9 yard (txt "/d") = Ret s' OK /\ disk s' = TDir [(txt "p", TDir [(txt "q", TDir [(txt "d", TDir [(txt "x", TFile (txt "precious"))])])])] /\ length (trace s') = 4%nat.
Proof. exists (match removeDirTree true [] 9 yard (txt "/d") with Ret s _ => s | Dead => yard end). split; [vm_compute; reflexivity|]. split; vm_compute; reflexivity. Qed.
Example C58_case_hyps : ~ below [txt "d"] (cwd yard) /\ direct (txt "/d") /\ direct (txt "../q/./d") /\ works yard.
Proof.
  split; [intros (x & E); destruct x as [|y [|z x]]; try discriminate; destruct x; discriminate|]. split; [split; [left; intros H; repeat (destruct H as [H|H]; [discriminate|]); exact H|split; discriminate]|].
  split; [split; [right; exists [txt "q"; txt "."; txt "d"]; split; [reflexivity|]; split; [intros H; repeat (destruct H as [H|H]; [discriminate|]); exact H|discriminate]|split; discriminate]|constructor].
Qed.
Example C58_failing_case : exists s', removeDirTree false [] 9 (mkfs (disk yard) (cwd yard) [Fine; Denied] []) (txt "/d") = Ret s' Unknown /\ at_ (disk s') [txt "x"; txt "d"] = None /\ at_ (disk s') [txt "y"; txt "e"; txt "d"] = Some (KFile []).
Proof. exists (match removeDirTree false [] 9 (mkfs (disk yard) (cwd yard) [Fine; Denied] []) (txt "/d") with Ret s _ => s | Dead => yard end). split; [vm_compute; reflexivity|]. split; vm_compute; reflexivity. Qed.
(** C58 refuted for a path that goes up twice: "../../d" removes files of the directory d inside the current one. *)
Theorem C58_up_twice_refuted : exists s', named yard (txt "../../d") [txt "d"] /\ removeDirTree false [] 9 yard (txt "../../d") = Ret s' Unknown /\
  at_ (disk yard) [txt "x"; txt "d"; txt "q"; txt "p"] = Some (KFile (txt "precious")) /\ at_ (disk s') [txt "x"; txt "d"; txt "q"; txt "p"] = None /\ at_ (disk s') [txt "x"; txt "d"] = Some (KFile (txt "1")).
Proof. exists (match removeDirTree false [] 9 yard (txt "../../d") with Ret s _ => s | Dead => yard end). split; [reflexivity|]. split; [vm_compute; reflexivity|]. split; [reflexivity|]. split; vm_compute; reflexivity. Qed.
Print Assumptions C58_up_twice_refuted.
(** C58 refuted for ".": all in the current directory is removed, then it fails. And for a path through what is removed. *)
Theorem C58_dot_refuted : exists s', removeDirTree false [] 9 yard (txt ".") = Ret s' Unknown /\ at_ (disk s') [txt "d"; txt "q"; txt "p"] = None /\ at_ (disk s') [txt "q"; txt "p"] = Some KDir.
Proof. exists (match removeDirTree false [] 9 yard (txt ".") with Ret s _ => s | Dead => yard end). split; [vm_compute; reflexivity|]. split; vm_compute; reflexivity. Qed.
Print Assumptions C58_dot_refuted.
Theorem C58_through_refuted : exists s', named yard (txt "/d/e/../../d") [txt "d"] /\ removeDirTree false [] 9 yard (txt "/d/e/../../d") = Ret s' Unknown /\ at_ (disk s') [txt "d"] = Some KDir.
Proof. exists (match removeDirTree false [] 9 yard (txt "/d/e/../../d") with Ret s _ => s | Dead => yard end). split; [reflexivity|]. split; [vm_compute; reflexivity|]. vm_compute; reflexivity. Qed.
Print Assumptions C58_through_refuted.

(** C59. A path that does not go above where it starts is turned to a path to the same place below the root. *)
Theorem C59_inside_partial : forall w root p, sound w root = true -> full w root = true -> stays 0 (namesOf w root) = true -> plain w p = true -> noDrives w p = true -> zlen p < 2 ^ 31 -> stays 0 (namesOf w p) = true ->
  exists q, convertToTargetPath w root p = Some q /\ full w q = true /\
    forall cwd at_, resolve w cwd at_ q = (fst (resolve w cwd at_ root), snd (resolve w cwd (0, []) p) ++ snd (resolve w cwd at_ root)).
Proof. exact virtual_inside. Qed.
Print Assumptions C59_inside_partial.
(** C59. Two such file systems are apart, if neither root is inside the other. *)
Theorem C59_apart : forall w r1 r2 p1 p2 q1 q2 cwd at_,
  sound w r1 = true -> full w r1 = true -> stays 0 (namesOf w r1) = true -> sound w r2 = true -> full w r2 = true -> stays 0 (namesOf w r2) = true ->
  plain w p1 = true -> noDrives w p1 = true -> zlen p1 < 2 ^ 31 -> stays 0 (namesOf w p1) = true -> plain w p2 = true -> noDrives w p2 = true -> zlen p2 < 2 ^ 31 -> stays 0 (namesOf w p2) = true ->
  convertToTargetPath w r1 p1 = Some q1 -> convertToTargetPath w r2 p2 = Some q2 ->
  ~ below (snd (resolve w cwd at_ r1)) (snd (resolve w cwd at_ r2)) -> ~ below (snd (resolve w cwd at_ r2)) (snd (resolve w cwd at_ r1)) -> resolve w cwd at_ q1 <> resolve w cwd at_ q2.
Proof. exact virtual_apart. Qed.
Print Assumptions C59_apart.
Example C59_case : convertToTargetPath false (txt "/srv/www") (txt "a/../b//c") = Some (txt "/srv/www/b/c") /\ convertToTargetPath true (txt "D:\www") (txt "a/b") = Some (txt "D:\www\a\b") /\ stays 0 (namesOf false (txt "a/../b//c")) = true /\ plain true (txt "a/b") = true /\ noDrives true (txt "a/b") = true /\
  sound true (txt "D:\www") = true /\ full true (txt "D:\www") = true /\ convertToTargetPath false (txt "/srv") (txt "/etc") = None.
Proof. repeat split. Qed.
(** C59 refuted for "..", and on Windows for a path with a drive letter that is not full. *)
Theorem C59_up_refuted : convertToTargetPath false (txt "/srv/www") (txt "../../etc/passwd") = Some (txt "/etc/passwd") /\
  forall w cwd at_, ~ below (snd (resolve w cwd at_ (txt "/srv/www"))) (snd (resolve w cwd at_ (txt "/etc/passwd"))).
Proof. split; [reflexivity|]. intros w cwd at_. destruct w; cbv -[below]; intros (x & E); destruct x as [|y [|z [|u x]]]; discriminate. Qed.
Print Assumptions C59_up_refuted.
Theorem C59_drive_refuted : convertToTargetPath true (txt "D:\www") (txt "C:secret") = Some (txt "C:\secret") /\ forall cwd at_, fst (resolve true cwd at_ (txt "D:\www")) <> fst (resolve true cwd at_ (txt "C:\secret")).
Proof. split; [reflexivity|]. discriminate. Qed.
Print Assumptions C59_drive_refuted.
