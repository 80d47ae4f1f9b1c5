(* What the file system functions promise, in terms of which locations are there and what is in them. *)
From Verif Require Export FsModel.

(** The path names the location, and the path is a directory, or a file with some bytes. *)
Definition named (s : fsst) (p : list Z) (l : list name) : Prop := lookup (disk s) (cwd s) p = Found l.
Definition is_dir (s : fsst) (p : list Z) : Prop := exists l, named s p l /\ at_ (disk s) l = Some KDir.
Definition is_file (s : fsst) (p c : list Z) : Prop := exists l, named s p l /\ at_ (disk s) l = Some (KFile c).
Definition starts (q p : list Z) : Prop := exists r, p = q ++ r.
(** A leading part of the path, up to the end of a component. *)
Definition leads (q p : list Z) : Prop := exists r, p = q ++ r /\ (r = [] \/ exists r', r = slash :: r').
(** The current directory is a directory. *)
Definition placed (s : fsst) : Prop := at_ (disk s) (cwd s) = Some KDir.
(** No component of the path is "..". *)
Definition downward (p : list Z) : Prop := ~ In [dot; dot] (names posixSep p).
(** No leading part of the path, up to the end of a component, is a file. *)
Definition unobstructed (s : fsst) (p : list Z) : Prop := forall q c, leads q p -> ~ is_file s q c.
(** No system call is made to fail; no write is either (it may have to be repeated). *)
Definition works (s : fsst) : Prop := Forall (fun f => f = Fine) (faults s).
Definition writes (s : fsst) : Prop := Forall (fun f => f = Fine \/ exists n, f = Short (S n)) (faults s).
