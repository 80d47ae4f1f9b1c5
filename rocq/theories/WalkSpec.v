(* What walking a directory tree shows. *)
From Verif Require Export FsModel FsSpec.

(** The names in a directory are distinct, and are names. *)
Definition good (n : name) : Prop := n <> [] /\ ~ In slash n /\ n <> [dot] /\ n <> [dot; dot].
Definition proper (t : tree) : Prop := forall l es, get t l = Some (TDir es) -> NoDup (map fst es) /\ Forall good (map fst es).
(** How much longer the paths get in a tree. *)
Fixpoint reach (t : tree) : Z :=
  match t with
  | TFile _ => 0
  | TDir es => fold_right (fun e m => Z.max (zlen (fst e) + 2 + reach (snd e)) m) 0 es
  end.
(** The path can be joined with names: it does not go up more than one directory from the current one, nor above the
    root (C25). *)
Definition walkable (p : list Z) : Prop :=
  p <> [] /\ stays (match p with c :: _ => if c =? slash then 0 else 1 | [] => 1 end) (names posixSep p) = true.

(** The triple is about the directory at [l], with entries [es]: all subdirectories, and all files (with their sizes, if
    asked for). *)
Definition reports (s : fsst) (flags : bool) (l : list name) (es : list (name * tree)) (t : triple) : Prop :=
  named s (dirPath t) l /\ dirNames t = map fst (filter (fun e => isTDir (snd e)) es) /\
  files t = map (fun e => (fst e, match snd e with TFile c => if flags then zlen c else 0 | TDir _ => 0 end)) (filter (fun e => negb (isTDir (snd e))) es).
(** The walk of the directory at [l]: first itself, then the subdirectories that were left in the list, in that order. *)
Inductive toured (s : fsst) (flags : bool) (edit : triple -> list name) : list name -> list triple -> Prop :=
| Toured l es t tss : get (disk s) (rev l) = Some (TDir es) -> reports s flags l es t ->
    Forall2 (fun n ts => toured s flags edit (n :: l) ts) (edit t) tss -> toured s flags edit l (t :: concat tss).
(** The triple is about the directory at [l]. *)
Definition about (s : fsst) (flags : bool) (t : triple) (l : list name) : Prop := exists es, get (disk s) (rev l) = Some (TDir es) /\ reports s flags l es t.

(** Inside a directory, or the directory itself. *)
Definition below (l q : list name) : Prop := exists x, q = x ++ l.
(** A path whose components lead down, but for one ".." at the start of a relative path, and whose last one is a name. *)
Definition direct (p : list Z) : Prop :=
  (downward p \/ exists ns, names posixSep p = [dot; dot] :: ns /\ ~ In [dot; dot] ns /\ match p with c :: _ => c <> slash | [] => True end) /\
  last (names posixSep p) [dot] <> [dot] /\ last (names posixSep p) [dot] <> [dot; dot].
(** Nothing outside the directory at [l] is different, and nothing inside is but that it may be gone. *)
Definition only_removed (l : list name) (t t' : tree) : Prop :=
  (forall q, ~ below l q -> at_ t' q = at_ t q) /\ (forall q k, at_ t' q = Some k -> at_ t q = Some k).
