(* What a path means. *)
From Verif Require Export PathModel.

(** The pieces of a path between separators, and the names among them, the empty ones left out. *)
Fixpoint pieces (sep : Z -> bool) (p : list Z) : list (list Z) :=
  match p with
  | [] => [[]]
  | c :: p =>
    if sep c then [] :: pieces sep p
    else match pieces sep p with x :: xs => (c :: x) :: xs | [] => [[c]] end
  end.
Definition nonempty {A} (l : list A) : bool := match l with [] => false | _ => true end.
Definition names (sep : Z -> bool) (p : list Z) : list (list Z) := filter nonempty (pieces sep p).

Definition sepOf (w : bool) (c : Z) : bool := if w then (c =? slash) || (c =? backslash) else c =? slash.
Definition letter (c : Z) : bool := ((65 <=? c) && (c <=? 90)) || ((97 <=? c) && (c <=? 122)).

(** Where a path starts: at the root of a drive, at the current folder of a drive, at the root, or at the current
    folder. *)
Inductive anchor := DriveRoot (d : Z) | OnDrive (d : Z) | Root | Here.
Definition anchorOf (w : bool) (p : list Z) : anchor :=
  match w, p with
  | true, d :: c :: r =>
    if letter d && (c =? colon) then match r with s :: _ => if sepOf w s then DriveRoot d else OnDrive d | [] => OnDrive d end
    else if sepOf w d then Root else Here
  | _, s :: _ => if sepOf w s then Root else Here
  | _, [] => Here
  end.
Definition namesOf (w : bool) (p : list Z) : list (list Z) :=
  match anchorOf w p with DriveRoot _ | OnDrive _ => names (sepOf w) (skipn 2 p) | _ => names (sepOf w) p end.

(** A location: a drive and the names of the folders from its root, innermost first. The parent of the root is the
    root. *)
Definition loc : Type := Z * list (list Z).
Definition go (dir : list (list Z)) (n : list Z) : list (list Z) :=
  if list_eq_dec Z.eq_dec n [dot] then dir else if list_eq_dec Z.eq_dec n [dot; dot] then tl dir else n :: dir.
(** The location a path designates, seen from [at_]. [cwd]: the current folders of the drives. *)
Definition resolve (w : bool) (cwd : Z -> list (list Z)) (at_ : loc) (p : list Z) : loc :=
  match anchorOf w p with
  | DriveRoot d => (d, fold_left go (namesOf w p) [])
  | OnDrive d => (d, fold_left go (namesOf w p) (if d =? fst at_ then snd at_ else cwd d))
  | Root => (fst at_, fold_left go (namesOf w p) [])
  | Here => (fst at_, fold_left go (namesOf w p) (snd at_))
  end.

(** Full paths, and paths that depend on the current folder alone. *)
Definition full (w : bool) (p : list Z) : bool :=
  match anchorOf w p with DriveRoot _ => true | Root => negb w | _ => false end.
Definition plain (w : bool) (p : list Z) : bool := match anchorOf w p with Here => true | _ => false end.

(** On Windows, no name looks like a drive letter. *)
Definition noDrives (w : bool) (p : list Z) : bool :=
  negb w || forallb (fun n => match n with d :: c :: _ => negb (letter d && (c =? colon)) | _ => true end) (namesOf w p).
(** The arguments of a join that the library supports. *)
Definition sound (w : bool) (p : list Z) : bool := (full w p || plain w p) && noDrives w p && (zlen p <? 2 ^ 31).
(** The names followed by a join, and whether they start at a root: a full path discards what is before it. *)
Fixpoint route (w : bool) (rooted : bool) (ns : list (list Z)) (cs : list (list Z)) : bool * list (list Z) :=
  match cs with
  | [] => (rooted, ns)
  | c :: cs => if full w c then route w true (namesOf w c) cs else route w rooted (ns ++ namesOf w c) cs
  end.

(** Starting [d] folders deep, the path does not go above the start. *)
Fixpoint stays (d : nat) (ns : list (list Z)) : bool :=
  match ns with
  | [] => true
  | n :: ns =>
    if list_eq_dec Z.eq_dec n [dot] then stays d ns
    else if list_eq_dec Z.eq_dec n [dot; dot] then match d with O => false | S d => stays d ns end
    else stays (S d) ns
  end.

(** Just ".", or no "." and no "..", except one ".." at the start of a path that is not full. *)
Definition ordinary (n : list Z) : Prop := n <> [dot] /\ n <> [dot; dot].
Definition tidy (w : bool) (p : list Z) : Prop :=
  namesOf w p = [[dot]] \/ exists u ns, namesOf w p = u ++ ns /\ Forall ordinary ns /\ (u = [] \/ u = [[dot; dot]] /\ full w p = false).
