(* What cooking is about, independent of trackers, contexts and reference counts. *)
From Coq Require Import Permutation.
From Verif Require Export CookModel.
Open Scope nat_scope.

(** The result of a cook function on given files: the files it looked at with their times (0 if it could not read them), the
    ids it referred to, what it put in, and the files it could not open. *)
Definition output : Type := list (path * Z) * list id * list Z * list path.
Definition reading (d : disk) (p : path) : Z * list path * option Z :=
  match d p with Text t c => (t, [], Some c) | _ => (0%Z, [p], None) end.
Fixpoint fresh (d : disk) (p : prog) : output :=
  match p with
  | End => ([], [], [], [])
  | Emit x k => let '(ds, rs, os, es) := fresh d k in (ds, rs, x :: os, es)
  | Open q k => let '(t, e, c) := reading d q in let '(ds, rs, os, es) := fresh d (k c) in ((q, t) :: ds, rs, os, e ++ es)
  | Refer i k => let '(ds, rs, os, es) := fresh d k in (ds, i :: rs, os, es)
  | CookNow _ k => fresh d k
  end.
Definition referred (o : output) : list id := let '(_, rs, _, _) := o in rs.
Definition looked (o : output) : list (path * Z) := let '(ds, _, _, _) := o in ds.

(** The jobs needed by a job: itself, and those that the needed ones refer to. *)
Inductive needs (jobs : id -> prog) (d : disk) (i : id) : id -> Prop :=
| needs_self : needs jobs d i i
| needs_ref j k : needs jobs d i j -> In k (referred (fresh d (jobs j))) -> needs jobs d i k.

(** A file's time tells its contents, through all sessions, and is not 0. *)
Definition dated (ds : list disk) : Prop :=
  (forall d p, In d ds -> stat d p <> Some 0%Z) /\
  (forall d d' p t, In d ds -> In d' ds -> stat d p = Some t -> stat d' p = Some t -> d p = d' p).

(** A cook function that cooks a job right now also refers to it. *)
Fixpoint tidy (now seen : list id) (p : prog) : Prop :=
  match p with
  | End => incl now seen
  | Emit _ k => tidy now seen k
  | Open _ k => forall c, tidy now seen (k c)
  | Refer i k => tidy now (i :: seen) k
  | CookNow i k => tidy (i :: now) seen k
  end.
(** A session that keeps what it cooks, asks no questions, and ends by cooking what was deferred. *)
Definition keeping (c : cmd) : Prop := match c with Cook _ | Deferred => True | _ => False end.
Definition careful (cs : list cmd) : Prop := Forall keeping cs /\ exists l, cs = l ++ [Deferred].
(** Any order of the deferred jobs. *)
Definition anyOrder (f : list addr -> list addr) : Prop := forall l, Permutation.Permutation (f l) l.

(** The ids that a session asks to cook. *)
Fixpoint asked (cs : list cmd) : list id :=
  match cs with
  | [] => []
  | Cook i :: cs => i :: asked cs
  | _ :: cs => asked cs
  end.
(** A cook function that refers only to ids in [ok], and cooks only these right now. *)
Fixpoint within (ok : id -> Prop) (p : prog) : Prop :=
  match p with
  | End => True
  | Emit _ k => within ok k
  | Open _ k => forall c, within ok (k c)
  | Refer i k | CookNow i k => ok i /\ within ok k
  end.

(** Whether a cook function refers to the same id twice, or cooks something right now. *)
Fixpoint refersOnce (seen : list id) (p : prog) : Prop :=
  match p with
  | End => True
  | Emit _ k => refersOnce seen k
  | Open _ k => forall c, refersOnce seen (k c)
  | Refer i k => ~ In i seen /\ refersOnce (i :: seen) k
  | CookNow _ k => refersOnce seen k
  end.
Fixpoint noNow (p : prog) : Prop :=
  match p with
  | End => True
  | Emit _ k | Refer _ k => noNow k
  | Open _ k => forall c, noNow (k c)
  | CookNow _ _ => False
  end.

(** The only reasons for a failed assertion: cook functions that cook others right now may loop; one may refer to a job twice; and, with assertions on,
    a file that was looked at in a session before, with the files [past], is gone. *)
Definition reason (dbg : bool) (jobs : id -> prog) (past : list disk) (d : disk) (w : why) : Prop :=
  match w with
  | Loop => ~ forall i, noNow (jobs i)
  | Twice => ~ forall i, refersOnce [] (jobs i)
  | Missing => dbg = true /\ exists p i d0, In d0 past /\ In p (map fst (looked (fresh d0 (jobs i)))) /\ d p = Gone
  | Pending | Freed => False
  end.

(** No file that the jobs needed by [is] looked at has changed, and all of them could be opened or were not there. *)
Definition untouched (jobs : id -> prog) (is : list id) (d d' : disk) : Prop :=
  forall i k p, In i is -> needs jobs d i k -> In p (map fst (looked (fresh d (jobs k)))) -> d' p = d p /\ forall t, d p <> Shut t.
(** A history of careful sessions. *)
Definition proper (jobs : id -> prog) (vs : list visit) : Prop :=
  (forall i, tidy [] [] (jobs i)) /\ dated (map files vs) /\ Forall (fun v => careful (todo v) /\ anyOrder (vorder v)) vs.
(** What a result should be, as [resultOf] gives it. *)
Definition shown (o : output) : list (path * Z) * list (option id) * list Z * list path :=
  let '(ds, rs, os, es) := o in (ds, map Some rs, os, es).
