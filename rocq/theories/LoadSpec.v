(* What it means that repos are loaded in the order of their dependencies. *)
From Verif Require Import Base LoadModel.

Section Spec.
Variable dlls : list name.
Variable info : name -> infoFile.
Variable dll : name -> bool.

(** The dependencies that a repo declares. *)
Definition dependencies (n : name) : list name := match info n with DependsOn l => l | _ => [] end.

(** [a] is [b] or depends on it, directly or not. *)
Inductive needs : name -> name -> Prop :=
| needs_self a : needs a a
| needs_step a b c : In b (dependencies a) -> needs b c -> needs a c.

(** A repo that needs one whose info.pylon is malformed. *)
Definition spoiled (n : name) : Prop := exists b, needs n b /\ info b = Malformed.

(** A repo that can be loaded if its dependencies can: its info.pylon can be read, if it has one, and lists
    different repos that are there, and its DLL can be loaded. *)
Definition loadable (n : name) : Prop :=
  info n <> Unreadable /\ NoDup (dependencies n) /\ (forall d, In d (dependencies n) -> In d dlls) /\ dll n = true.

(** [a] comes before [b]. *)
Definition before (l : list name) (a b : name) : Prop := exists l1 l2 l3, l = l1 ++ a :: l2 ++ b :: l3.
End Spec.
