(* What the rest of the C++ parser relies on when it reads ahead, goes back and skips: what comes next is a
   sequence; going back is as if the tokens had not been read; brackets decide where skipping ends.
   Only the data types of the model are used here, not its functions. *)
From Verif Require Import CppTokModel CppSkipModel.
Local Open Scope list_scope.
Local Open Scope Z_scope.

Section Spec.
Context {S : Type} (next : bool -> S -> option (token * S)).

(** What is to come: tokens that were read before, and then what the tokenizer gives. *)
Definition upcoming : Type := list token * S.
Inductive pullRaw (angles : bool) : upcoming -> token -> upcoming -> Prop :=
| pr_pending t l s : pullRaw angles (t :: l, s) t (l, s)
| pr_next s t s' : next angles s = Some (t, s') -> pullRaw angles ([], s) t ([], s').
(** Comments, directives and macros are passed by. *)
Definition aside (t : token) : Prop :=
  In (tokType t) [CStyleComment; LineComment; Directive; Macro].
Inductive pull (angles : bool) : upcoming -> token -> upcoming -> Prop :=
| pl_token u t u' : pullRaw angles u t u' -> ~ aside t -> pull angles u t u'
| pl_aside u t u1 t' u' : pullRaw angles u t u1 -> aside t -> pull angles u1 t' u' -> pull angles u t' u'.

(** ** Restore points *)
(** A client reads, pushes back the token it has just read, marks a place, goes back to the place marked last,
    forgets it, and reports errors. *)
Inductive cmd := Read | PushBack | Mark | GoBack | Forget | Err.
(** What this means: going back is going back to a copy. [aLast] is the token that may be pushed back, [aAt]
    the number of tokens taken since the outermost mark, [aErrs] the number of errors since the beginning,
    [aTold] of those that the user is told about. *)
Record astate := mkA {
  aUp : upcoming; aLast : option token; aAt : nat; aErrs : nat; aTold : nat;
  aMarks : list (upcoming * nat * nat) }.
Inductive astep (angles : bool) : astate -> cmd -> list token -> astate -> Prop :=
| as_read u l n e r ms t u' : pull angles u t u' ->
    astep angles (mkA u l n e r ms) Read [t] (mkA u' (Some t) (Datatypes.S n) e r ms)
| as_push pend s t n e r ms :
    astep angles (mkA (pend, s) (Some t) (Datatypes.S n) e r ms) PushBack [] (mkA (t :: pend, s) None n e r ms)
| as_mark u l n e r : (* the first mark *)
    astep angles (mkA u l n e r []) Mark [] (mkA u None 0 e r [(u, 0%nat, e)])
| as_mark_nested u l n e r m ms : (* not at the same place as the first mark *)
    (0 < n)%nat -> astep angles (mkA u l n e r (m :: ms)) Mark [] (mkA u None n e r ((u, n, e) :: m :: ms))
| as_back u l n e r u0 n0 e0 ms :
    astep angles (mkA u l n e r ((u0, n0, e0) :: ms)) GoBack [] (mkA u0 None n0 e0 r ((u0, n0, e0) :: ms))
| as_forget u l n e r u0 n0 ms : (* no error since the mark *)
    astep angles (mkA u l n e r ((u0, n0, e) :: ms)) Forget [] (mkA u l n e r ms)
| as_error_told u l n e r : astep angles (mkA u l n e r []) Err [] (mkA u l n (Datatypes.S e) (Datatypes.S r) [])
| as_error_marked u l n e r m ms :
    astep angles (mkA u l n e r (m :: ms)) Err [] (mkA u l n (Datatypes.S e) r (m :: ms)).
Inductive asteps (angles : bool) : astate -> list cmd -> list token -> astate -> Prop :=
| ass_nil a : asteps angles a [] [] a
| ass_cons a c o a1 cs o' a2 : astep angles a c o a1 -> asteps angles a1 cs o' a2 ->
    asteps angles a (c :: cs) (o ++ o') a2.
Definition begin (s : S) : astate := mkA ([], s) None 0 0 0 [].

(** The same commands given to the parser. *)
Definition cstep (fuel : nat) (c : cmd) (last : option token) (rs : list restorePoint) (p : parser S)
  : option (list token * option token * list restorePoint * parser S) :=
  match c with
  | Read => match read next fuel p with Some (t, q) => Some ([t], Some t, rs, q) | None => None end
  | PushBack =>
      match last with
      | Some t => match pushBack t p with Some q => Some ([], None, rs, q) | None => None end
      | None => None
      end
  | Mark => match makeRestore p with Some (r, q) => Some ([], None, r :: rs, q) | None => None end
  | GoBack => match rs with r :: _ => Some ([], None, rs, backtrack r p) | [] => None end
  | Forget =>
      match rs with
      | r :: rs => match cancel r p with Some q => Some ([], last, rs, q) | None => None end
      | [] => None
      end
  | Err => Some ([], last, rs, report false (OtherError (mkToken 0 Invalid [])) p)
  end.
Fixpoint crun (fuel : nat) (cs : list cmd) (last : option token) (rs : list restorePoint) (p : parser S)
  : option (list token * parser S) :=
  match cs with
  | [] => Some ([], p)
  | c :: cs =>
      match cstep fuel c last rs p with
      | None => None
      | Some (o, last', rs', q) =>
          match crun fuel cs last' rs' q with Some (o', q') => Some (o ++ o', q') | None => None end
      end
  end.

(** ** Brackets *)
(** A stretch in which curly brackets are balanced; parentheses and square brackets need not be. The first
    argument is the number of its tokens. *)
Inductive curlies : nat -> upcoming -> upcoming -> Prop :=
| cu_nil u : curlies 0 u u
| cu_tok n u t u1 u2 : pull false u t u1 ->
    tokType t <> OpenCurly -> tokType t <> CloseCurly -> tokType t <> EndOfFile ->
    curlies n u1 u2 -> curlies (Datatypes.S n) u u2
| cu_nest n m u o u1 u2 c u3 u4 : pull false u o u1 -> tokType o = OpenCurly ->
    curlies n u1 u2 -> pull false u2 c u3 -> tokType c = CloseCurly ->
    curlies m u3 u4 -> curlies (2 + n + m) u u4.

(** A stretch in which all brackets are balanced. Angles are brackets directly inside of angles; there closing
    angles are read one by one. *)
Definition pair (o c : ttype) : Prop :=
  In (o, c) [(OpenCurly, CloseCurly); (OpenParen, CloseParen); (OpenSquare, CloseSquare); (OpenAngle, CloseAngle)].
Definition inAngles (o : ttype) : bool := match o with OpenAngle => true | _ => false end.
Definition bracket (angles : bool) (t : ttype) : Prop :=
  In t [OpenCurly; CloseCurly; OpenParen; CloseParen; OpenSquare; CloseSquare] \/
  (angles = true /\ (t = OpenAngle \/ t = CloseAngle)).
Inductive balanced (angles : bool) : upcoming -> upcoming -> Prop :=
| ba_nil u : balanced angles u u
| ba_tok u t u1 u2 : pull angles u t u1 -> ~ bracket angles (tokType t) -> tokType t <> EndOfFile ->
    balanced angles u1 u2 -> balanced angles u u2
| ba_nest u o u1 u2 c u3 u4 : pull angles u o u1 -> pair (tokType o) (tokType c) -> bracket angles (tokType o) ->
    balanced (inAngles (tokType o)) u1 u2 -> pull (inAngles (tokType o)) u2 c u3 ->
    balanced angles u3 u4 -> balanced angles u u4.

(** ** Ends *)
(** Nothing but the end of the file is to come. *)
Definition over (u : upcoming) : Prop :=
  Forall (fun t => tokType t = EndOfFile) (fst u) /\
  forall angles, exists t, next angles (snd u) = Some (t, snd u) /\ tokType t = EndOfFile.
(** However it is read, the end of the file comes after at most [n] other tokens. *)
Fixpoint ends (n : nat) (u : upcoming) : Prop :=
  forall angles, exists t u', pullRaw angles u t u' /\
    ((tokType t = EndOfFile /\ over u') \/
     (tokType t <> EndOfFile /\ match n with O => False | Datatypes.S n => ends n u' end)).
End Spec.
