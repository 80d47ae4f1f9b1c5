(* Model of how the C++ parser reads ahead, goes back and skips what it does not understand:
   SRC/cpp/ply-cpp/ParseMisc.cpp, RestorePoint.h, Parser.cpp and parts of ParseSpecifiersAndDeclarators.cpp
   (SRC = /repo/repos/plywood/src).
   The tokenizer below is any function [next] of the setting of [tokenizeCloseAnglesOnly] and of its own
   state; [None] is a failing assertion in it. ([tokens] at the end is the one of CppTokModel.) *)
From Verif Require Export CppTokModel.
Local Open Scope list_scope.
Local Open Scope Z_scope.

Definition ttype_eq_dec (a b : ttype) : {a = b} + {a <> b}.
Proof. decide equality. Defined.
Definition ttypeEqb (a b : ttype) : bool := if ttype_eq_dec a b then true else false.

(** Token.h:82-90 [operator==]: the text counts for identifiers and numbers. *)
Definition tokenEqb (a b : token) : bool :=
  ttypeEqb (tokType a) (tokType b) &&
  match tokType a with
  | Identifier | NumericLiteral => bytesEqb (tokText a) (tokText b)
  | _ => true
  end.

(** ParseMisc.cpp:99-117: the types handed to [gotMacroOrComment]. *)
Definition isAside (t : ttype) : bool :=
  match t with CStyleComment | LineComment | Directive | Macro => true | _ => false end.

(** ParseMisc.cpp:179-217: [(Token::Type) ((u32) openToken.type + 1)], for the four that open a scope. *)
Definition closeOf (t : ttype) : option ttype :=
  match t with
  | OpenCurly => Some CloseCurly
  | OpenParen => Some CloseParen
  | OpenAngle => Some CloseAngle
  | OpenSquare => Some CloseSquare
  | _ => None
  end.

(** Parser.h:129-135: [outerAcceptFlags] (the flags for comma and semicolon are not used). *)
Record accept := mkAccept { aOpenCurly : bool; aCloseCurly : bool; aCloseParen : bool; aCloseSquare : bool; aCloseAngle : bool }.
Definition acceptNone : accept := mkAccept false false false false false.

(** Parser.h:73-97 [ParseError] as far as it is used here. *)
Inductive perror := Expected (t : token) | UnclosedToken (t open : token) | OtherError (t : token).

(** ParseMisc.cpp:128-171: is the token one that an outer scope accepts? *)
Definition accepts (a : accept) (t : ttype) : bool :=
  match t with
  | OpenCurly => aOpenCurly a
  | CloseCurly => aCloseCurly a
  | CloseParen => aCloseParen a
  | CloseAngle => aCloseAngle a
  | CloseSquare => aCloseSquare a
  | _ => false
  end.
(** ParseMisc.cpp:260-299: what [SetAcceptFlagsInScope] sets; [None] is its failing assertion. *)
Definition scopeFlags (t : ttype) (a : accept) : option (accept * bool) :=
  match t with
  | OpenCurly => Some (mkAccept false true false false false, false)
  | OpenParen => Some (mkAccept (aOpenCurly a) (aCloseCurly a) true (aCloseSquare a) false, false)
  | OpenAngle => Some (mkAccept (aOpenCurly a) (aCloseCurly a) (aCloseParen a) (aCloseSquare a) true, true)
  | OpenSquare => Some (mkAccept (aOpenCurly a) (aCloseCurly a) (aCloseParen a) true false, false)
  | _ => None
  end.

Section Parser.
Context {S : Type} (next : bool -> S -> option (token * S)).

(** Parser.h:128-159 [Parser], with its preprocessor's state [pSrc] and [pAngles] [tokenizeCloseAnglesOnly];
    [pSeen] is what [gotMacroOrComment] was called with, [pReported] what the error handler was called with. *)
Record parser := mkParser {
  pRestore : bool; pQueue : list token; pPos : nat;
  pErrors : nat; pMute : bool; pAccept : accept; pAngles : bool;
  pSrc : S; pSeen : list token; pReported : list perror }.

Definition setScope (a : accept) (g : bool) (p : parser) : parser :=
  mkParser (pRestore p) (pQueue p) (pPos p) (pErrors p) (pMute p) a g (pSrc p) (pSeen p) (pReported p).
Definition setMute (m : bool) (p : parser) : parser :=
  mkParser (pRestore p) (pQueue p) (pPos p) (pErrors p) m (pAccept p) (pAngles p) (pSrc p) (pSeen p) (pReported p).
Definition setQueue (on : bool) (q : list token) (n : nat) (p : parser) : parser :=
  mkParser on q n (pErrors p) (pMute p) (pAccept p) (pAngles p) (pSrc p) (pSeen p) (pReported p).
Definition setSrc (s : S) (p : parser) : parser :=
  mkParser (pRestore p) (pQueue p) (pPos p) (pErrors p) (pMute p) (pAccept p) (pAngles p) s (pSeen p) (pReported p).
Definition seen (t : token) (p : parser) : parser :=
  mkParser (pRestore p) (pQueue p) (pPos p) (pErrors p) (pMute p) (pAccept p) (pAngles p) (pSrc p) (pSeen p ++ [t]) (pReported p).

(** Parser.cpp:11-24 [Parser::error]. *)
Definition report (beginMuting : bool) (e : perror) (p : parser) : parser :=
  if pRestore p
  then mkParser (pRestore p) (pQueue p) (pPos p) (Datatypes.S (pErrors p)) (pMute p) (pAccept p) (pAngles p) (pSrc p) (pSeen p) (pReported p)
  else mkParser (pRestore p) (pQueue p) (pPos p) (Datatypes.S (pErrors p)) (pMute p || beginMuting) (pAccept p) (pAngles p) (pSrc p) (pSeen p)
         (if pMute p then pReported p else pReported p ++ [e]).

(** ParseMisc.cpp:78-97 [readTokenInternal]. *)
Definition readRaw (p : parser) : option (token * parser) :=
  match nth_error (pQueue p) (pPos p) with
  | Some t =>
      if pRestore p then Some (t, setQueue true (pQueue p) (Datatypes.S (pPos p)) p)
      else match pPos p with
           | O => Some (t, setQueue false (tl (pQueue p)) 0 p)
           | _ => None
           end
  | None =>
      match next (pAngles p) (pSrc p) with
      | None => None
      | Some (t, s) =>
          if pRestore p then Some (t, setQueue true (pQueue p ++ [t]) (Datatypes.S (pPos p)) (setSrc s p))
          else Some (t, setSrc s p)
      end
  end.

(** ParseMisc.cpp:99-117 [readToken]; [fuel] bounds the rounds. *)
Fixpoint read (fuel : nat) (p : parser) : option (token * parser) :=
  match fuel with
  | O => None
  | Datatypes.S f =>
      match readRaw p with
      | None => None
      | Some (t, q) => if isAside (tokType t) then read f (seen t q) else Some (t, q)
      end
  end.

(** ParseMisc.cpp:119-126 [pushBackToken]. *)
Definition pushBack (t : token) (p : parser) : option parser :=
  match pPos p with
  | Datatypes.S n =>
      match nth_error (pQueue p) n with
      | Some t' => if tokenEqb t' t then Some (setQueue (pRestore p) (pQueue p) n p) else None
      | None => None
      end
  | O => Some (setQueue (pRestore p) (t :: pQueue p) 0 p)
  end.

(** RestorePoint.h:12-60. *)
Record restorePoint := mkRestore { rWas : bool; rPos : nat; rErrors : nat }.
Definition makeRestore (p : parser) : option (restorePoint * parser) :=
  if pRestore p || (pPos p =? 0)%nat
  then Some (mkRestore (pRestore p) (pPos p) (pErrors p), setQueue true (pQueue p) (pPos p) p)
  else None.
Definition errorOccurred (r : restorePoint) (p : parser) : bool := negb (pErrors p =? rErrors r)%nat.
Definition backtrack (r : restorePoint) (p : parser) : parser :=
  mkParser (pRestore p) (pQueue p) (rPos r) (rErrors r) (pMute p) (pAccept p) (pAngles p) (pSrc p) (pSeen p) (pReported p).
Definition cancel (r : restorePoint) (p : parser) : option parser :=
  if errorOccurred r p then None
  else if (rPos r =? 0)%nat then
    if rWas r then None else Some (setQueue (rWas r) (skipn (pPos p) (pQueue p)) 0 p)
  else Some (setQueue (rWas r) (pQueue p) (pPos p) p).

(** ParseMisc.cpp:128-171 [okToStayInScope]. *)
Definition okToStay (t : token) (p : parser) : option (bool * parser) :=
  if accepts (pAccept p) (tokType t) then
    match pushBack t p with Some q => Some (false, q) | None => None end
  else Some (match tokType t with EndOfFile => false | _ => true end, p).

(** ParseMisc.cpp:179-217 [skipAnyScope]: was the scope closed, and by which token. [fuel] bounds the rounds
    and the nesting. *)
Definition restoreScope (p : parser) (q : parser) : parser := setScope (pAccept p) (pAngles p) q.
Fixpoint skipLoop (fuel : nat) (open : token) (close : ttype) (p : parser) : option (option token * parser) :=
  match fuel with
  | O => None
  | Datatypes.S f =>
      match read f p with
      | None => None
      | Some (t, q) =>
          if ttypeEqb (tokType t) close then Some (Some t, q)
          else
            match okToStay t q with
            | None => None
            | Some (false, q) => Some (None, report true (UnclosedToken t open) q)
            | Some (true, q) =>
                let nested :=
                  match tokType t with
                  | OpenAngle => pAngles q
                  | OpenCurly | OpenParen | OpenSquare => true
                  | _ => false
                  end in
                if nested then
                  match closeOf (tokType t), scopeFlags (tokType t) (pAccept q) with
                  | Some c, Some (a, g) =>
                      match skipLoop f t c (setScope a g q) with
                      | Some (_, q') => skipLoop f open close (restoreScope q q')
                      | None => None
                      end
                  | _, _ => None
                  end
                else skipLoop f open close q
            end
      end
  end.
Definition skipAnyScope (fuel : nat) (open : token) (p : parser) : option (option token * parser) :=
  match closeOf (tokType open), scopeFlags (tokType open) (pAccept p) with
  | Some c, Some (a, g) =>
      match skipLoop fuel open c (setScope a g p) with
      | Some (r, q) => Some (r, restoreScope p q)
      | None => None
      end
  | _, _ => None
  end.

(** ParseMisc.cpp:225-258 [handleUnexpectedToken]. *)
Definition handleUnexpected (fuel : nat) (t : token) (p : parser) : option (bool * parser) :=
  match okToStay t p with
  | None => None
  | Some (false, q) => Some (false, q)
  | Some (true, q) =>
      let nested :=
        match tokType t with
        | OpenAngle => pAngles q
        | OpenCurly | OpenParen | OpenSquare => true
        | _ => false
        end in
      if nested then
        match skipAnyScope fuel t q with Some (_, q') => Some (true, q') | None => None end
      else Some (true, q)
  end.

(** ParseSpecifiersAndDeclarators.cpp:102-125 [closeScope]. *)
Definition closeScope (fuel : nat) (open : token) (p : parser) : option (bool * option token * parser) :=
  match read fuel p with
  | None => None
  | Some (t, q) =>
      if match closeOf (tokType open) with Some c => ttypeEqb (tokType t) c | None => false end
      then Some (true, Some t, q)
      else
        match tokType open with
        | OpenSquare | OpenParen =>
            match pushBack t (report true (Expected t) q) with
            | None => None
            | Some q =>
                match skipAnyScope fuel open q with
                | None => None
                | Some (None, q) => if pMute q then Some (false, None, q) else None
                | Some (Some _, q) => Some (true, None, setMute false q)
                end
            end
        | _ => None
        end
  end.
End Parser.
Arguments parser S : clear implicits.

(** The tokenizer of CppTokModel under a parser. *)
Definition tokens (angles : bool) (p : pp) : option (token * pp) :=
  match CppTokModel.readToken angles p with Got t q => Some (t, q) | _ => None end.
(** A parser that has just been set up (ParsePlywoodSrcFile.cpp). *)
Definition fresh {S} (s : S) : parser S := mkParser false [] 0 0 false acceptNone false s [] [].
