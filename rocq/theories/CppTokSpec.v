(* What a user of the C++ tokenizer expects: every byte of a source is in a token, white or reported; written
   tokens are read back as these tokens; a token's location leads to its text. Only the data types of the
   model are used here, not its functions. *)
From Coq Require Import String.
From Verif Require Import Txt.
From Verif Require Import CppTokModel.
Local Open Scope string_scope.
Local Open Scope list_scope.
Local Open Scope Z_scope.
Local Notation length := List.length.

Definition white (c : Z) : Prop := c = 32 \/ c = 9 \/ c = 13 \/ c = 10.
Definition allWhite (s : list Z) : Prop := Forall white s.

(** The tokens stand in the source [src], which begins at offset [off], one behind the other, each at its
    location; what is between them satisfies [gap]. *)
Inductive laid (gap : list Z -> Prop) : Z -> list Z -> list token -> Prop :=
| laid_end off g : gap g -> laid gap off g []
| laid_tok off g t rest ts :
    gap g -> tokText t <> [] -> tokLoc t = off + zlen g ->
    laid gap (off + zlen g + zlen (tokText t)) rest ts ->
    laid gap off (g ++ tokText t ++ rest) (t :: ts).

(** The source contains [pat]. *)
Definition occurs (pat s : list Z) : Prop := exists a b, s = a ++ pat ++ b.

(** ** The tokens of the language *)
Definition digit (c : Z) : Prop := 48 <= c <= 57.
Definition hexDigit (c : Z) : Prop := 48 <= c <= 57 \/ 65 <= c <= 70 \/ 97 <= c <= 102.
(** Letters, underscore, dollar and everything that is not ASCII begin an identifier; digits go on with it. *)
Definition identStart (c : Z) : Prop :=
  65 <= c <= 90 \/ 97 <= c <= 122 \/ c = 95 \/ c = 36 \/ 128 <= c <= 255.
Definition identByte (c : Z) : Prop := identStart c \/ digit c.

(** Operators and punctuation. *)
Definition punct : list (ttype * list Z) :=
  [(OpenCurly, txt "{"); (CloseCurly, txt "}"); (OpenParen, txt "("); (CloseParen, txt ")");
   (OpenAngle, txt "<"); (CloseAngle, txt ">"); (OpenSquare, txt "["); (CloseSquare, txt "]");
   (Semicolon, txt ";"); (SingleColon, txt ":"); (DoubleColon, txt "::"); (SingleEqual, txt "=");
   (DoubleEqual, txt "=="); (NotEqual, txt "!="); (PlusEqual, txt "+="); (MinusEqual, txt "-=");
   (Comma, txt ","); (QuestionMark, txt "?"); (ForwardSlash, txt "/"); (Star, txt "*");
   (Percent, txt "%"); (SingleAmpersand, txt "&"); (DoubleAmpersand, txt "&&");
   (SingleVerticalBar, txt "|"); (DoubleVerticalBar, txt "||"); (SinglePlus, txt "+");
   (DoublePlus, txt "++"); (SingleMinus, txt "-"); (DoubleMinus, txt "--"); (LeftShift, txt "<<");
   (RightShift, txt ">>"); (Dot, txt "."); (Tilde, txt "~"); (Bang, txt "!"); (Ellipsis, txt "...");
   (LessThanOrEqual, txt "<="); (GreaterThanOrEqual, txt ">="); (Arrow, txt "->"); (StarEqual, txt "*=");
   (SlashEqual, txt "/="); (Caret, txt "^")].

(** The inside of a string or character literal: bytes other than the quote and the backslash, and
    backslashes with the byte that follows. *)
Inductive quoted (q : Z) : list Z -> Prop :=
| q_nil : quoted q []
| q_byte c s : c <> q -> c <> 92 -> quoted q s -> quoted q (c :: s)
| q_esc c s : quoted q s -> quoted q (92 :: c :: s).

(** The inside of a comment: no star at its end, and behind each star something else than a slash. (What
    C++ allows is more: a comment may end with several stars.) *)
Inductive commentText : list Z -> Prop :=
| cm_nil : commentText []
| cm_byte c s : c <> 42 -> commentText s -> commentText (c :: s)
| cm_star c s : c <> 47 -> commentText s -> commentText (42 :: c :: s).

(** A raw string's delimiter, and contents in which no closing parenthesis is the last byte or has a byte
    behind it with which the end of the string could begin. (What C++ allows is more.) *)
Definition rawDelim (d : list Z) : Prop :=
  Forall (fun c => ~ white c /\ c <> 40 /\ c <> 41 /\ c <> 92 /\ 0 <= c < 128) d.
Inductive rawText (d : list Z) : list Z -> Prop :=
| rt_nil : rawText d []
| rt_byte c s : c <> 41 -> rawText d s -> rawText d (c :: s)
| rt_paren c s : c <> hd 40 d -> (d = [] -> c <> 34) -> rawText d s -> rawText d (41 :: c :: s).

(** Numbers. *)
Definition suffixes : list (list Z) := map txt [""; "f"; "U"; "L"; "LL"; "UL"; "ULL"].
Definition fraction (f : list Z) : Prop := f = [] \/ exists ds, Forall digit ds /\ f = 46 :: ds.
Definition exponent (e : list Z) : Prop :=
  e = [] \/ exists x sg ds, (x = 101 \/ x = 69) /\ (sg = [] \/ sg = [43] \/ sg = [45]) /\
                            Forall digit ds /\ ds <> [] /\ e = x :: sg ++ ds.

(** Names of directives that take the rest of the line. *)
Definition lineDirectives : list (list Z) :=
  map txt ["include"; "pragma"; "if"; "else"; "elif"; "endif"; "ifdef"; "ifndef"; "error"; "undef"; "import"].
Definition noNewline (s : list Z) : Prop := Forall (fun c => c <> 10) s.
Definition blanks (s : list Z) : Prop := Forall (fun c => c = 32 \/ c = 9) s.
(** The text of a define after its name: lines that end with a backslash, and a last one that does not;
    no line is empty. *)
Inductive defineText : list Z -> Prop :=
| df_last l c : noNewline (l ++ [c]) -> ~ In 13 (l ++ [c]) -> c <> 92 -> defineText (l ++ [c; 10])
| df_cont l s : noNewline l -> ~ In 13 l -> defineText s -> defineText (l ++ 92 :: 10 :: s).

(** A token as it is written. *)
Inductive written : ttype -> list Z -> Prop :=
| w_punct t p : In (t, p) punct -> written t p
| w_ident c s : identStart c -> Forall identByte s -> written Identifier (c :: s)
| w_string q s : q = 34 \/ q = 39 -> quoted q s -> written StringLiteral (q :: s ++ [q])
| w_prefixed c p s : identStart c -> Forall identByte p -> c :: p <> txt "R" -> quoted 34 s ->
    written StringLiteral (c :: p ++ 34 :: s ++ [34])
| w_raw d s : rawDelim d -> rawText d s ->
    written StringLiteral (txt "R" ++ 34 :: d ++ 40 :: s ++ 41 :: d ++ [34])
| w_decimal c ds f e x : digit c -> Forall digit ds -> fraction f -> exponent e -> In x suffixes ->
    (c :: ds = [48] -> e = []) ->
    written NumericLiteral (c :: ds ++ f ++ e ++ x)
| w_hex ds x : Forall hexDigit ds -> ds <> [] -> In x suffixes -> x <> txt "f" ->
    written NumericLiteral (48 :: 120 :: ds ++ x)
| w_lineComment s : noNewline s -> written LineComment (47 :: 47 :: s ++ [10])
| w_comment s : commentText s -> written CStyleComment (47 :: 42 :: s ++ [42; 47])
| w_directive b name s : blanks b -> In name lineDirectives ->
    noNewline s -> (forall c, hd_error s = Some c -> ~ identByte c) ->
    written Directive (35 :: b ++ name ++ s ++ [10])
| w_define b s : blanks b -> defineText s -> (forall c, hd_error s = Some c -> ~ identByte c) ->
    written Directive (35 :: b ++ txt "define" ++ s).

(** What must not follow a token, lest it be read as a longer one: [next] is the text behind it. [angles] is
    set when the parser wants closing angles one by one. *)
Definition startsWith (p s : list Z) : Prop := exists r, s = p ++ r.
Definition separated (angles : bool) (t : ttype) (text next : list Z) : Prop :=
  match t with
  | Identifier => forall c, hd_error next = Some c -> ~ identByte c /\ c <> 34
  | NumericLiteral => forall c, hd_error next = Some c -> ~ identByte c /\ c <> 46 /\ (text = txt "0" -> c <> 45)
  | StringLiteral | LineComment | CStyleComment | Directive => True
  | _ =>
      (* no longer operator, and no comment, is there *)
      (forall t' p, In (t', p) punct -> startsWith p (text ++ next) ->
         (length p <= length text)%nat \/ (angles = true /\ (t' = RightShift \/ t' = GreaterThanOrEqual))) /\
      ~ startsWith (txt "//") (text ++ next) /\ ~ startsWith (txt "/*") (text ++ next) /\
      (angles = true -> t <> RightShift /\ t <> GreaterThanOrEqual)
  end.

(** A source as a sequence of tokens, each with the white space before it, and white space at the end.
    [bol]: only white space has come since the beginning of the line; a directive must stand there. *)
Definition bolAfterGap (bol : bool) (g : list Z) : bool := bol || existsb (Z.eqb 10) g.
Definition bolAfterToken (t : ttype) : bool :=
  match t with LineComment | Directive => true | _ => false end.
Inductive source : bool -> list bool -> list Z -> list (ttype * list Z) -> Prop :=
| src_end bol angles g : allWhite g -> source bol angles g []
| src_tok bol angles g t text rest ts :
    allWhite g -> written t text -> separated (hd false angles) t text rest ->
    (t = Directive -> bolAfterGap bol g = true) ->
    source (bolAfterToken t) (tl angles) rest ts ->
    source bol angles (g ++ text ++ rest) ((t, text) :: ts).

(** ** Locations *)
(** The text [x] stands in [s] at offset [off]. *)
Definition standsAt (s : list Z) (off : Z) (x : list Z) : Prop :=
  exists a b, s = a ++ x ++ b /\ zlen a = off.
