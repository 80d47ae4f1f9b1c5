(* Model of the C++ tokenizer: SRC/cpp/ply-cpp/Preprocessor.cpp (SRC = /repo/repos/plywood/src).
   A ViewInStream is the list of bytes not yet read; a token's text is what was consumed. *)
From Coq Require Import String.
From Verif Require Import Txt.
From Verif Require Export ScanModel NumTextModel.
Local Open Scope string_scope.
Local Open Scope list_scope.
Local Open Scope Z_scope.
Local Notation length := List.length.

(** Token.h:16-70 [Token::Type]. *)
Inductive ttype :=
| Invalid | LineComment | CStyleComment | Macro | MacroArgument | Directive
| OpenCurly | CloseCurly | OpenParen | CloseParen | OpenAngle | CloseAngle
| LessThanOrEqual | GreaterThanOrEqual | OpenSquare | CloseSquare | Semicolon
| SingleColon | DoubleColon | SingleEqual | DoubleEqual | NotEqual | PlusEqual | MinusEqual
| Arrow | StarEqual | SlashEqual | Comma | QuestionMark | ForwardSlash | Star | Percent
| SingleAmpersand | DoubleAmpersand | SingleVerticalBar | DoubleVerticalBar
| SinglePlus | DoublePlus | SingleMinus | DoubleMinus | LeftShift | RightShift
| Dot | Tilde | Caret | Bang | Ellipsis | Identifier | StringLiteral | NumericLiteral | EndOfFile.

(** Preprocessor.h:20-32 [Preprocessor::Error::Type] (those that are raised). *)
Inductive etype :=
| InvalidDirective | EOFInMacro | EOFInComment | EOFInStringLiteral | EOFInRawStringDelimiter
| InvalidCharInRawStringDelimiter | DirectiveNotAtStartOfLine | GarbageCharacters.

(** StringView.h:24-26 [isWhite]. *)
Definition isWhite (c : Z) : bool := (c =? 32) || (c =? 9) || (c =? 13) || (c =? 10).

(** The bytes taken by the digit loops of TypeParser.cpp:87-111 and :144-160 in a radix. *)
Fixpoint skipDigits (radix : Z) (s : list Z) : list Z :=
  match s with
  | c :: r => if digitValue c <? radix then skipDigits radix r else s
  | [] => []
  end.
(** [tryMakeBytesAvailable() && peekByte() == c] followed by [advanceByte]. *)
Definition eat (c : Z) (s : list Z) : list Z :=
  match s with d :: r => if d =? c then r else s | [] => [] end.
Definition peekIs (c : Z) (s : list Z) : bool :=
  match s with d :: _ => d =? c | [] => false end.

(** TypeParser.cpp:179-224: the bytes taken behind the mantissa; [any] is [comp.anyDigits], set by the
    mantissa only. *)
Definition skipTail (any : bool) (s : list Z) : list Z :=
  let s3 := if peekIs 46 s then skipDigits 10 (tl s) else s in
  if any && (peekIs 101 s3 || peekIs 69 s3) then
    skipDigits 10 (if peekIs 43 (tl s3) then tl (tl s3) else eat 45 (tl s3))
  else s3.
(** TypeParser.cpp:162-229 [TypeParser<double>::parse]: the bytes it takes (the value is not used by
    the tokenizer). *)
Definition skipDouble (s : list Z) : list Z :=
  let s1 := eat 45 s in
  let s2 := skipDigits 10 s1 in
  skipTail (negb (length s2 =? length s1)%nat) s2.

(** Preprocessor.cpp:124-137: the suffix. *)
Definition skipSuffix (s : list Z) : list Z :=
  if peekIs 102 s then tl s
  else
    let s1 := eat 85 s in
    if peekIs 76 s1 then eat 76 (tl s1) else s1.
(** Preprocessor.cpp:114-138 [readNumericLiteral]. *)
Definition readNumericLiteral (s : list Z) : list Z :=
  if peekIs 48 s then
    let s1 := tl s in
    if peekIs 120 s1 then skipSuffix (skipDigits 16 (tl s1)) else skipSuffix (skipDouble s1)
  else skipSuffix (skipDouble s).

(** TypeParser.h:123-129: the rest of the line is taken, with its end. *)
Definition skipLine (s : list Z) : list Z := snd (special_loop s [10] 0).
(** TypeParser.cpp:60-80 with the terminator of a comment. *)
Definition skipComment (s : list Z) : bool * list Z := special_loop s [42; 47] 0.

(** Preprocessor.cpp:148-156: skip whitespace after the hash; [true] when a line end was met. *)
Fixpoint directiveWhite (s : list Z) : bool * list Z :=
  match s with
  | c :: r => if negb (isWhite c) then (false, s) else if c =? 10 then (true, r) else directiveWhite r
  | [] => (false, [])
  end.
(** Preprocessor.cpp:178-189: the text of a define. *)
Fixpoint skipDefine (escaping : bool) (s : list Z) : list Z :=
  match s with
  | c :: r =>
      if c =? 10 then if escaping then skipDefine escaping r else r
      else skipDefine (if c =? 13 then escaping else c =? 92) r
  | [] => []
  end.
(** Preprocessor.cpp:171-175 (and include at :165). *)
Definition plainDirectives : list (list Z) :=
  map txt ["include"; "pragma"; "if"; "else"; "elif"; "endif"; "ifdef"; "ifndef"; "error"; "undef"; "import"].
Definition bytesEqb (a b : list Z) : bool := if list_eq_dec Z.eq_dec a b then true else false.
(** What was consumed between two positions of one stream. *)
Definition between (s s' : list Z) : list Z := firstn (length s - length s') s.

(** Preprocessor.cpp:140-197 [readPreprocessorDirective]: [s] starts at the hash. Returns the rest,
    [atStartOfLine] and the errors with the position each is raised at. The callback told about an include
    (:166-168) does not affect the tokens and is left out. *)
Definition readDirective (s : list Z) : list Z * bool * list (etype * list Z) :=
  let '(null, s1) := directiveWhite (tl s) in
  if null then (s1, false, [])
  else
    let s2 := snd (parse_identifier s1 WithDollarSign) in
    let name := between s1 s2 in
    match name with
    | [] => (skipLine s2, true, [(InvalidDirective, s2)])
    | _ =>
        if existsb (bytesEqb name) plainDirectives then (skipLine s2, true, [])
        else if bytesEqb name (txt "define") then (skipDefine false s2, true, [])
        else (skipLine s2, true, [(InvalidDirective, s1)])
    end.

(** Preprocessor.cpp:284-307 [readStringLiteral]: [None] is the end of the input. *)
Fixpoint readString (quote : Z) (s : list Z) : option (list Z) :=
  match s with
  | c :: r =>
      if c =? 92 then match r with _ :: r' => readString quote r' | [] => None end
      else if c =? quote then Some r
      else readString quote r
  | [] => None
  end.

Inductive rawRes :=
| RawOk (rest : list Z)
| RawErr (e : etype) (rest : list Z).

(** Preprocessor.cpp:314-332: the delimiter; [s] is behind the quote. *)
Fixpoint rawDelimiter (s : list Z) : rawRes :=
  match s with
  | [] => RawErr EOFInRawStringDelimiter []
  | c :: r =>
      if c =? 40 then RawOk s
      else if isWhite c || (c =? 41) || (c =? 92) then RawErr InvalidCharInRawStringDelimiter s
      else rawDelimiter r
  end.
(** Preprocessor.cpp:339-380: the contents. [whole] is the source from [delimiterStart], [len] the
    delimiter's length; [at_] = [Some i] while a delimiter is being matched, [d = delimiterStart + i]:
    [d] runs on into the contents if the delimiter has matched and no quote follows (:359-363 falls
    through to :364). [d] points to [const char] (signed) and is compared with [(u8) c] (:374), so
    bytes above 127 never match. *)
Fixpoint rawContents (whole : list Z) (len : nat) (at_ : option nat) (s : list Z) : rawRes :=
  match s with
  | [] => RawErr EOFInStringLiteral []
  | c :: r =>
      match at_ with
      | None => rawContents whole len (if c =? 41 then Some O else None) r
      | Some i =>
          if (i =? len)%nat && (c =? 34) then RawOk r
          else if c =? s8 (nth i whole (-1)) then rawContents whole len (Some (S i)) r
          else rawContents whole len None r
      end
  end.
(** Preprocessor.cpp:309-381 [readDelimiterAndRawStringLiteral]; [s] is behind the opening quote. *)
Definition readRaw (s : list Z) : rawRes :=
  match rawDelimiter s with
  | RawOk s1 => rawContents s (length s - length s1) None (tl s1)
  | e => e
  end.

(** Preprocessor.cpp:398-400: the mask of identifier bytes (with dollar and digits). *)
Definition identMask : list Z := id_mask (Z.lor 0x10 0x3ff0000).

(** What one round of the loop of [readToken] does with the bytes left: a token, or bytes skipped, with
    [atStartOfLine] and the errors raised (with the position each is raised at); [Crash] is a failing assertion. *)
Inductive round :=
| Tok (t : ttype) (rest : list Z) (bol : bool) (errs : list (etype * list Z))
| Skip (rest : list Z) (bol : bool) (errs : list (etype * list Z))
| Crash.

(** Preprocessor.cpp:403-437: the loop of [readIdentifierOrLiteral]; [n] bytes behind the start, [first]
    the first byte. An error in a raw string falls through to :436, which steps over the next byte (an
    assertion if there is none) and goes on in the loop. [fuel] bounds the rounds. *)
Fixpoint identLoop (fuel : nat) (first : Z) (n : nat) (errs : list (etype * list Z)) (s : list Z) : round :=
  match fuel with
  | O => Crash
  | S f =>
      match s with
      | [] => match n with O => Crash | _ => Tok Identifier [] false errs end
      | c :: r =>
          if mask_match c identMask then identLoop f first (S n) errs r
          else if c =? 34 then
            if (n =? 1)%nat && (first =? 82) then
              match readRaw r with
              | RawOk rest => Tok StringLiteral rest false errs
              | RawErr e rest =>
                  match rest with
                  | [] => Crash
                  | _ :: rest' => identLoop f first (n + (length s - length rest'))%nat (errs ++ [(e, rest)]) rest'
                  end
              end
            else
              match readString 34 r with
              | Some rest => Tok StringLiteral rest false errs
              | None => Skip [] false (errs ++ [(EOFInStringLiteral, [])])
              end
          else match n with
               | O => Skip r false (errs ++ [(GarbageCharacters, s)])
               | _ => Tok Identifier s false errs
               end
      end
  end.
(** Preprocessor.cpp:390-438 [readIdentifierOrLiteral]. *)
Definition readIdentifierOrLiteral (s : list Z) : round :=
  match s with
  | [] => Crash
  | c :: r =>
      if (48 <=? c) && (c <=? 57) then Tok NumericLiteral (readNumericLiteral s) false []
      else identLoop (S (length s)) c 0 [] s
  end.

(** Preprocessor.cpp:474-490: whitespace; [atStartOfLine] becomes true at a line end. *)
Fixpoint skipWhite (bol : bool) (s : list Z) : list Z * bool :=
  match s with
  | c :: r => if isWhite c then skipWhite (if c =? 10 then true else bol) r else (s, bol)
  | [] => ([], bol)
  end.

(** The shape of the operators: one byte, or two when the next byte is in the table. *)
Definition oper (one : ttype) (twos : list (Z * ttype)) (r : list Z) : round :=
  match r with
  | d :: r' => match find (fun p => fst p =? d) twos with
               | Some (_, t) => Tok t r' false []
               | None => Tok one r false []
               end
  | [] => Tok one [] false []
  end.

(** Preprocessor.cpp:467-797: one round, for the bytes [c :: r] left in the top of the stack. [bol] is
    [wasAtStartOfLine], [angles] [tokenizeCloseAnglesOnly]. *)
Definition lexRound (bol angles : bool) (c : Z) (r : list Z) : round :=
  let s := c :: r in
  if isWhite c then let '(rest, b) := skipWhite bol s in Skip rest b []
  else if c =? 35 then                                                         (* # :492-507 *)
    if bol then let '(rest, b, e) := readDirective s in Tok Directive rest b e
    else Skip r false [(DirectiveNotAtStartOfLine, s)]
  else if c =? 47 then                                                         (* / :509-541 *)
    match r with
    | d :: r' =>
        if d =? 47 then Tok LineComment (skipLine r') true []
        else if d =? 42 then
          let '(found, rest) := skipComment r' in
          if found then Tok CStyleComment rest false [] else Skip rest false [(EOFInComment, rest)]
        else if d =? 61 then Tok SlashEqual r' false []
        else Tok ForwardSlash r false []
    | [] => Tok ForwardSlash [] false []
    end
  else if c =? 123 then Tok OpenCurly r false []                             (* :543-577 *)
  else if c =? 125 then Tok CloseCurly r false []
  else if c =? 59 then Tok Semicolon r false []
  else if c =? 40 then Tok OpenParen r false []
  else if c =? 41 then Tok CloseParen r false []
  else if c =? 60 then oper OpenAngle [(60, LeftShift); (61, LessThanOrEqual)] r    (* :579-594 *)
  else if c =? 62 then                                                         (* :596-613 *)
    if angles then Tok CloseAngle r false []
    else oper CloseAngle [(62, RightShift); (61, GreaterThanOrEqual)] r
  else if c =? 91 then Tok OpenSquare r false []                             (* :615-625 *)
  else if c =? 93 then Tok CloseSquare r false []
  else if c =? 58 then oper SingleColon [(58, DoubleColon)] r                  (* :627-638 *)
  else if c =? 44 then Tok Comma r false []                                  (* :640-650 *)
  else if c =? 63 then Tok QuestionMark r false []
  else if c =? 61 then oper SingleEqual [(61, DoubleEqual)] r                  (* :652-663 *)
  else if c =? 42 then oper Star [(61, StarEqual)] r                           (* :665-676 *)
  else if c =? 37 then Tok Percent r false []                                (* :678-682 *)
  else if c =? 38 then oper SingleAmpersand [(38, DoubleAmpersand)] r          (* :684-695 *)
  else if c =? 124 then oper SingleVerticalBar [(124, DoubleVerticalBar)] r    (* :697-708 *)
  else if c =? 43 then oper SinglePlus [(43, DoublePlus); (61, PlusEqual)] r   (* :710-725 *)
  else if c =? 45 then                                                         (* :727-746 *)
    oper SingleMinus [(45, DoubleMinus); (61, MinusEqual); (62, Arrow)] r
  else if c =? 46 then                                                         (* :748-760 *)
    match r with
    | d :: e :: r' => if (d =? 46) && (e =? 46) then Tok Ellipsis r' false [] else Tok Dot r false []
    | _ => Tok Dot r false []
    end
  else if c =? 126 then Tok Tilde r false []                                 (* :762-772 *)
  else if c =? 94 then Tok Caret r false []
  else if c =? 33 then oper Bang [(61, NotEqual)] r                            (* :774-785 *)
  else if (c =? 39) || (c =? 34) then                                          (* :787-796 *)
    match readString c r with
    | Some rest => Tok StringLiteral rest false []
    | None => Skip [] false [(EOFInStringLiteral, [])]
    end
  else readIdentifierOrLiteral s.

(** Token.h:72-83, with [linearLoc], type and text. *)
Record token := mkToken { tokLoc : Z; tokType : ttype; tokText : list Z }.

(** Preprocessor.h:44-48 [StackItem]: the index of its include chain, the bytes before the position and
    those left. *)
Record item := mkItem { itChain : nat; itDone : list Z; itRest : list Z }.
(** PPVisitedFiles.h [LocationMapTraits::Item]. *)
Record locItem := mkLoc { locAt : Z; locChain : nat; locOffset : Z }.
(** An include chain: the contents of the file or macro expansion it stands for, whether it is an
    expansion, and its parent's index (PPVisitedFiles.h [IncludeChain]; contents by [getContents],
    Preprocessor.cpp:96-112). *)
Record chain := mkChain { chContents : list Z; chMacro : bool; chParent : nat }.

(** A macro: name, expansion, [takesArgs] (Preprocessor.cpp:12-24 [addPPDef]: a later definition of
    the same name replaces the earlier one). *)
Record macro := mkMacro { mName : list Z; mText : list Z; mArgs : bool }.
(** The Preprocessor (Preprocessor.h:40-69) with what it refers to in PPVisitedFiles. [ppStack] has the top first.
    [ppMap] has the location map's items in the order of insertion; [ppErrors] the errors reported, in order,
    each with its [linearLoc]. *)
Record pp := mkPP {
  ppStack : list item; ppEnd : Z; ppBol : bool; ppMacros : list macro;
  ppChains : list chain; ppMap : list locItem; ppErrors : list (etype * Z);
  ppArgs : list token }.

Fixpoint findMacro (name : list Z) (ms : list macro) : option macro :=
  match ms with
  | m :: r => if bytesEqb name (mName m) then Some m else findMacro name r
  | [] => None
  end.
Definition addPPDef (name expansion : list Z) (takesArgs : bool) (p : pp) : pp :=
  mkPP (ppStack p) (ppEnd p) (ppBol p) (mkMacro name expansion takesArgs :: ppMacros p)
       (ppChains p) (ppMap p) (ppErrors p) (ppArgs p).

(** Preprocessor.cpp:26-31 [getLinearLocation] of the position with [s] left in the top item. *)
Definition linearLoc (end_ : Z) (s : list Z) : Z := end_ - zlen s.

(** Preprocessor.cpp:218-281: the loop of [readMacroArguments]: [start] is the text from the current
    argument's start, [loc] its location, [level] [nestLevel]. Returns the arguments, the rest and the
    error. [fuel] bounds the rounds. *)
Fixpoint macroLoop (fuel : nat) (end_ : Z) (start : list Z) (loc : Z) (level : Z) (acc : list token) (s : list Z)
  : list token * list Z * option etype :=
  match fuel with
  | O => (acc, s, Some EOFInMacro)
  | S f =>
      match s with
      | [] => (acc, [], Some EOFInMacro)
      | c :: r =>
          if c =? 47 then
            match r with
            | [] => (acc, [], Some EOFInMacro)
            | d :: r' =>
                if d =? 47 then macroLoop f end_ start loc level acc (skipLine r')
                else if d =? 42 then
                  let '(found, rest) := skipComment r' in
                  if found then macroLoop f end_ start loc level acc rest else (acc, rest, Some EOFInComment)
                else macroLoop f end_ start loc level acc r
            end
          else if c =? 40 then macroLoop f end_ start loc (level + 1) acc r
          else if c =? 41 then
            if level - 1 <=? 0 then (acc ++ [mkToken loc MacroArgument (between start s)], r, None)
            else macroLoop f end_ start loc (level - 1) acc r
          else if (c =? 44) && (level =? 1) then
            macroLoop f end_ r (linearLoc end_ r) level (acc ++ [mkToken loc MacroArgument (between start s)]) r
          else macroLoop f end_ start loc level acc r
      end
  end.
(** Preprocessor.cpp:202-282 [readMacroArguments]. *)
Definition readMacroArguments (end_ : Z) (s : list Z) : list token * list Z * option etype :=
  let s1 := scanUsingMask s WhitespaceMask false in
  match s1 with
  | c :: r => if c =? 40 then macroLoop (S (length r)) end_ r (linearLoc end_ s1 + 1) 1 [] r else ([], s1, None)
  | [] => ([], s1, None)
  end.

(** What a call of [readToken] gives. *)
Inductive result :=
| Got (t : token) (p : pp)
| Fails
| OutOfFuel.

Definition addErrs (end_ : Z) (es : list (etype * list Z)) (l : list (etype * Z)) : list (etype * Z) :=
  l ++ map (fun e => (fst e, linearLoc end_ (snd e))) es.
(** The item after it was read up to [rest]. *)
Definition advance (it : item) (rest : list Z) : item :=
  mkItem (itChain it) (itDone it ++ between (itRest it) rest) rest.

(** Preprocessor.cpp:440-869 [readToken]: [fuel] bounds the rounds of the loop; [last]
    is what [token.linearLoc] holds from the rounds before (it stays in the EndOfFile token). The location map is a
    B-tree with items of equal [linearLoc] in the order of insertion (as C20 has it for trees in which
    equal keys are not split over nodes). *)
Fixpoint readTokenF (fuel : nat) (angles : bool) (last : Z) (p : pp) : result :=
  match fuel with
  | O => OutOfFuel
  | S f =>
      match ppStack p with
      | [] => Got (mkToken last EndOfFile []) p
      | it :: below =>
          match itRest it with
          | [] =>                                                                     (* :446-463 *)
              match below with
              | [] => readTokenF f angles last
                        (mkPP [] (ppEnd p) (ppBol p) (ppMacros p) (ppChains p) (ppMap p) (ppErrors p) (ppArgs p))
              | up :: _ =>
                  readTokenF f angles last
                    (mkPP below (ppEnd p + zlen (itRest up)) (ppBol p) (ppMacros p) (ppChains p)
                          (ppMap p ++ [mkLoc (ppEnd p) (itChain up) (zlen (itDone up))]) (ppErrors p) (ppArgs p))
              end
          | c :: r =>
              let s := c :: r in
              let loc := linearLoc (ppEnd p) s in
              match lexRound (ppBol p) angles c r with
              | Crash => Fails
              | Skip rest b e =>
                  readTokenF f angles loc
                    (mkPP (advance it rest :: below) (ppEnd p) b (ppMacros p) (ppChains p) (ppMap p)
                          (addErrs (ppEnd p) e (ppErrors p)) (ppArgs p))
              | Tok t rest b e =>
                  let text := between s rest in
                  let errs := addErrs (ppEnd p) e (ppErrors p) in
                  let plain args errs' :=
                    Got (mkToken loc t text)
                        (mkPP (advance it rest :: below) (ppEnd p) b (ppMacros p) (ppChains p) (ppMap p) errs' args) in
                  match t with
                  | Identifier =>                                                     (* :799-853 *)
                      match findMacro text (ppMacros p) with
                      | None => plain (ppArgs p) errs
                      | Some m =>
                          let expand args rest' errs' :=
                            let end' := loc + zlen (mText m) in
                            let ci := length (ppChains p) in
                            Got (mkToken loc Macro text)
                                (mkPP (mkItem ci [] (mText m) :: advance it rest' :: below) end' b (ppMacros p)
                                      (ppChains p ++ [mkChain (mText m) true (itChain it)])
                                      (ppMap p ++ [mkLoc loc ci 0]) errs' args) in
                          if mArgs m then
                            let '(args, rest', e') := readMacroArguments (ppEnd p) rest in
                            let errs' := addErrs (ppEnd p) (match e' with Some x => [(x, rest')] | None => [] end) errs in
                            match args with
                            | [] => plain [] errs'
                            | _ => expand args rest' errs'
                            end
                          else expand [] rest errs
                      end
                  | _ => plain (ppArgs p) errs
                  end
              end
          end
      end
  end.

(** Bytes left in the stack, and its height: bounds the rounds of one call. *)
Definition left (p : pp) : nat :=
  fold_right (fun it n => (S (length (itRest it)) + n)%nat) 0%nat (ppStack p).
Definition readToken (angles : bool) (p : pp) : result := readTokenF (S (left p)) angles (-1) p.

(** ParsePlywoodSrcFile.cpp:13-40: a preprocessor set up to read one file. *)
Definition start (macros : list macro) (file : list Z) : pp :=
  mkPP [mkItem 0 [] file] (zlen file) true macros [mkChain file false 0] [mkLoc 0 0 0] [] [].

(** Reading all tokens, [angles] being what the parser has set before each call. The last is EndOfFile. *)
Fixpoint readAll (fuel : nat) (angles : list bool) (p : pp) : option (list token * pp) :=
  match fuel with
  | O => None
  | S f =>
      match readToken (hd false angles) p with
      | Got t p' =>
          match tokType t with
          | EndOfFile => Some ([t], p')
          | _ => match readAll f (tl angles) p' with
                 | Some (ts, q) => Some (t :: ts, q)
                 | None => None
                 end
          end
      | _ => None
      end
  end.

(** ErrorFormatting.cpp [expandFileLocation]: the item with the greatest [linearLoc] not above the given one,
    the last of these inserted. *)
Fixpoint findLast (l : Z) (m : list locItem) (best : option locItem) : option locItem :=
  match m with
  | i :: r => findLast l r (if (locAt i <=? l) &&
                               match best with Some b => locAt b <=? locAt i | None => true end
                            then Some i else best)
  | [] => best
  end.
Definition expandLoc (m : list locItem) (l : Z) : option (nat * Z) :=
  match findLast l m None with
  | Some i => Some (locChain i, locOffset i + (l - locAt i))
  | None => None
  end.
