(* Model of web-markdown: ParseMarkdown.cpp, ConvertToHTML.cpp and Markdown.h in repos/plywood/src/web/markdown/web-markdown.
   None is a failed assertion, an access outside of an array, or an unsigned difference below zero; positions and
   indentations are nat (a line is much shorter than 2^32). *)
From Coq Require Import String.
From Verif Require Export Base StringViewModel NumTextModel EscapeModel Txt.
Local Open Scope list_scope.
Local Notation length := List.length.
Local Notation "'do' p <- m ; k" := (match m with Some p => k | None => None end) (at level 200, p pattern, m at level 100, k at level 200).

(** The longest prefix whose bytes satisfy [f], and the rest (scanUsingCallback, scanUsingMask, and the loops that count
    runs of a character). *)
Fixpoint span (f : Z -> bool) (l : list Z) : list Z * list Z :=
  match l with
  | [] => ([], [])
  | c :: r => if f c then let (a, b) := span f r in (c :: a, b) else ([], l)
  end.
Definition trim (l : list Z) : list Z := sv_trim isWhite true true l.

(* ================ inline elements ================ *)
(** Markdown.h:26-32: the inline nodes. *)
Inductive inl :=
| Text (t : list Z)
| Link (dest : list Z) (kids : list inl)
| CodeSpan (t : list Z)
| SoftBreak
| Emphasis (kids : list inl)
| Strong (kids : list inl).

(** ParseMarkdown.cpp:409-419 [InlineConsumer]: the bytes of the current line before and after position [i], and the lines
    after the current one. *)
Record ic := mkic { before : list Z; after : list Z; later : list (list Z) }.
Definition step (k : ic) (l r : list Z) : ic := mkic (before k ++ l) r (later k).

(** ParseMarkdown.cpp:421-439. *)
Inductive vres := SameLine | NextLine (k : ic) | End.
Definition validIndex (k : ic) : option vres :=
  match after k, later k with
  | _ :: _, _ => Some SameLine
  | [], [] => Some End
  | [], [] :: _ => None
  | [], l :: ls => Some (NextLine (mkic [] l ls))
  end.

(** ParseMarkdown.cpp:459-465. *)
Definition spanText (result : list Z) : option (list Z) :=
  do c <- hd_error result;
  do d <- sv_back result (-1);
  Some (if (c =? 32) && (d =? 32) && (0 <=? sv_findByte result (fun c => negb (c =? 32)) 0)
        then firstn (length result - 2) (skipn 1 result) else result).
(** ParseMarkdown.cpp:442-472 [getCodeSpan]; [out] is what was written to mout. None for the inner option: the empty string is
    returned. Every turn consumes a byte. *)
Fixpoint getCodeSpan (fuel : nat) (k : ic) (endTickCount : nat) (out : list Z) : option (option (list Z * ic)) :=
  match fuel with
  | O => None
  | S fuel =>
    do res <- validIndex k;
    match res with
    | End => Some None
    | _ =>
      let (k, out) := match res with NextLine k => (k, out ++ [32]) | _ => (k, out) end in
      match after k with
      | [] => None
      | c :: r =>
        if c =? 96 then
          let (ticks, r) := span (fun c => c =? 96) r in
          let k := step k (c :: ticks) r in
          if (length (c :: ticks) =? endTickCount)%nat then
            do t <- spanText out; Some (Some (t, k))
          else getCodeSpan fuel k endTickCount (out ++ c :: ticks)
        else getCodeSpan fuel (step k [c] r) endTickCount (out ++ [c])
      end
    end
  end.

(** ParseMarkdown.cpp:475-478. Bytes from 128 on are negative as char. *)
Definition isAscPunc (c : Z) : bool :=
  ((0x21 <=? c) && (c <=? 0x2f)) || ((0x3a <=? c) && (c <=? 0x40)) || ((0x5b <=? c) && (c <=? 0x60)) ||
  ((0x7b <=? c) && (c <=? 0x7e)).

(** ParseMarkdown.cpp:480-500 [Delimiter]: raw text, a run of stars (or underscores) with its flanking, a bracket, an element. *)
Inductive delim :=
| RawText (t : list Z)
| Run (stars left right : bool) (t : list Z)
| OpenLink (t : list Z)
| InlineElem (e : inl).
(** ParseMarkdown.cpp:501-517 [makeRun], for a run between [pre] and [post] in its line. *)
Definition makeRun (stars : bool) (pre t post : list Z) : delim :=
  let precededByWhite := match rev pre with [] => true | c :: _ => isWhite c end in
  let followedByWhite := match post with [] => true | c :: _ => isWhite c end in
  let precededByPunc := match rev pre with [] => false | c :: _ => isAscPunc c end in
  let followedByPunc := match post with [] => false | c :: _ => isAscPunc c end in
  Run stars
    (negb followedByWhite && (negb followedByPunc || (followedByPunc && (precededByWhite || precededByPunc))))
    (negb precededByWhite && (negb precededByPunc || (precededByPunc && (followedByWhite || followedByPunc))))
    t.

(** ParseMarkdown.cpp:524-533 and 578-592: whitespace is skipped, across lines; None for the inner option: the end. *)
Fixpoint skipSpace (fuel : nat) (k : ic) : option (option ic) :=
  match fuel with
  | O => None
  | S fuel =>
    do res <- validIndex k;
    match res with
    | End => Some None
    | _ =>
      let k := match res with NextLine k => k | _ => k end in
      match after k with
      | [] => None
      | c :: r => if isWhite c then skipSpace fuel (step k [c] r) else Some (Some k)
      end
    end
  end.
(** ParseMarkdown.cpp:535-572: what was written, the nesting of parentheses, and where the loop stopped. The backslash is
    skipped, the character after it is written and not skipped. *)
Fixpoint destLoop (fuel : nat) (k : ic) (nest : nat) (out : list Z) : option (list Z * nat * ic) :=
  match fuel with
  | O => None
  | S fuel =>
    do res <- validIndex k;
    match res with
    | End => Some (out, nest, k)
    | NextLine k => Some (out, nest, k)
    | SameLine =>
      match after k with
      | [] => None
      | c :: r =>
        if c =? 92 then
          let k := step k [c] r in
          do res <- validIndex k;
          match res with
          | End => Some (out ++ [92], nest, k)
          | NextLine k => Some (out ++ [92], nest, k)
          | SameLine =>
            do d <- hd_error (after k);
            destLoop fuel k nest (out ++ (if isAscPunc d then [] else [92]) ++ [d])
          end
        else if c =? 40 then destLoop fuel (step k [c] r) (S nest) (out ++ [c])
        else if c =? 41 then
          match nest with
          | S nest => destLoop fuel (step k [c] r) nest (out ++ [c])
          | O => Some (out, nest, k)
          end
        else if c <=? 32 then Some (out, nest, k)
        else destLoop fuel (step k [c] r) nest (out ++ [c])
      end
    end
  end.
(** The number of bytes and lines left. *)
Definition left_ (k : ic) : nat := length (after k) + list_sum (map (fun l => S (length l)) (later k)).
(** ParseMarkdown.cpp:520-593 [parseLinkDestination]; None for the inner option: it returns false. *)
Definition parseLinkDestination (k : ic) : option (option (list Z * ic)) :=
  do r <- skipSpace (S (left_ k)) k;
  match r with
  | None => Some None
  | Some k =>
    do (dest, nest, k) <- destLoop (S (left_ k)) k 0 [];
    match nest with
    | S _ => Some None
    | O =>
      do r <- skipSpace (S (left_ k)) k;
      match r with
      | None => Some None
      | Some k =>
        match after k with
        | c :: r => if c =? 41 then Some (Some (dest, step k [c] r)) else Some None
        | [] => None
        end
      end
    end
  end.

(** ParseMarkdown.cpp:595-608 [convertToInlineElems]. *)
Fixpoint addText (els : list inl) (t : list Z) : list inl :=
  match els with
  | [] => [Text t]
  | [Text u] => [Text (u ++ t)]
  | e :: els => e :: addText els t
  end.
Definition convert1 (els : list inl) (d : delim) : list inl :=
  match d with
  | InlineElem e => els ++ [e]
  | RawText t | OpenLink t | Run _ _ _ t => addText els t
  end.
Definition convertToInlineElems (ds : list delim) : list inl := fold_left convert1 ds [].

(** ParseMarkdown.cpp:615-617: the last opener of this kind before position [n], not before [lo]. *)
Fixpoint findOpener (ds : list delim) (stars : bool) (lo n : nat) : option nat :=
  match n with
  | O => None
  | S j =>
    if (j <? lo)%nat then None else
    match nth_error ds j with
    | Some (Run s true _ _) => if Bool.eqb s stars then Some j else findOpener ds stars lo j
    | _ => findOpener ds stars lo j
    end
  end.
Definition runText (d : delim) : option (list Z) := match d with Run _ _ _ t => Some t | _ => None end.
(** text.numBytes -= n *)
Definition shorten (n : nat) (d : delim) : delim :=
  match d with Run s l r t => Run s l r (firstn (length t - n) t) | d => d end.
(** ParseMarkdown.cpp:613-653: the loop. Every turn goes a position forward or removes characters from two runs. *)
Fixpoint emphLoop (fuel : nat) (ds : list delim) (pos starOpener underscoreOpener : nat) : option (list delim) :=
  match fuel with
  | O => None
  | S fuel =>
    match nth_error ds pos with
    | None => Some ds
    | Some (Run stars l true t) =>
      match findOpener ds stars (if stars then starOpener else underscoreOpener) pos with
      | None =>
        if stars then emphLoop fuel ds (S pos) (S pos) underscoreOpener
        else emphLoop fuel ds (S pos) starOpener (S pos)
      | Some j =>
        do o <- nth_error ds j;
        do u <- runText o;
        let spanLength := Nat.min (length u) (length t) in
        if (spanLength =? 0)%nat then None else
        let kids := convertToInlineElems (firstn (pos - j - 1) (skipn (S j) ds)) in
        let elem := if (2 <=? spanLength)%nat then Strong kids else Emphasis kids in
        let n := Nat.min spanLength 2 in
        let o' := if (length u - n =? 0)%nat then [] else [shorten n o] in
        let c' := if (length t - n =? 0)%nat then [] else [shorten n (Run stars l true t)] in
        let ds := firstn j ds ++ o' ++ InlineElem elem :: c' ++ skipn (S pos) ds in
        let p := S (j + length o') in
        let starOpener := Nat.min starOpener p in
        emphLoop fuel ds p starOpener (Nat.min starOpener p)
      end
    | Some _ => emphLoop fuel ds (S pos) starOpener underscoreOpener
    end
  end.
Definition weight (d : delim) : nat := match d with Run _ _ _ t => 1 + 2 * length t | _ => 1 end.
Definition emphFuel (ds : list delim) : nat := S (list_sum (map weight ds)).
(** ParseMarkdown.cpp:610-657 [processEmphasis]: the elements, and the delimiters that stay in the array. *)
Definition processEmphasis (ds : list delim) (bottomPos : nat) : option (list inl * list delim) :=
  do ds <- emphLoop (emphFuel ds) ds bottomPos bottomPos bottomPos;
  Some (convertToInlineElems (skipn bottomPos ds), firstn bottomPos ds).

(** rfind for the last bracket (ParseMarkdown.cpp:735-737). *)
Fixpoint rfindOpen (ds : list delim) (i : nat) (found : option nat) : option nat :=
  match ds with
  | [] => found
  | d :: ds => rfindOpen ds (S i) (match d with OpenLink _ => Some i | _ => found end)
  end.

(** ParseMarkdown.cpp:663-669 [flushText]. *)
Definition flushText (k : ic) (flushed : nat) (ds : list delim) : nat * list delim :=
  if (flushed <? length (before k))%nat then (length (before k), ds ++ [RawText (skipn flushed (before k))])
  else (flushed, ds).

(** ParseMarkdown.cpp:686-761: one turn of the loop of [expandInlineElements], at a byte; [turn] is the rest of the loop. *)
Definition expandStep (turn : ic -> nat -> list delim -> option (list inl)) (k : ic) (flushed : nat) (ds : list delim) : option (list inl) :=
  match after k with
  | [] => None
  | c :: r =>
    if c =? 96 then
      let (flushed, ds) := flushText k flushed ds in
      let (ticks, r) := span (fun c => c =? 96) r in
      let k := step k (c :: ticks) r in
      do res <- getCodeSpan (S (left_ k)) k (length (c :: ticks)) [];
      match res with
      | Some (t, k2) => turn k2 (length (before k2)) (ds ++ [InlineElem (CodeSpan t)])
      | None => let (flushed, ds) := flushText k flushed ds in turn k flushed ds
      end
    else if (c =? 42) || (c =? 95) then
      let (_, ds) := flushText k flushed ds in
      let (run, r) := span (fun d => d =? c) r in
      let ds := ds ++ [makeRun (c =? 42) (before k) (c :: run) r] in
      let k := step k (c :: run) r in
      turn k (length (before k)) ds
    else if c =? 91 then
      let (_, ds) := flushText k flushed ds in
      let k := step k [c] r in
      turn k (length (before k)) (ds ++ [OpenLink [c]])
    else if c =? 93 then
      let (flushed, ds) := flushText k flushed ds in
      let k1 := step k [c] r in
      match r with
      | d :: r =>
        if d =? 40 then
          let k := step k1 [d] r in
          match rfindOpen ds 0 None with
          | None => turn k flushed ds
          | Some openLink =>
            do res <- parseLinkDestination k;
            match res with
            | None => turn k flushed ds
            | Some (dest, k2) =>
              do (kids, ds) <- processEmphasis ds (S openLink);
              turn k2 (length (before k2)) (firstn openLink ds ++ [InlineElem (Link dest kids)])
            end
          end
        else turn k1 flushed ds
      | [] => turn k1 flushed ds
      end
    else turn (step k [c] r) flushed ds
  end.
(** ParseMarkdown.cpp:670-763: the loop of [expandInlineElements]. Every turn consumes a byte or more. *)
Fixpoint expandLoop (fuel : nat) (k : ic) (flushed : nat) (ds : list delim) : option (list inl) :=
  match fuel with
  | O => None
  | S fuel =>
    match after k with
    | [] =>
      let (_, ds) := flushText k flushed ds in
      match later k with
      | [] => do (els, _) <- processEmphasis ds 0; Some els
      | l :: ls => expandStep (expandLoop fuel) (mkic [] l ls) 0%nat (ds ++ [InlineElem SoftBreak])
      end
    | _ => expandStep (expandLoop fuel) k flushed ds
    end
  end.
(** ParseMarkdown.cpp:659-764 [expandInlineElements], with the assertions of 415-419. *)
Definition expandInlineElements (rawLines : list (list Z)) : option (list inl) :=
  match rawLines with
  | [] => None
  | [] :: _ => None
  | l :: ls => let k := mkic [] l ls in expandLoop (S (left_ k)) k 0 []
  end.

(* ================ blocks ================ *)
(** Markdown.h:14-25. *)
Inductive ntype := Document | List_ | ListItem | BlockQuote | Heading | Paragraph | CodeBlock.
Definition ntype_eqb (a b : ntype) : bool :=
  match a, b with
  | Document, Document | List_, List_ | ListItem, ListItem | BlockQuote, BlockQuote | Heading, Heading
  | Paragraph, Paragraph | CodeBlock, CodeBlock => true
  | _, _ => false
  end.
(** Markdown.h:34-44: a block. Nodes are numbered in the order in which they are made; the document is number 0. *)
Record node := mkn { type : ntype; parent : nat; indentOrLevel : nat; listStartNumber : Z; listPunc : Z;
                     isLooseIfContinued : bool; isLoose : bool; kids : list nat; rawLines : list (list Z) }.
(** Markdown.h:46-50. *)
Definition newNode (p : nat) (t : ntype) : node := mkn t p 0 0 45 false false [] [].
(** Markdown.h:78-80. *)
Definition isOrderedList (n : node) : bool := match type n with List_ => 0 <=? listStartNumber n | _ => false end.

Definition addKid (i : nat) (n : node) : node :=
  mkn (type n) (parent n) (indentOrLevel n) (listStartNumber n) (listPunc n) (isLooseIfContinued n) (isLoose n) (kids n ++ [i]) (rawLines n).
Definition addRaw (ls : list (list Z)) (n : node) : node :=
  mkn (type n) (parent n) (indentOrLevel n) (listStartNumber n) (listPunc n) (isLooseIfContinued n) (isLoose n) (kids n) (rawLines n ++ ls).
Definition setLoose (lic l : bool) (n : node) : node :=
  mkn (type n) (parent n) (indentOrLevel n) (listStartNumber n) (listPunc n) lic l (kids n) (rawLines n).
Fixpoint upd (i : nat) (f : node -> node) (ns : list node) : list node :=
  match ns, i with
  | [], _ => []
  | n :: ns, O => f n :: ns
  | n :: ns, S i => n :: upd i f ns
  end.
(** new Node: appended to the children of its parent. *)
Definition make (ns : list node) (n : node) : nat * list node := (length ns, upd (parent n) (addKid (length ns)) ns ++ [n]).

(** ParseMarkdown.cpp:14-45 [LineConsumer]. *)
Record lc := mklc { rest : list Z; outerIndent : nat; indent : nat }.
(** ParseMarkdown.cpp:19-33. *)
Definition tabStop (n : nat) : nat := n + (4 - n mod 4).
Definition consumeSpaceOrTab (k : lc) : option lc :=
  match rest k with
  | c :: r =>
    if c =? 32 then Some (mklc r (outerIndent k) (S (indent k)))
    else if c =? 9 then Some (mklc r (outerIndent k) (tabStop (indent k)))
    else None
  | [] => None
  end.
Fixpoint skipBlanks (r : list Z) (o n : nat) : lc :=
  match r with
  | c :: r' => if c =? 32 then skipBlanks r' o (S n) else if c =? 9 then skipBlanks r' o (tabStop n) else mklc r o n
  | [] => mklc r o n
  end.
(** while (lc.consumeSpaceOrTab()) {} *)
Definition consumeAll (k : lc) : lc := skipBlanks (rest k) (outerIndent k) (indent k).
(** ParseMarkdown.cpp:35-37. *)
Definition innerIndent (k : lc) : option nat := if (outerIndent k <=? indent k)%nat then Some (indent k - outerIndent k)%nat else None.
Definition setOuter (k : lc) (o : nat) : lc := mklc (rest k) o (indent k).

(** ParseMarkdown.cpp:50-72 [extractCodeLine], from column [ind] on. *)
Fixpoint extractFrom (line : list Z) (ind fromIndent : nat) : option (list Z) :=
  match line with
  | [] => None
  | c :: r =>
    if (ind =? fromIndent)%nat then Some line
    else if 128 <=? c then None
    else if (c <? 32) && negb (c =? 9) then None
    else if c =? 9 then
      if (fromIndent <? tabStop ind)%nat then Some (repeat 32 (tabStop ind - fromIndent) ++ r)
      else extractFrom r (tabStop ind) fromIndent
    else extractFrom r (S ind) fromIndent
  end.
Definition extractCodeLine (line : list Z) (fromIndent : nat) : option (list Z) := extractFrom line 0 fromIndent.

(** ParseMarkdown.cpp:74-90 [Parser]. *)
Record parser := mkp { nodes : list node; blockNodes : list nat; leafNode : option nat; numBlank : nat; checkCont : bool }.
Definition typeOf (ns : list node) (i : nat) : option ntype := option_map type (nth_error ns i).
Definition isLeaf (p : parser) (t : ntype) : bool :=
  match leafNode p with
  | None => false
  | Some i => match typeOf (nodes p) i with Some t' => ntype_eqb t' t | None => false end
  end.

(** '>' and the optional space after it (ParseMarkdown.cpp:109-116 and 246-251). *)
Definition eatQuote (r : list Z) (ind : nat) : lc :=
  let k := mklc r (S ind) (S ind) in
  match consumeSpaceOrTab k with Some k => setOuter k (S (outerIndent k)) | None => k end.

(** ParseMarkdown.cpp:98-131: how many of the blocks on the stack the line continues. *)
Fixpoint matchLoop (ns : list node) (stack : list nat) (keep : nat) (k : lc) : option (nat * lc) :=
  let k := consumeAll k in
  match stack with
  | [] => Some (keep, k)
  | i :: stack =>
    do n <- nth_error ns i;
    match type n with
    | BlockQuote =>
      match rest k with
      | c :: r =>
        if c =? 62 then
          do inner <- innerIndent k;
          if (inner <=? 3)%nat then matchLoop ns stack (S keep) (eatQuote r (indent k)) else Some (keep, k)
        else Some (keep, k)
      | [] => Some (keep, k)
      end
    | ListItem =>
      do inner <- innerIndent k;
      if (indentOrLevel n <=? inner)%nat then matchLoop ns stack (S keep) (setOuter k (outerIndent k + indentOrLevel n))
      else Some (keep, k)
    | _ => None
    end
  end.

(** ParseMarkdown.cpp:141-144: list items are kept. *)
Fixpoint keepItems (ns : list node) (stack : list nat) (keep : nat) : option nat :=
  match stack with
  | [] => Some keep
  | i :: stack =>
    do t <- typeOf ns i;
    match t with ListItem => keepItems ns stack (S keep) | BlockQuote => Some keep | _ => None end
  end.
(** blockNodes.resize(keep), if that makes it shorter (148-150 and 186-190). *)
Definition cutStack (p : parser) (keep : nat) : parser :=
  if (keep <? length (blockNodes p))%nat then mkp (nodes p) (firstn keep (blockNodes p)) None 0 (checkCont p) else p.
(** ParseMarkdown.cpp:172-180: all the lists on the stack. *)
Fixpoint markLists (f : node -> option node) (ns : list node) (stack : list nat) : option (list node * bool) :=
  match stack with
  | [] => Some (ns, false)
  | i :: stack =>
    do n <- nth_error ns i;
    match type n with
    | ListItem =>
      do l <- nth_error ns (parent n);
      match type l with
      | List_ =>
        match f l with
        | Some l' => do (ns, _) <- markLists f (upd (parent n) (fun _ => l') ns) stack; Some (ns, true)
        | None => markLists f ns stack
        end
      | _ => None
      end
    | _ => markLists f ns stack
    end
  end.
Definition mayBeLoose (l : node) : option node := if isLoose l then None else Some (setLoose true (isLoose l) l).
Definition nowLoose (l : node) : option node := if isLooseIfContinued l then Some (setLoose false true l) else None.

(** The blank lines that were counted, then a line of code (ParseMarkdown.cpp:160-165 and 325-330). *)
Definition addCode (p : parser) (i : nat) (line : list Z) (fromIndent : nat) : option parser :=
  do code <- extractCodeLine line fromIndent;
  Some (mkp (upd i (addRaw (repeat [10] (numBlank p) ++ [code])) (nodes p)) (blockNodes p) (leafNode p) 0 (checkCont p)).

(** ParseMarkdown.cpp:97-192 [matchExistingIndentation]: the consumer if there is more text on the line. *)
Definition matchExistingIndentation (p : parser) (line : list Z) : option (parser * option lc) :=
  do (keep, k) <- matchLoop (nodes p) (skipn 1 (blockNodes p)) 1 (mklc line 0 0);
  match trim (rest k) with
  | [] =>
    do p <- (if isLeaf p Paragraph then
               if (numBlank p =? 0)%nat then Some (mkp (nodes p) (blockNodes p) None (numBlank p) (checkCont p)) else None
             else Some p);
    do keep <- keepItems (nodes p) (skipn keep (blockNodes p)) keep;
    let p := cutStack p keep in
    match leafNode p with
    | Some i =>
      if isLeaf p CodeBlock then
        do inner <- innerIndent k;
        if (4 <? inner)%nat then do p <- addCode p i line (outerIndent k + 4); Some (p, None)
        else Some (mkp (nodes p) (blockNodes p) (leafNode p) (S (numBlank p)) (checkCont p), None)
      else None
    | None =>
      do (ns, any) <- markLists mayBeLoose (nodes p) (blockNodes p);
      Some (mkp ns (blockNodes p) None (numBlank p) (checkCont p || any), None)
    end
  | _ :: _ => Some (cutStack p keep, Some k)
  end.

(** ParseMarkdown.cpp:209-238 [gotListMarker]; [markerNumber] is -1 for a list without numbers. *)
Definition gotListMarker (p : parser) (level : nat) (markerNumber punc : Z) : option parser :=
  do top <- hd_error (rev (blockNodes p));
  do ctr <- nth_error (nodes p) top;
  match type ctr with
  | Heading | Paragraph | CodeBlock => None
  | _ =>
    do (listNode, parentCtr) <-
      match rev (kids ctr) with
      | last :: _ =>
        do l <- nth_error (nodes p) last;
        Some (if ntype_eqb (type l) List_ && Bool.eqb (isOrderedList l) (0 <=? markerNumber) && (listPunc l =? punc)
              then Some last else None, top)
      | [] =>
        match type ctr with
        | ListItem => do l <- typeOf (nodes p) (parent ctr); match l with List_ => Some (None, parent ctr) | _ => None end
        | _ => Some (None, top)
        end
      end;
    let (listNode, ns) :=
      match listNode with
      | Some l => (l, nodes p)
      | None => make (nodes p) (mkn List_ parentCtr 0 markerNumber punc false false [] [])
      end in
    let (item, ns) := make ns (mkn ListItem listNode level 0 45 false false [] []) in
    Some (mkp ns (blockNodes p ++ [item]) None 0 (checkCont p))
  end.

(** ParseMarkdown.cpp:256-261 and 286-291: the space after a list marker; None: not a marker. *)
Definition afterMarker (p : parser) (r : list Z) (o ind : nat) : option lc :=
  match consumeSpaceOrTab (mklc r o ind) with
  | None => None
  | Some k =>
    match leafNode p, trim (rest k) with
    | Some _, [] => None
    | _, _ => Some (setOuter k (S ind))
    end
  end.
(** ParseMarkdown.cpp:240-299: one marker. None for the inner option: not a marker. *)
Definition oneMarker (p : parser) (k : lc) : option (option (parser * lc)) :=
  match rest k with
  | [] => None
  | c :: r =>
    if isWhite c then None
    else if c =? 62 then
      do top <- hd_error (rev (blockNodes p));
      let (q, ns) := make (nodes p) (newNode top BlockQuote) in
      Some (Some (mkp ns (blockNodes p ++ [q]) (leafNode p) (numBlank p) (checkCont p), eatQuote r (indent k)))
    else if (c =? 42) || (c =? 45) || (c =? 43) then
      match afterMarker p r (outerIndent k) (S (indent k)) with
      | None => Some None
      | Some k => do p <- gotListMarker p (outerIndent k) (-1) c; Some (Some (p, k))
      end
    else if isDecimalDigit c then
      do num <- parse_u64 (c :: r) 10;
      let markerLength := (length (c :: r) - length (prest num))%nat in
      if (match leafNode p with Some _ => negb (pval num =? 1) | None => false end) || (9 <? markerLength)%nat then Some None else
      match prest num with
      | punc :: ((_ :: _) as r) =>
        if (punc =? 46) || (punc =? 41) then
          match afterMarker p r (outerIndent k) (S (indent k + markerLength)) with
          | None => Some None
          | Some k => do p <- gotListMarker p (outerIndent k) (pval num) punc; Some (Some (p, k))
          end
        else Some None
      | _ => Some None
      end
    else Some None
  end.
(** ParseMarkdown.cpp:201-310: the loop of [parseNewMarkers]. Every marker consumes a byte. *)
Fixpoint parseNewMarkers (fuel : nat) (p : parser) (k : lc) : option (parser * lc) :=
  match fuel with
  | O => None
  | S fuel =>
    match rest k with
    | [] => Some (p, k)
    | _ :: _ =>
      do inner <- innerIndent k;
      if (4 <=? inner)%nat then Some (p, k) else
      do m <- oneMarker p k;
      match m with
      | Some (p, k) => parseNewMarkers fuel p (consumeAll k)
      | None => Some (p, k)
      end
    end
  end.

(** ParseMarkdown.cpp:352-370: the level and the rest of the line of a heading. *)
Definition heading (r : list Z) : option (nat * list Z) :=
  let (pounds, r1) := span (fun c => c =? 35) r in
  let (space, r2) := span isWhite r1 in
  if (length pounds <=? 6)%nat && (negb (length space =? 0)%nat || (length r2 =? 0)%nat) then Some (length pounds, r2) else None.

(** ParseMarkdown.cpp:313-382 [parseParagraphText]. *)
Definition parseParagraphText (p : parser) (line : list Z) (k : lc) : option parser :=
  let remaining := trim (rest k) in
  let hasPara := isLeaf p Paragraph in
  do inner <- innerIndent k;
  do top <- hd_error (rev (blockNodes p));
  if negb hasPara && (4 <=? inner)%nat then
    do p <-
      match remaining, leafNode p with
      | _ :: _, None =>
        if (numBlank p =? 0)%nat then
          let (i, ns) := make (nodes p) (newNode top CodeBlock) in
          Some (mkp ns (blockNodes p) (Some i) (numBlank p) (checkCont p))
        else None
      | _, _ => Some p
      end;
    match leafNode p with
    | Some i => if isLeaf p CodeBlock then addCode p i line (outerIndent k + 4) else None
    | None => Some p
    end
  else
    match remaining with
    | [] => match leafNode p with None => Some p | Some _ => None end
    | _ :: _ =>
      do p <-
        (if checkCont p then
           match leafNode p with
           | Some _ => None
           | None => do (ns, _) <- markLists nowLoose (nodes p) (blockNodes p); Some (mkp ns (blockNodes p) None (numBlank p) false)
           end
         else Some p);
      let para :=
        if hasPara then
          do i <- leafNode p;
          Some (mkp (upd i (addRaw [remaining]) (nodes p)) (blockNodes p) (leafNode p) (numBlank p) (checkCont p))
        else
          let (i, ns) := make (nodes p) (addRaw [remaining] (newNode top Paragraph)) in
          Some (mkp ns (blockNodes p) (Some i) 0 (checkCont p)) in
      match rest k with
      | [] => None
      | c :: _ =>
        if (c =? 35) && (inner <=? 3)%nat then
          match heading (rest k) with
          | Some (level, r) =>
            let raw := match trim r with [] => [] | t => [t] end in
            let (i, ns) := make (nodes p) (mkn Heading top level 0 45 false false [] raw) in
            Some (mkp ns (blockNodes p) None (numBlank p) (checkCont p))
          | None => para
          end
        else para
      end
    end.

(** readView<fmt::Line>: the bytes up to the next newline, with it. *)
Fixpoint readLine (ins : list Z) : list Z * list Z :=
  match ins with
  | [] => ([], [])
  | c :: ins => if c =? 10 then ([c], ins) else let (l, r) := readLine ins in (c :: l, r)
  end.
(** ParseMarkdown.cpp:393-400: one line. *)
Definition parseLine (p : parser) (line : list Z) : option parser :=
  do (p, k) <- matchExistingIndentation p line;
  match k with
  | None => Some p
  | Some k =>
    do (p, k) <- parseNewMarkers (S (length (rest k))) p k;
    parseParagraphText p line k
  end.
Fixpoint parseLines (fuel : nat) (p : parser) (src : list Z) : option parser :=
  match fuel with
  | O => None
  | S fuel =>
    match readLine src with
    | ([], _) => Some p
    | (line, src) => do p <- parseLine p line; parseLines fuel p src
    end
  end.
Definition parser0 : parser := mkp [newNode 0 Document] [0%nat] None 0 false.
(** ParseMarkdown.cpp:384-403 [Parser::parse]. *)
Definition parseBlocks (src : list Z) : option (list node) :=
  do p <- parseLines (S (length src)) parser0 src; Some (nodes p).

(** The tree of the nodes, with the inline elements of headings and paragraphs. The id of a heading is set by the caller
    (Markdown.h:44); the parser leaves it empty. *)
Inductive block :=
| BList (start : Z) (loose : bool) (l : list block)
| BItem (l : list block)
| BQuote (l : list block)
| BHeading (level : nat) (id : list Z) (l : list inl)
| BPara (l : list inl)
| BCode (lines : list (list Z)).
Fixpoint seqOpt {A} (l : list (option A)) : option (list A) :=
  match l with
  | [] => Some []
  | x :: l => do x <- x; do l <- seqOpt l; Some (x :: l)
  end.
(** ParseMarkdown.cpp:766-779 [doInlines], which makes the tree at the same time; children are made after their parents, so
    the number of nodes is enough fuel. *)
Fixpoint doInlines (fuel : nat) (ns : list node) (i : nat) : option block :=
  match fuel with
  | O => None
  | S fuel =>
    do n <- nth_error ns i;
    match type n with
    | Document => None
    | List_ => do l <- seqOpt (map (doInlines fuel ns) (kids n)); Some (BList (listStartNumber n) (isLoose n) l)
    | ListItem => do l <- seqOpt (map (doInlines fuel ns) (kids n)); Some (BItem l)
    | BlockQuote => do l <- seqOpt (map (doInlines fuel ns) (kids n)); Some (BQuote l)
    | Heading => do l <- expandInlineElements (rawLines n); Some (BHeading (indentOrLevel n) [] l)
    | Paragraph => do l <- expandInlineElements (rawLines n); Some (BPara l)
    | CodeBlock => Some (BCode (rawLines n))
    end
  end.
Definition document (ns : list node) : option (list block) :=
  do n <- nth_error ns 0%nat; seqOpt (map (doInlines (length ns) ns) (kids n)).
(** ParseMarkdown.cpp:784-792 [parse]: the children of the document. *)
Definition parse (src : list Z) : option (list block) := do ns <- parseBlocks src; document ns.

(* ================ HTML ================ *)
Definition esc (t : list Z) : list Z := xmlEscape t 0.
(** ConvertToHTML.cpp:105-146: inline elements. *)
Fixpoint inlHTML (e : inl) : list Z :=
  match e with
  | Text t => esc t
  | Link dest l => txt "<a href=""" ++ esc dest ++ txt """>" ++ flat_map inlHTML l ++ txt "</a>"
  | CodeSpan t => txt "<code>" ++ esc t ++ txt "</code>"
  | SoftBreak => [10]
  | Emphasis l => txt "<em>" ++ flat_map inlHTML l ++ txt "</em>"
  | Strong l => txt "<strong>" ++ flat_map inlHTML l ++ txt "</strong>"
  end.
Definition isPara (b : block) : bool := match b with BPara _ => true | _ => false end.
(** ConvertToHTML.cpp:12-104: blocks. [tight]: the parent is a list that is not loose, or an item of such a list. *)
Fixpoint blockHTML (childAnchors tight : bool) (b : block) : option (list Z) :=
  match b with
  | BList start loose l =>
    do body <- seqOpt (map (blockHTML childAnchors (negb loose)) l);
    do num <- print_s64 start 10 false;
    Some ((if 0 <=? start then
             if negb (start =? 1) then txt "<ol start=""" ++ num ++ txt """>" ++ [10] else txt "<ol>" ++ [10]
           else txt "<ul>" ++ [10]) ++
          concat body ++ (if 0 <=? start then txt "</ol>" ++ [10] else txt "</ul>" ++ [10]))
  | BItem l =>
    do first <- (if tight then do c <- hd_error l; Some (isPara c) else Some false);
    do body <- (fix items l :=
                  match l with
                  | [] => Some []
                  | b :: l =>
                    do h <- blockHTML childAnchors tight b;
                    do t <- items l;
                    Some (h ++ (if tight && isPara b && negb (length l =? 0)%nat then [10] else []) ++ t)
                  end) l;
    Some (txt "<li>" ++ (if first then [] else [10]) ++ body ++ txt "</li>" ++ [10])
  | BQuote l =>
    do body <- seqOpt (map (blockHTML childAnchors false) l);
    Some (txt "<blockquote>" ++ [10] ++ concat body ++ txt "</blockquote>" ++ [10])
  | BHeading level id l =>
    do num <- print_u64 (Z.of_nat level) 10 false;
    Some (txt "<h" ++ num ++
          (match id with
           | [] => txt ">"
           | _ => if childAnchors then txt " class=""anchored""><span class=""anchor"" id=""" ++ esc id ++ txt """>&nbsp;</span>"
                  else txt " id=""" ++ esc id ++ txt """>"
           end) ++
          flat_map inlHTML l ++ txt "</h" ++ num ++ txt ">" ++ [10])
  | BPara l => Some (if tight then flat_map inlHTML l else txt "<p>" ++ flat_map inlHTML l ++ txt "</p>" ++ [10])
  | BCode lines => Some (txt "<pre><code>" ++ flat_map esc lines ++ txt "</code></pre>" ++ [10])
  end.
(** ConvertToHTML.cpp:14-19: the document. *)
Definition convertToHTML (childAnchors : bool) (doc : list block) : option (list Z) :=
  do l <- seqOpt (map (blockHTML childAnchors false) doc); Some (concat l).
