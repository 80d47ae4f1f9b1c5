(* What Markdown texts and pages mean, independently of the parser and of the converter. *)
From Coq Require Import String.
From Verif Require Export MarkdownModel EscapeSpec NumTextSpec.
Local Open Scope list_scope.
Local Notation length := List.length.

(* ---- inline elements ---- *)
Definition white (c : Z) : Prop := c = 32 \/ c = 9 \/ c = 13 \/ c = 10.
(** The text neither begins nor ends with white space, nor is it empty. *)
Definition hugs (s : list Z) : Prop :=
  exists c d, hd_error s = Some c /\ hd_error (rev s) = Some d /\ ~ white c /\ ~ white d.

(** Between [n] backticks: no run of exactly [n] backticks. *)
Definition closedBy (n : nat) (body : list Z) : Prop :=
  body <> [] /\ hd_error body <> Some 96 /\ hd_error (rev body) <> Some 96 /\
  forall a b, body = a ++ repeat 96 n ++ b -> hd_error (rev a) = Some 96 \/ hd_error b = Some 96.
(** The text of a code span: line ends are spaces; one space is removed at both ends if there are some and the text does not
    consist of spaces only. *)
Inductive codeText (body : list Z) : list Z -> Prop :=
| code_strip t : map (fun c => if c =? 10 then 32 else c) body = [32] ++ t ++ [32] -> ~ Forall (fun c => c = 32) t -> codeText body t
| code_same t : t = map (fun c => if c =? 10 then 32 else c) body ->
    (forall u, t = [32] ++ u ++ [32] -> Forall (fun c => c = 32) u) -> codeText body t.

(** Parentheses match. *)
Fixpoint balanced (depth : nat) (l : list Z) : Prop :=
  match l with
  | [] => depth = 0%nat
  | c :: l =>
    if c =? 40 then balanced (S depth) l
    else if c =? 41 then match depth with S d => balanced d l | O => False end
    else balanced depth l
  end.
(** What stands for the destination of a link: no white space or control characters. Backslashes: see C69_backslash_refuted. *)
Definition destText (raw dest : list Z) : Prop :=
  Forall (fun c => 32 < c) raw /\ (~ In 92 raw -> dest = raw /\ balanced 0 raw).

(** [says e s]: the text [s] is a way to write the element [e]. *)
Inductive says : inl -> list Z -> Prop :=
| says_text t : t <> [] -> ~ In 10 t -> says (Text t) t
| says_break : says SoftBreak [10]
| says_code n body t : (1 <= n)%nat -> closedBy n body -> codeText body t -> says (CodeSpan t) (repeat 96 n ++ body ++ repeat 96 n)
| says_em c l s : c = 42 \/ c = 95 -> saysAll l s -> hugs s -> says (Emphasis l) ([c] ++ s ++ [c])
| says_strong c l s : c = 42 \/ c = 95 -> saysAll l s -> hugs s -> says (Strong l) ([c; c] ++ s ++ [c; c])
| says_link dest raw l s w1 w2 : saysAll l s -> Forall white w1 -> Forall white w2 -> destText raw dest -> Forall (fun c => In c (raw ++ w2 ++ [41])) dest ->
    says (Link dest l) ([91] ++ s ++ [93; 40] ++ w1 ++ raw ++ w2 ++ [41])
with saysAll : list inl -> list Z -> Prop :=
| says_nil : saysAll [] []
| says_cons e l s t : says e s -> saysAll l t -> saysAll (e :: l) (s ++ t).

(** The lines of a paragraph as one text. *)
Fixpoint joined (lines : list (list Z)) : list Z :=
  match lines with
  | [] => []
  | [l] => l
  | l :: ls => l ++ [10] ++ joined ls
  end.
Definition lineOk (l : list Z) : Prop := l <> [] /\ ~ In 10 l.

(* ---- writing inline elements ---- *)
(** A text made of plain text, code, emphasis and links, with a space between two of them. *)
Inductive item :=
| W (t : list Z)
| C (t : list Z)
| Em (l : list item)
| St (l : list item)
| Lk (l : list item) (dest : list Z).
Definition spaced (l : list (list Z)) : list Z := match l with [] => [] | s :: l => s ++ flat_map (fun s => [32] ++ s) l end.
Fixpoint write (i : item) : list Z :=
  match i with
  | W t => t
  | C t => [96] ++ t ++ [96]
  | Em l => [42] ++ spaced (map write l) ++ [42]
  | St l => [42; 42] ++ spaced (map write l) ++ [42; 42]
  | Lk l dest => [91] ++ spaced (map write l) ++ [93; 40] ++ dest ++ [41]
  end.
(** Two texts in a row are one. *)
Fixpoint merge (l : list inl) : list inl :=
  match l with
  | [] => []
  | Text t :: l => match merge l with Text u :: r => Text (t ++ u) :: r | r => Text t :: r end
  | e :: l => e :: merge l
  end.
Definition between (l : list inl) : list inl := match l with [] => [] | e :: l => merge (e :: flat_map (fun e => [Text [32]; e]) l) end.
Fixpoint meant (i : item) : inl :=
  match i with
  | W t => Text t
  | C t => CodeSpan t
  | Em l => Emphasis (between (map meant l))
  | St l => Strong (between (map meant l))
  | Lk l dest => Link dest (between (map meant l))
  end.
(** A character that is neither white space nor ASCII punctuation. *)
Definition letter (c : Z) : Prop :=
  ~ white c /\ ~ (33 <= c <= 47) /\ ~ (58 <= c <= 64) /\ ~ (91 <= c <= 96) /\ ~ (123 <= c <= 126).
(** Plain text begins and ends with a letter and has none of * _ [ ] and the backtick. *)
Definition plainText (t : list Z) : Prop :=
  (exists c, hd_error t = Some c /\ letter c) /\ (exists c, hd_error (rev t) = Some c /\ letter c) /\
  Forall (fun c => ~ In c [42; 95; 91; 93; 96; 10]) t.
(** What is emphasised or linked begins and ends with plain text. *)
Definition isW (i : item) : Prop := match i with W _ => True | _ => False end.
Definition body (l : list item) : Prop := exists i j, hd_error l = Some i /\ hd_error (rev l) = Some j /\ isW i /\ isW j.
Inductive itemOk : item -> Prop :=
| ok_W t : plainText t -> itemOk (W t)
| ok_C t : t <> [] -> hd_error t <> Some 32 -> Forall (fun c => c <> 96 /\ c <> 10) t -> itemOk (C t)
| ok_Em l : body l -> Forall itemOk l -> itemOk (Em l)
| ok_St l : body l -> Forall itemOk l -> itemOk (St l)
| ok_Lk l dest : body l -> Forall itemOk l -> Forall (fun c => 32 < c /\ ~ In c [40; 41; 92]) dest -> itemOk (Lk l dest).

(* ---- pages ---- *)
(** What a reader of an HTML page sees: characters, tags with attributes. *)
Inductive ev :=
| Ch (c : Z)
| Nbsp
| Open (name : list Z) (attrs : list (list Z * list Z))
| Close (name : list Z).
Definition tagChar (c : Z) : Prop := 97 <= c <= 122 \/ 48 <= c <= 57.
Definition tagName (n : list Z) : Prop := n <> [] /\ Forall tagChar n.
(** Attributes: a space, a name, an equals sign and the value in quotes, in which markup characters are entities. *)
Inductive attrsText : list Z -> list (list Z * list Z) -> Prop :=
| at_nil : attrsText [] []
| at_cons n e v s l : tagName n -> xml_text e v -> attrsText s l -> attrsText ([32] ++ n ++ [61; 34] ++ e ++ [34] ++ s) ((n, v) :: l).
Inductive page : list Z -> list ev -> Prop :=
| pg_nil : page [] []
| pg_char c s l : ~ In c [60; 62; 34; 38] -> page s l -> page (c :: s) (Ch c :: l)
| pg_ent n c s l : entity n c -> page s l -> page (n ++ s) (Ch c :: l)
| pg_nbsp s l : page s l -> page (txt "&nbsp;" ++ s) (Nbsp :: l)
| pg_open n a at_ s l : tagName n -> attrsText a at_ -> page s l -> page ([60] ++ n ++ a ++ [62] ++ s) (Open n at_ :: l)
| pg_close n s l : tagName n -> page s l -> page ([60; 47] ++ n ++ [62] ++ s) (Close n :: l).
(** Every tag is closed, in the right order. *)
Fixpoint nest (stack : list (list Z)) (l : list ev) : Prop :=
  match l with
  | [] => stack = []
  | Open n _ :: l => nest (n :: stack) l
  | Close n :: l => match stack with m :: s => m = n /\ nest s l | [] => False end
  | _ :: l => nest stack l
  end.

(** What is to be seen of a document. [seen t u]: for the text [t], the text [u] is seen. *)
Section Shows.
Variable seen : list Z -> list Z -> Prop.
Definition chars (t : list Z) : list ev := map Ch t.
Inductive showsInl : inl -> list ev -> Prop :=
| si_text t u : seen t u -> showsInl (Text t) (chars u)
| si_link d v l e : seen d v -> showsInls l e -> showsInl (Link d l) (Open (txt "a") [(txt "href", v)] :: e ++ [Close (txt "a")])
| si_code t u : seen t u -> showsInl (CodeSpan t) (Open (txt "code") [] :: chars u ++ [Close (txt "code")])
| si_break : showsInl SoftBreak [Ch 10]
| si_em l e : showsInls l e -> showsInl (Emphasis l) (Open (txt "em") [] :: e ++ [Close (txt "em")])
| si_strong l e : showsInls l e -> showsInl (Strong l) (Open (txt "strong") [] :: e ++ [Close (txt "strong")])
with showsInls : list inl -> list ev -> Prop :=
| si_nil : showsInls [] []
| si_cons i l e f : showsInl i e -> showsInls l f -> showsInls (i :: l) (e ++ f).
Inductive showsCode : list (list Z) -> list ev -> Prop :=
| sc_nil : showsCode [] []
| sc_cons t u l e : seen t u -> showsCode l e -> showsCode (t :: l) (chars u ++ e).

(** [shows anchors tight b e]: the block [b] is seen as [e]. Paragraphs in the items of a tight list have no tag of their
    own; a line end separates them from what follows. *)
Definition heading_ (anchors : bool) (id u : list Z) (n : list Z) : list ev :=
  match id with
  | [] => [Open n []]
  | _ => if anchors
         then [Open n [(txt "class", txt "anchored")]; Open (txt "span") [(txt "class", txt "anchor"); (txt "id", u)]; Nbsp; Close (txt "span")]
         else [Open n [(txt "id", u)]]
  end.
Definition listOpen (start : Z) (num : list Z) : list ev :=
  if start <? 0 then [Open (txt "ul") []] else if start =? 1 then [Open (txt "ol") []] else [Open (txt "ol") [(txt "start", num)]].
Definition listClose (start : Z) : list ev := if start <? 0 then [Close (txt "ul")] else [Close (txt "ol")].
Inductive shows (anchors : bool) : bool -> block -> list ev -> Prop :=
| sh_list tight start num loose l e : (0 <= start -> canonical 10 num start) -> showsAll anchors (negb loose) l e ->
    shows anchors tight (BList start loose l) (listOpen start num ++ [Ch 10] ++ e ++ listClose start ++ [Ch 10])
| sh_item_loose l e : showsAll anchors false l e -> shows anchors false (BItem l) ([Open (txt "li") []; Ch 10] ++ e ++ [Close (txt "li"); Ch 10])
| sh_item_tight l e : l <> [] -> showsTight anchors l e ->
    shows anchors true (BItem l) ([Open (txt "li") []] ++ (match l with BPara _ :: _ => [] | _ => [Ch 10] end) ++ e ++ [Close (txt "li"); Ch 10])
| sh_quote tight l e : showsAll anchors false l e ->
    shows anchors tight (BQuote l) ([Open (txt "blockquote") []; Ch 10] ++ e ++ [Close (txt "blockquote"); Ch 10])
| sh_heading tight level id u l e : seen id u -> showsInls l e ->
    shows anchors tight (BHeading level id l) (heading_ anchors id u [104; 48 + Z.of_nat level] ++ e ++ [Close [104; 48 + Z.of_nat level]; Ch 10])
| sh_para l e : showsInls l e -> shows anchors false (BPara l) ([Open (txt "p") []] ++ e ++ [Close (txt "p"); Ch 10])
| sh_para_tight l e : showsInls l e -> shows anchors true (BPara l) e
| sh_code tight l e : showsCode l e ->
    shows anchors tight (BCode l) ([Open (txt "pre") []; Open (txt "code") []] ++ e ++ [Close (txt "code"); Close (txt "pre"); Ch 10])
with showsAll (anchors : bool) : bool -> list block -> list ev -> Prop :=
| sa_nil tight : showsAll anchors tight [] []
| sa_cons tight b l e f : shows anchors tight b e -> showsAll anchors tight l f -> showsAll anchors tight (b :: l) (e ++ f)
with showsTight (anchors : bool) : list block -> list ev -> Prop :=
| st_nil : showsTight anchors [] []
| st_cons b l e f : shows anchors true b e -> showsTight anchors l f ->
    showsTight anchors (b :: l) (e ++ (match b, l with BPara _, _ :: _ => [Ch 10] | _, _ => [] end) ++ f).
End Shows.

(** Documents: every text satisfies [P], headings have a level from 1 to 6, list numbers are 32-bit numbers, and the items
    of a tight list are not empty. *)
Section DocOk.
Variable P : list Z -> Prop.
Inductive inlOk : inl -> Prop :=
| io_text t : P t -> inlOk (Text t)
| io_link d l : P d -> Forall inlOk l -> inlOk (Link d l)
| io_code t : P t -> inlOk (CodeSpan t)
| io_break : inlOk SoftBreak
| io_em l : Forall inlOk l -> inlOk (Emphasis l)
| io_strong l : Forall inlOk l -> inlOk (Strong l).
Inductive blockOk : bool -> block -> Prop :=
| bo_list tight start loose l : -1 <= start < 2 ^ 31 -> Forall (blockOk (negb loose)) l -> blockOk tight (BList start loose l)
| bo_item tight l : (tight = true -> l <> []) -> Forall (blockOk tight) l -> blockOk tight (BItem l)
| bo_quote tight l : Forall (blockOk false) l -> blockOk tight (BQuote l)
| bo_heading tight level id l : (1 <= level <= 6)%nat -> P id -> Forall inlOk l -> blockOk tight (BHeading level id l)
| bo_para tight l : Forall inlOk l -> blockOk tight (BPara l)
| bo_code tight l : Forall P l -> blockOk tight (BCode l).
End DocOk.
