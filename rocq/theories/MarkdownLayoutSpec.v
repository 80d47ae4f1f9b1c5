(* Documents as they are written in Markdown, and what they mean. *)
From Coq Require Import String.
From Verif Require Export MarkdownSpec.
Local Open Scope list_scope.
Local Notation length := List.length.

(** The marker of an item of a list: "*", "-" or "+", or a number with "." or ")". *)
Inductive mark := Bullet (c : Z) | Number (digits : list Z) (punc : Z).
Definition markText (m : mark) : list Z := match m with Bullet c => [c] | Number ds p => ds ++ [p] end.
Definition digit (c : Z) : Prop := 48 <= c <= 57.
Definition numberOf (ds : list Z) : Z := fold_left (fun n c => n * 10 + (c - 48)) ds 0.
Definition markOk (m : mark) : Prop :=
  match m with
  | Bullet c => In c [42; 43; 45]
  | Number ds p => Forall digit ds /\ (1 <= length ds <= 9)%nat /\ In p [46; 41]
  end.
(** Items of one list have the same bullet, or numbers with the same punctuation. *)
Definition sameKind (a b : mark) : Prop :=
  match a, b with
  | Bullet c, Bullet d => c = d
  | Number _ p, Number _ q => p = q
  | _, _ => False
  end.
Definition startOf (m : mark) : Z := match m with Bullet _ => -1 | Number ds _ => numberOf ds end.

(** A written block: a paragraph with its lines, a heading, lines of code, a quote, or a tight list whose items are paragraphs. *)
Inductive src :=
| Para (lines : list (list Z))
| Head (level : nat) (t : list Z)
| Listing (lines : list (list Z))
| Quote (l : list src)
| Items (items : list (mark * list (list Z))).

(** "> " for every quote around a line. *)
Definition pre (d : nat) : list Z := concat (repeat [62; 32] d).
Definition itemLines (d : nat) (it : mark * list (list Z)) : list (list Z) :=
  match it with
  | (m, []) => []
  | (m, l :: more) => (pre d ++ markText m ++ [32] ++ l) :: map (fun l => pre d ++ repeat 32 (S (length (markText m))) ++ l) more
  end.
(** A blank line, with the markers of the quotes around it, between blocks. *)
Fixpoint sepBy {A} (s : A) (l : list (list A)) : list A :=
  match l with
  | [] => []
  | [x] => x
  | x :: l => x ++ [s] ++ sepBy s l
  end.
Fixpoint linesAt (d : nat) (b : src) : list (list Z) :=
  match b with
  | Para ls => map (fun l => pre d ++ l) ls
  | Head n t => [pre d ++ repeat 35 n ++ [32] ++ t]
  | Listing ls => map (fun l => pre d ++ [32; 32; 32; 32] ++ l) ls
  | Quote l => sepBy (pre (S d)) (map (linesAt (S d)) l)
  | Items l => flat_map (itemLines d) l
  end.
Definition page (l : list src) : list Z := flat_map (fun l => l ++ [10]) (sepBy [] (map (linesAt 0) l)).

(** What is written. *)
Inductive means : src -> block -> Prop :=
| me_para ls els : expandInlineElements ls = Some els -> means (Para ls) (BPara els)
| me_head n t els : expandInlineElements [t] = Some els -> means (Head n t) (BHeading n [] els)
| me_code ls : means (Listing ls) (BCode (map (fun l => l ++ [10]) ls))
| me_quote l bs : Forall2 means l bs -> means (Quote l) (BQuote bs)
| me_items m ls items bs : Forall2 (fun it b => exists els, expandInlineElements (snd it) = Some els /\ b = BItem [BPara els]) ((m, ls) :: items) bs ->
  means (Items ((m, ls) :: items)) (BList (startOf m) false bs).

(** The start of a line that is not the text of a paragraph: ">", a bullet or number and a blank, or up to six "#" and a blank. *)
Inductive special : list Z -> Prop :=
| sp_quote t : special (62 :: t)
| sp_bullet c b t : In c [42; 43; 45] -> b = 32 \/ b = 9 -> special (c :: b :: t)
| sp_number ds p b t : Forall digit ds -> (1 <= length ds <= 9)%nat -> p = 46 \/ p = 41 -> b = 32 \/ b = 9 -> special (ds ++ p :: b :: t)
| sp_hash n : (1 <= n <= 6)%nat -> special (repeat 35 n)
| sp_head n b t : (1 <= n <= 6)%nat -> white b -> special (repeat 35 n ++ b :: t).
Definition textLine (t : list Z) : Prop := hugs t /\ ~ In 10 t /\ ~ special t.
Definition codeLine (t : list Z) : Prop := ~ In 10 t /\ exists c, In c t /\ ~ white c.

(** Where code may follow: not where it would belong to the block before it (code after code, or in an item), and not after
    headings that follow such a block; there the parser fails an assertion. *)
Definition codeAfter (f : bool) (b : src) : bool :=
  match b with
  | Para _ | Quote _ => true
  | Head _ _ => f
  | Listing _ | Items _ => false
  end.
(** Two lists in a row are one if their markers are of the same kind. *)
Definition apart (a b : src) : Prop :=
  match a, b with
  | Items ((m, _) :: _), Items ((m', _) :: _) => ~ sameKind m m'
  | _, _ => True
  end.
Definition itemOk' (d : nat) (it : mark * list (list Z)) : Prop :=
  markOk (fst it) /\ snd it <> [] /\ Forall textLine (snd it) /\ (d = 0%nat \/ length (snd it) = 1%nat).
(** Block [b], in [d] quotes; [f]: code may come here. *)
Fixpoint written (d : nat) (f : bool) (b : src) : Prop :=
  match b with
  | Para ls => ls <> [] /\ Forall textLine ls
  | Head n t => (1 <= n <= 6)%nat /\ hugs t /\ ~ In 10 t
  | Listing ls => f = true /\ ls <> [] /\ Forall codeLine ls
  | Quote l => l <> [] /\ (fix all (f : bool) (l : list src) : Prop :=
      match l with
      | [] => True
      | b :: l => written (S d) f b /\ match l with [] => True | b' :: _ => apart b b' end /\ all (codeAfter f b) l
      end) f l
  | Items l => Forall (itemOk' d) l /\
      match l with
      | [] => False
      | (m, _) :: _ => Forall (fun it => sameKind m (fst it)) l /\ (f = true \/ startOf m = -1 \/ startOf m = 1)
      end
  end.
Fixpoint writtenAll (d : nat) (f : bool) (l : list src) : Prop :=
  match l with
  | [] => True
  | b :: l => written d f b /\ match l with [] => True | b' :: _ => apart b b' end /\ writtenAll d (codeAfter f b) l
  end.
