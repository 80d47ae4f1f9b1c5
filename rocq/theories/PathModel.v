(* Model of ply-runtime/filesystem/Path.h and Path.cpp. RT below is repos/plywood/src/runtime/ply-runtime.
   A path is the list of its bytes; [w] says whether the format is that of Windows. [None] stands for a failed
   assertion or an access outside of a string. Positions are not wrapped: paths are taken to be shorter than 2 GB,
   except where they are searched backwards. *)
From Verif Require Export StringViewModel.

Definition slash : Z := 47.
Definition backslash : Z := 92.
Definition colon : Z := 58.
Definition dot : Z := 46.

Section Path.
Context (w : bool).

(** RT/filesystem/Path.h:32-34. *)
Definition isSepByte (c : Z) : bool := (c =? slash) || (w && (c =? backslash)).
(** Path.h:35-37. *)
Definition sepByte : Z := if w then backslash else slash.
(** Path.h:38-42. *)
Definition hasDriveLetter (p : list Z) : bool :=
  w && match p with c :: d :: _ => isAsciiLetter c && (d =? colon) | _ => false end.
(** Path.h:43-45. *)
Definition getDriveLetter (p : list Z) : list Z := if hasDriveLetter p then firstn 2 p else [].
(** Path.h:46-52. *)
Definition isAbsolute (p : list Z) : bool :=
  if w then hasDriveLetter p && match p with _ :: _ :: c :: _ => isSepByte c | _ => false end
  else match p with c :: _ => isSepByte c | [] => false end.
(** Path.h:53-55. *)
Definition isRelative (p : list Z) : bool :=
  negb (hasDriveLetter p) && match p with c :: _ => negb (isSepByte c) | [] => false end.

(** RT/filesystem/Path.cpp:15-27. *)
Definition split (p : list Z) : option (list Z * list Z) :=
  match sv_rfindByte_default p isSepByte with
  | None => None
  | Some lastSep =>
    if 0 <=? lastSep then
      match sv_rfindByte p (fun c => negb (isSepByte c)) lastSep with
      | None => None
      | Some i =>
        let prefixLen := i + 1 in
        match sv_left p prefixLen with
        | None => None
        | Some pre =>
          let prefixLen := if bytes_eqb pre (getDriveLetter p) then prefixLen + 1 else prefixLen in
          match sv_left p prefixLen, sv_subStr1 p (lastSep + 1) with Some a, Some b => Some (a, b) | _, _ => None end
        end
      end
    else Some ([], p)
  end.

(** The loops that skip separators (Path.cpp:36-38, 48-50). *)
Fixpoint skipSeps (p : list Z) : list Z := match p with c :: r => if isSepByte c then skipSeps r else p | [] => [] end.
(** Path.cpp:53-70. Every turn drops a byte or more. *)
Fixpoint splitLoop (fuel : nat) (p : list Z) : option (list (list Z)) :=
  match fuel, p with
  | O, _ | _, [] => None
  | S fuel, c :: _ =>
    if isSepByte c then None else
    let sepPos := sv_findByte p isSepByte 0 in
    if sepPos <? 0 then Some [p] else
    match sv_left p sepPos, sv_offsetHead p sepPos with
    | Some comp, Some p =>
      let nonSep := sv_findByte p (fun c => negb (isSepByte c)) 0 in
      if nonSep <? 0 then Some [comp; []] else
      match sv_offsetHead p nonSep with
      | None => None
      | Some p => match splitLoop fuel p with Some r => Some (comp :: r) | None => None end
      end
    | _, _ => None
    end
  end.
(** Path.cpp:29-73. *)
Definition splitFull (p : list Z) : option (list (list Z)) :=
  let '(first, rest) :=
    if hasDriveLetter p then
      if isAbsolute p then ([firstn 3 p], skipSeps (skipn 3 p)) else ([firstn 2 p], skipn 2 p)
    else match p with
         | c :: r => if isSepByte c then ([[c]], skipSeps r) else ([], p)
         | [] => ([], p)
         end in
  match rest with
  | [] => Some first
  | _ => match splitLoop (length rest) rest with Some r => Some (first ++ r) | None => None end
  end.

(** Path.cpp:75-86. *)
Definition splitExt (p : list Z) : option (list Z * list Z) :=
  match sv_rfindByte_default p isSepByte with
  | None => None
  | Some slashPos =>
    match (if 0 <=? slashPos then sv_subStr1 p (slashPos + 1) else Some p) with
    | None => None
    | Some lastComp =>
      match sv_rfindByte_default lastComp (fun c => c =? dot) with
      | None => None
      | Some dotPos =>
        let dotPos := if (dotPos <? 0) || (dotPos =? 0) then zlen lastComp else dotPos in
        match sv_shortenedBy p (zlen lastComp - dotPos), sv_subStr1 lastComp dotPos with
        | Some a, Some b => Some (a, b)
        | _, _ => None
        end
      end
    end
  end.

(** Path.cpp:94-104: the index of the last absolute component not before the last drive letter, and that of the last
    component with a drive letter. The components are given from the last, which has index [i]. *)
Fixpoint lastRoots (i : nat) (rcomps : list (list Z)) (absI : option nat) : option nat * option nat :=
  match rcomps with
  | [] => (absI, None)
  | c :: r =>
    let absI := match absI with None => if isAbsolute c then Some i else None | _ => absI end in
    if hasDriveLetter c then (absI, Some i) else lastRoots (pred i) r absI
  end.
(** StringView::subStr(start, n). *)
Definition sv_subStr2 (s : list Z) (start n : Z) : option (list Z) :=
  match sv_subStr2_range (zlen s) start n with Some (a, n) => Some (firstn (Z.to_nat n) (skipn (Z.to_nat a) s)) | None => None end.
(** Path.cpp:137-148. *)
Fixpoint partsLoop (fuel : nat) (comp : list Z) (nonSep : Z) : option (list (list Z)) :=
  if nonSep <? 0 then Some [] else
  match fuel with
  | O => None
  | S fuel =>
    let sep := sv_findByte comp isSepByte (nonSep + 1) in
    if sep <? 0 then match sv_subStr1 comp nonSep with Some a => Some [a] | None => None end
    else
      match sv_subStr2 comp nonSep (sep - nonSep), partsLoop fuel comp (sv_findByte comp (fun c => negb (isSepByte c)) (sep + 1)) with
      | Some a, Some r => Some (a :: r)
      | _, _ => None
      end
  end.
Definition parts (comp : list Z) : option (list (list Z)) :=
  partsLoop (length comp) comp (sv_findByte comp (fun c => negb (isSepByte c)) 0).
(** Path.cpp:130-149. *)
Fixpoint allParts (i : nat) (driveI : option nat) (comps : list (list Z)) : option (list (list Z)) :=
  match comps with
  | [] => Some []
  | comp :: r =>
    match (match driveI with Some d => if (i =? d)%nat then sv_subStr1 comp 2 else Some comp | None => Some comp end) with
    | None => None
    | Some comp =>
      match parts comp, allParts (S i) driveI r with Some a, Some b => Some (a ++ b) | _, _ => None end
    end
  end.
(** Path.cpp:91-150: what the callback is called with. *)
Definition iterateOver (comps : list (list Z)) : option (list (list Z)) :=
  let '(absI, driveI) := lastRoots (pred (length comps)) (rev comps) None in
  match
    (match driveI with
     | Some d =>
       match sv_at (nth d comps []) 0 with
       | None => None
       | Some c => Some [match absI with Some _ => [c; colon; sepByte] | None => [c; colon] end]
       end
     | None => Some []
     end) with
  | None => None
  | Some first =>
    let i := match driveI with Some d => d | None => O end in
    match
      (match absI with
       | Some a => if (i <=? a)%nat then Some (a, match driveI with None => [[sepByte]] | Some _ => [] end) else None
       | None => Some (i, [])
       end) with
    | None => None
    | Some (i, second) =>
      match allParts i driveI (skipn i comps) with
      | None => None
      | Some r => Some (first ++ second ++ r)
      end
    end
  end.

Definition dots2 : list Z := [dot; dot].
(** Path.cpp:157-168. [norm]: normComps, last first. [upCount] is never changed. *)
Definition normStep (upCount : nat) (norm : list (list Z)) (comp : list Z) : option (list (list Z)) :=
  if bytes_eqb comp dots2 then
    if (upCount <? length norm)%nat then Some (tl norm)
    else if (length norm =? upCount)%nat then Some (dots2 :: norm) else None
  else if negb (bytes_eqb comp [dot]) && negb (match comp with [] => true | _ => false end) then Some (comp :: norm)
  else Some norm.
Fixpoint normLoop (norm : list (list Z)) (comps : list (list Z)) : option (list (list Z)) :=
  match comps with
  | [] => Some norm
  | c :: r => match normStep 0 norm c with Some norm => normLoop norm r | None => None end
  end.
(** Path.cpp:153-170. *)
Definition getNormalizedComps (comps : list (list Z)) : option (list (list Z)) :=
  match iterateOver comps with
  | None => None
  | Some cs => match normLoop [] cs with Some norm => Some (rev norm) | None => None end
  end.

Definition endsSep (p : list Z) : bool := match rev p with c :: _ => isSepByte c | [] => false end.
(** Path.cpp:185-194: what is written, and needSep. *)
Fixpoint joinLoop (needSep : bool) (out : list Z) (comps : list (list Z)) : list Z * bool :=
  match comps with
  | [] => (out, needSep)
  | comp :: r =>
    let '(out, needSep) :=
      if needSep then (out ++ [sepByte], needSep)
      else (out, match comp with [] => needSep | _ => negb (endsSep comp) end) in
    joinLoop needSep (out ++ comp) r
  end.
(** Path.cpp:173-200. *)
Definition joinAndNormalize (comps : list (list Z)) : option (list Z) :=
  match getNormalizedComps comps with
  | None => None
  | Some [] => Some (match rev comps with [] :: _ => [dot; sepByte] | _ => [dot] end)
  | Some norm =>
    let '(out, needSep) := joinLoop false [] norm in
    match rev comps with
    | [] => None
    | last :: _ => Some (if (match last with [] => true | _ => endsSep last end) && needSep then out ++ [sepByte] else out)
    end
  end.

(** Path.cpp:215-220. *)
Fixpoint common (a b : list (list Z)) : nat :=
  match a, b with
  | x :: a, y :: b => if bytes_eqb x y then S (common a b) else O
  | _, _ => O
  end.
(** Path.cpp:231-237. *)
Fixpoint upsLoop (n : nat) (needSep : bool) (out : list Z) : list Z * bool :=
  match n with
  | O => (out, needSep)
  | S n => upsLoop n true ((if needSep then out ++ [sepByte] else out) ++ dots2)
  end.
(** Path.cpp:238-244. *)
Fixpoint downLoop (comps : list (list Z)) (needSep : bool) (out : list Z) : option (list Z * bool) :=
  match comps with
  | [] => Some (out, needSep)
  | c :: r =>
    match c with
    | [] => None
    | _ => downLoop r (negb (endsSep c)) ((if needSep then out ++ [sepByte] else out) ++ c)
    end
  end.
(** Path.cpp:202-258. *)
Definition makeRelative (ancestor descendant : list Z) : option (list Z) :=
  if Bool.eqb (isAbsolute ancestor) (isAbsolute descendant) then
    match getNormalizedComps [ancestor], getNormalizedComps [descendant] with
    | Some a, Some d =>
      let mc := common a d in
      let upFolders := if negb (isAbsolute ancestor) || (0 <? mc)%nat then (length a - mc)%nat else O in
      let '(out, needSep) := upsLoop upFolders false [] in
      match downLoop (skipn mc d) needSep out with
      | None => None
      | Some (out, needSep) =>
        let '(out, needSep) := match out with [] => ([dot], true) | _ => (out, needSep) end in
        Some (if endsSep descendant && needSep then out ++ [sepByte] else out)
      end
    | _, _ => None
    end
  else None.
End Path.

(** Path.cpp:260-271. *)
Definition from (w srcW : bool) (p : list Z) : list Z :=
  if Bool.eqb w srcW then p else map (fun c => if isSepByte srcW c then sepByte w else c) p.
