(* C25, C26, C27 and C54: paths. [w] says whether the format is that of Windows. *)
From Coq Require Import String.
From Verif Require Import Txt PathModel PathSpec PathProofs.

(** C25. Joining and normalising paths gives one path that designates, seen from anywhere, the location reached by
    following them one after the other; it is full iff one of them is. Partial: the paths must be full or relative to the
    current folder, and may go above their start at most once, not at all from a root. *)
Theorem C25_meaning_partial : forall w cs, cs <> [] -> forallb (sound w) cs = true ->
  stays (if fst (route w false [] cs) then 0 else 1) (snd (route w false [] cs)) = true ->
  exists q, joinAndNormalize w cs = Some q /\ full w q = existsb (full w) cs /\
            forall cwd at_, resolve w cwd at_ q = fold_left (resolve w cwd) cs at_.
Proof. exact join_meaning_full. Qed.
Print Assumptions C25_meaning_partial.
Example C25_meaning_ex :
  let cs := [txt "/usr/lib"; txt "../share//x/./y/"; txt "../z"] in
  forallb (sound false) cs = true /\ route false false [] cs = (true, map txt ["usr"; "lib"; ".."; "share"; "x"; "."; "y"; ".."; "z"]%string) /\
  stays 0 (snd (route false false [] cs)) = true /\ joinAndNormalize false cs = Some (txt "/usr/share/x/z") /\
  joinAndNormalize true [txt "a\b"; txt "C:/x/y\"; txt "..\z"] = Some (txt "C:\x\z").
Proof. repeat split. Qed.

(** C25. The result has no ".", and no ".." except one at the start of a path that is not full; or it is just ".".
    Normalising it changes nothing, except that "./", which is what the empty path gives, becomes ".". *)
Theorem C25_tidy : forall w cs, cs <> [] -> forallb (sound w) cs = true ->
  exists q, joinAndNormalize w cs = Some q /\ tidy w q /\
            (q = (if w then txt ".\" else txt "./") \/ (zlen q < 2 ^ 31 -> joinAndNormalize w [q] = Some q)).
Proof. exact join_tidy_text. Qed.
Print Assumptions C25_tidy.
Example C25_tidy_ex :
  joinAndNormalize false [txt "a//./b/../../../c/"] = Some (txt "../c/") /\ joinAndNormalize false [txt "../c/"] = Some (txt "../c/") /\
  joinAndNormalize false [txt "a/.."] = Some (txt ".").
Proof. repeat split. Qed.

(** C25 does not hold for paths that go up more than once: a second ".." removes the first. *)
Theorem C25_up_twice_refuted : sound false (txt "../..") = true /\ joinAndNormalize false [txt "../.."] = Some (txt ".") /\
  exists at_, resolve false (fun _ => []) at_ (txt ".") <> resolve false (fun _ => []) at_ (txt "../..").
Proof. split; [reflexivity|]. split; [reflexivity|]. exists (0, [txt "a"]). discriminate. Qed.
Print Assumptions C25_up_twice_refuted.
(** Nor for paths that go above the root: the root itself is removed, and the result is relative. *)
Theorem C25_above_root_refuted : sound false (txt "/..") = true /\ full false (txt "/..") = true /\ joinAndNormalize false [txt "/.."] = Some (txt ".") /\
  joinAndNormalize false [txt "/../etc"] = Some (txt "etc") /\ full false (txt "etc") = false.
Proof. repeat split. Qed.
Print Assumptions C25_above_root_refuted.
(** Nor, on Windows, for a path on a drive that is not full, for a path from the root of the current drive, and for a name
    that looks like a drive. *)
Theorem C25_windows_refuted :
  (joinAndNormalize true [txt "C:a"] = Some (txt "C:\a") /\ anchorOf true (txt "C:a") = OnDrive 67 /\ anchorOf true (txt "C:\a") = DriveRoot 67) /\
  (joinAndNormalize true [txt "\a"] = Some (txt "a") /\ anchorOf true (txt "\a") = Root /\ anchorOf true (txt "a") = Here) /\
  (joinAndNormalize true [txt "./C:/x"] = Some (txt "C:\x") /\ anchorOf true (txt "./C:/x") = Here).
Proof. repeat split. Qed.
Print Assumptions C25_windows_refuted.
(** And the empty path is not normalised in one go. *)
Theorem C25_empty_refuted : joinAndNormalize false [[]] = Some (txt "./") /\ joinAndNormalize false [txt "./"] = Some (txt ".").
Proof. split; reflexivity. Qed.
Print Assumptions C25_empty_refuted.

(** C26. A path is split to a directory and a file. With the separators in between they are the path. The file has no
    separator. The directory is empty, or a root, or ends in a name. The file, seen from the directory, is the path. *)
Theorem C26_split : forall w p, zlen p < 2 ^ 31 -> exists dir seps file, PathModel.split w p = Some (dir, file) /\ p = dir ++ seps ++ file /\
  Forall (fun c => sepOf w c = true) seps /\ Forall (fun c => sepOf w c = false) file /\
  (dir = [] /\ seps = [] \/ dir <> [] /\ namesOf w dir = [] \/ dir <> [] /\ seps <> [] /\ Forall (fun c => sepOf w c = false) [last dir 0]) /\
  (noDrives w p = true -> forall cwd at_, resolve w cwd (resolve w cwd at_ dir) file = resolve w cwd at_ p).
Proof. exact split_ok. Qed.
Print Assumptions C26_split.
Example C26_split_ex :
  PathModel.split false (txt "usr//lib//x.c") = Some (txt "usr//lib", txt "x.c") /\ PathModel.split false (txt "//x") = Some (txt "/", txt "x") /\
  PathModel.split true (txt "C:\x") = Some (txt "C:\", txt "x") /\ noDrives true (txt "C:\x") = true /\ PathModel.split true (txt "a/b\") = Some (txt "a/b", []).
Proof. repeat split. Qed.

(** C26. Splitting to all components gives the root, if there is one, the names, and an empty component if the path ends
    in a separator after a name. *)
Theorem C26_split_full : forall w p, exists first,
  splitFull w p = Some (first ++ namesOf w p ++ (if nonempty (namesOf w p) && sepOf w (last p 0) then [[]] else [])) /\
  (first = [] /\ plain w p = true \/
   exists r q, first = [r] /\ p = r ++ q /\ plain w p = false /\ anchorOf w r = anchorOf w p /\ namesOf w r = []).
Proof. exact splitFull_names. Qed.
Print Assumptions C26_split_full.
Example C26_split_full_ex :
  splitFull false (txt "//a/../bc///d/") = Some (map txt ["/"; "a"; ".."; "bc"; "d"; ""]%string) /\
  splitFull true (txt "C:\\a/b") = Some (map txt ["C:\"; "a"; "b"]%string) /\ splitFull true (txt "C:a") = Some (map txt ["C:"; "a"]%string).
Proof. repeat split. Qed.

(** C26. Following the components one after the other leads where the path leads. *)
Theorem C26_components_lead_there : forall w p, noDrives w p = true -> exists cs, splitFull w p = Some cs /\
  forall cwd at_, fold_left (resolve w cwd) cs at_ = resolve w cwd at_ p.
Proof. exact splitFull_meaning. Qed.
Print Assumptions C26_components_lead_there.
(** C26. Joining the components gives an equivalent path, where C25 holds. *)
Theorem C26_rejoin_partial : forall w p, sound w p = true -> p <> [] -> stays (if full w p then 0 else 1) (namesOf w p) = true ->
  exists cs q, splitFull w p = Some cs /\ joinAndNormalize w cs = Some q /\ full w q = full w p /\
               forall cwd at_, resolve w cwd at_ q = resolve w cwd at_ p.
Proof. exact splitFull_join. Qed.
Print Assumptions C26_rejoin_partial.
Example C26_rejoin_ex : let p := txt "../a//b/../c/" in sound false p = true /\ stays 1 (namesOf false p) = true /\
  splitFull false p = Some (map txt [".."; "a"; "b"; ".."; "c"; ""]%string) /\ joinAndNormalize false (map txt [".."; "a"; "b"; ".."; "c"; ""]%string) = Some (txt "../a/c/").
Proof. repeat split. Qed.

(** C26. The extension and what is before it are the path. An extension starts with the last dot of the last name, which is
    not the first byte of that name. There is none only if the last name has no such dot. *)
Theorem C26_split_ext : forall w p, zlen p < 2 ^ 31 -> exists stem ext, splitExt w p = Some (stem, ext) /\ p = stem ++ ext /\
  (ext = [] \/ exists e, ext = dot :: e /\ Forall (fun c => c <> dot /\ sepOf w c = false) e /\ stem <> [] /\ sepOf w (last stem 0) = false) /\
  (ext = [] -> forall d n e, p = d ++ n ++ dot :: e -> (d = [] \/ sepOf w (last d 0) = true) -> Forall (fun c => sepOf w c = false) (n ++ e) -> n = []).
Proof. exact splitExt_ok. Qed.
Print Assumptions C26_split_ext.
Example C26_split_ext_ex :
  splitExt false (txt "a.b/c.tar.gz") = Some (txt "a.b/c.tar", txt ".gz") /\ splitExt false (txt "a.b/c") = Some (txt "a.b/c", []) /\
  splitExt false (txt "a/.profile") = Some (txt "a/.profile", []) /\ splitExt false (txt "x.") = Some (txt "x", txt ".").
Proof. repeat split. Qed.

(** C27. The relative path from one path to another, seen from the first, leads to the second; and joining it to the
    first gives the second, normalised. Partial: both must be full or both relative to the current folder, and neither may
    go above its start. *)
Theorem C27_relative_partial : forall w anc desc, sound w anc = true -> sound w desc = true -> full w anc = full w desc ->
  stays 0 (namesOf w anc) = true -> stays 0 (namesOf w desc) = true -> desc <> [] ->
  exists rel, makeRelative w anc desc = Some rel /\
    (forall cwd at_, resolve w cwd (resolve w cwd at_ anc) rel = resolve w cwd at_ desc) /\
    (zlen rel < 2 ^ 31 -> joinAndNormalize w [anc; rel] = joinAndNormalize w [desc]).
Proof. exact relative_back. Qed.
Print Assumptions C27_relative_partial.
Example C27_relative_ex :
  let anc := txt "/a/b/x/../c" in let desc := txt "/a/d/./e/" in
  sound false anc = true /\ sound false desc = true /\ full false anc = true /\ full false desc = true /\ stays 0 (namesOf false anc) = true /\ stays 0 (namesOf false desc) = true /\
  makeRelative false anc desc = Some (txt "../../d/e/") /\ joinAndNormalize false [anc; txt "../../d/e/"] = Some (txt "/a/d/e/") /\
  makeRelative true (txt "C:\a") (txt "D:\b") = Some (txt "D:\b").
Proof. repeat split. Qed.
(** C27 does not hold for a path that starts above the current folder. *)
Theorem C27_above_refuted : makeRelative false (txt "..") (txt "a") = Some (txt "../a") /\ joinAndNormalize false [txt ".."; txt "../a"] = Some (txt "a") /\
  exists at_, resolve false (fun _ => []) (resolve false (fun _ => []) at_ (txt "..")) (txt "../a") <> resolve false (fun _ => []) at_ (txt "a").
Proof. split; [reflexivity|]. split; [reflexivity|]. exists (0, [txt "x"]). discriminate. Qed.
Print Assumptions C27_above_refuted.

(** C54. Converting a path between formats replaces the separators and nothing else. *)
Theorem C54_convert : forall (w srcW : bool) p, w <> srcW -> length (from w srcW p) = length p /\ forall i, (i < length p)%nat ->
  (sepOf srcW (nth i p 0) = true -> nth i (from w srcW p) 0 = if w then backslash else slash) /\
  (sepOf srcW (nth i p 0) = false -> nth i (from w srcW p) 0 = nth i p 0).
Proof. exact from_ok. Qed.
Print Assumptions C54_convert.
(** C54. The names stay the same, if they have no backslash, which is a name's byte in one format only. *)
Theorem C54_same_names : forall (w srcW : bool) p, (srcW = true \/ Forall (fun c => c <> backslash) p) -> names (sepOf w) (from w srcW p) = names (sepOf srcW) p.
Proof. exact from_names. Qed.
Print Assumptions C54_same_names.
Example C54_ex : from false true (txt "a\b/c") = txt "a/b/c" /\ from true false (txt "a/b") = txt "a\b" /\ names (sepOf true) (from true false (txt "a\b")) = map txt ["a"; "b"]%string /\ names (sepOf false) (txt "a\b") = [txt "a\b"].
Proof. repeat split. Qed.
