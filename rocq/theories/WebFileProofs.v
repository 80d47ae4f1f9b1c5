(* Proofs about the files a web server sends. *)
From Coq Require Import Lia ZifyBool ZifyNat String.
From Verif Require Import StringViewProofs PathProofs WebSpec.
Local Open Scope list_scope.
Local Notation length := List.length.
Local Notation "'do' p <- m ; k" := (match m with Some p => k | None => None end) (at level 200, p pattern, m at level 100, k at level 200).

(* ---- going up and down ---- *)
Lemma stays_app a : forall s b, stays (length s) a = true -> stays (length s) (a ++ b) = stays (length (fold_left go a s)) b.
Proof.
  induction a as [|n a IH]; intros s b H; [reflexivity|]. cbn [app stays fold_left] in *. unfold go at 2. destruct (list_eq_dec Z.eq_dec n [dot]); [apply IH, H|]. destruct (list_eq_dec Z.eq_dec n [dot; dot]).
  - destruct s as [|x s]; [discriminate H|]. cbn [length tl] in *. apply IH, H.
  - apply (IH (n :: s)), H.
Qed.
Lemma stays_more ns : forall d e, (d <= e)%nat -> stays d ns = true -> stays e ns = true.
Proof.
  induction ns as [|n ns IH]; intros d e L H; [reflexivity|]. cbn [stays] in *. destruct (list_eq_dec Z.eq_dec n [dot]); [exact (IH d e L H)|]. destruct (list_eq_dec Z.eq_dec n [dot; dot]).
  - destruct d as [|d]; [discriminate|]. destruct e as [|e]; [lia|]. exact (IH d e ltac:(lia) H).
  - exact (IH (S d) (S e) ltac:(lia) H).
Qed.
Lemma stays_both d a b : stays d a = true -> stays 0 b = true -> stays d (a ++ b) = true.
Proof. intros Ha Hb. pose proof (stays_app a (repeat [] d) b) as E. rewrite repeat_length in E. rewrite (E Ha). apply (stays_more b 0); [lia|exact Hb]. Qed.
Lemma stays_fine ns : Forall ordinary ns -> forall d, stays d ns = true.
Proof. intros F. induction F as [|n ns (N1 & N2) F IH]; intros d; cbn [stays]; [reflexivity|]. destruct (list_eq_dec Z.eq_dec n [dot]); [contradiction|]. destruct (list_eq_dec Z.eq_dec n [dot; dot]); [contradiction|apply IH]. Qed.
Lemma go_ordinary ns : Forall ordinary ns -> forall s, fold_left go ns s = rev ns ++ s.
Proof.
  induction 1 as [|n ns (N1 & N2) F IH]; intros s; [reflexivity|]. cbn [fold_left rev]. unfold go at 2. destruct (list_eq_dec Z.eq_dec n [dot]); [contradiction|]. destruct (list_eq_dec Z.eq_dec n [dot; dot]); [contradiction|]. rewrite IH, <- app_assoc. reflexivity.
Qed.

Section Files.
Context (w : bool).
Notation sep := (isSepByte w).

(** Following a plain path from a folder and not going above it stays in it. *)
Lemma resolve_within cwd at_ p : plain w p = true -> stays 0 (namesOf w p) = true -> within at_ (resolve w cwd at_ p).
Proof.
  intros Hp Hs. rewrite (resolve_plain w cwd at_ p Hp). split; [reflexivity|]. cbn [snd]. exists (fold_left go (namesOf w p) []). apply (go_above (snd at_) (namesOf w p) []). exact Hs.
Qed.
Lemma plain_notfull p : plain w p = true -> full w p = false.
Proof. unfold plain, full. destruct (anchorOf w p); try discriminate. reflexivity. Qed.
Lemma route_two root file : full w file = false -> route w false [] [root; file] = (full w root, namesOf w root ++ namesOf w file).
Proof. intros F. cbn [route]. rewrite F. destruct (full w root); cbn [app]; reflexivity. Qed.
Lemma join_two root file : sound w root = true -> sound w file = true -> plain w file = true -> stays (if full w root then 0 else 1) (namesOf w root ++ namesOf w file) = true ->
  exists q, joinAndNormalize w [root; file] = Some q /\ full w q = full w root /\ forall cwd at_, resolve w cwd at_ q = resolve w cwd (resolve w cwd at_ root) file.
Proof.
  intros Hr Hf Hp Hs. destruct (join_meaning_full w [root; file]) as (q & E & F & R); [discriminate|cbn [forallb]; rewrite Hr, Hf; reflexivity|rewrite route_two by (apply plain_notfull, Hp); exact Hs|].
  exists q. split; [exact E|]. split; [rewrite F; cbn [existsb]; rewrite (plain_notfull file Hp), !orb_false_r; reflexivity|]. intros cwd at_. rewrite R. reflexivity.
Qed.

(* ---- FetchFromFileSystem ---- *)
Lemma before_eq req : (let getPos := sv_findByte req (fun c => c =? 63) 0 in if 0 <=? getPos then sv_left req getPos else Some req) = Some (beforeQuery req).
Proof.
  cbv zeta. assert (B : forall a b, none (fun c => c =? 63) a -> beforeQuery (a ++ b) = a ++ beforeQuery b) by (induction 1 as [|c a Hc Ha IH]; [reflexivity|]; cbn [app beforeQuery]; rewrite Hc, IH; reflexivity).
  destruct (find_zero (fun c => c =? 63) req) as [(-> & N)|(a & c & b & -> & -> & N & Hc)].
  - cbn [Z.leb Z.compare]. rewrite <- (app_nil_r req) at 2. rewrite B by exact N. cbn [beforeQuery]. rewrite app_nil_r. reflexivity.
  - pose proof (zlen_nonneg a). replace (0 <=? zlen a) with true by lia. rewrite left_app, B by exact N. cbn [beforeQuery]. rewrite Hc, app_nil_r. reflexivity.
Qed.
Lemma drop_eq f l : trim_left f l = dropFirst f l.
Proof. induction l as [|c l IH]; [reflexivity|]. cbn [trim_left dropFirst]. rewrite IH. reflexivity. Qed.
Lemma split_file p : zlen p < 2 ^ 31 -> exists dir d file, PathModel.split w p = Some (dir, file) /\ p = d ++ file /\ none sep file /\ (d = [] \/ sep (last d 0) = true).
Proof.
  intros Hl. destruct (split_ok w p Hl) as (dir & seps & file & E & Ep & Hs & Hf & _). assert (Nf : none sep file) by (eapply Forall_impl; [|exact Hf]; intros x Hx; rewrite <- sepOf_eq; exact Hx).
  unfold PathModel.split in E. destruct (rfindByte_default_split sep p Hl) as (r & Er & C). rewrite Er in E. destruct C as [(-> & N)|(a & c & b & Ea & -> & Nb & Hc)].
  - cbn [Z.leb Z.compare] in E. injection E as <- <-. exists [], [], p. unfold PathModel.split. rewrite Er. cbn [Z.leb Z.compare]. repeat split; [exact N|left; reflexivity].
  - exists dir, (a ++ [c]), b. pose proof (zlen_nonneg a). assert (Sub : sv_subStr1 p (zlen a + 1) = Some b) by (rewrite Ea; change (c :: b) with ([c] ++ b); rewrite app_assoc; replace (zlen a + 1) with (zlen (a ++ [c])) by (rewrite zlen_app; reflexivity); apply sub_app).
    assert (b = file) as <-. { replace (0 <=? zlen a) with true in E by lia. rewrite Sub in E. destruct (sv_rfindByte p (fun c0 => negb (sep c0)) (zlen a)); [|discriminate]. destruct (sv_left p (z + 1)); [|discriminate]. destruct (sv_left p (if bytes_eqb l (getDriveLetter w p) then z + 1 + 1 else z + 1)); [|discriminate]. injection E as _ E. exact E. }
    split; [unfold PathModel.split; rewrite Er; exact E|]. split; [rewrite <- app_assoc; exact Ea|]. split; [exact Nb|]. right. rewrite last_last. exact Hc.
Qed.
Lemma tail_unique (a c : list Z) (b d : list Z) : a ++ b = c ++ d -> (a = [] \/ sep (last a 0) = true) -> (c = [] \/ sep (last c 0) = true) -> none sep b -> none sep d -> a = c /\ b = d.
Proof.
  intros E Ha Hc Nb Nd. assert (K : forall x y u v : list Z, x ++ u = y ++ v -> (length x <= length y)%nat -> (y = [] \/ sep (last y 0) = true) -> none sep u -> x = y /\ u = v).
  { intros x y u v Exy L Hy Nu. assert (exists t, y = x ++ t /\ u = t ++ v) as (t & -> & ->).
    { exists (firstn (length y - length x) u). assert (F := f_equal (firstn (length y)) Exy). rewrite !firstn_app, firstn_all, Nat.sub_diag in F. cbn [firstn] in F. rewrite app_nil_r in F. rewrite (firstn_all2 x) in F by exact L. split; [symmetry; exact F|]. rewrite <- F in Exy. rewrite <- app_assoc in Exy. apply app_inv_head in Exy. exact Exy. }
    destruct t as [|t0 t]; [rewrite app_nil_r; split; reflexivity|]. exfalso. destruct Hy as [Hy|Hy]; [destruct x; discriminate Hy|]. rewrite last_app_nn in Hy by discriminate. unfold none in Nu. rewrite Forall_app in Nu. destruct Nu as (Nu & _). rewrite Forall_forall in Nu. rewrite (Nu (last (t0 :: t) 0)) in Hy by (apply last_in; discriminate). discriminate. }
  destruct (Nat.le_ge_cases (length a) (length c)) as [L|L]; [exact (K a c b d E L Hc Nb)|]. destruct (K c a d b (eq_sym E) L Ha Nd) as (-> & ->). split; reflexivity.
Qed.
Lemma mime_served ext mime : mimeOf ext = Some mime <-> In (ext, mime) served.
Proof.
  unfold mimeOf. split.
  - intros H. destruct (find (fun e => bytes_eqb (fst e) ext) mimeTypes) as [e|] eqn:E; [|discriminate]. injection H as <-. apply find_some in E. destruct E as (I & E). apply bytes_eqb_eq in E. subst ext. cbn in I. intuition (subst e; cbn; auto 10).
  - intros I. cbn [served In] in I. repeat (destruct I as [I|I]; [injection I as <- <-; reflexivity|]). destruct I.
Qed.
Lemma served_ext ext mime : In (ext, mime) served -> exists e, ext = dot :: e /\ Forall (fun c => sepOf w c = false) ext.
Proof. intros I. assert (K : forall e, sepOf w e = true -> e = slash \/ e = backslash) by (intros e; unfold sepOf; destruct w; lia). cbn [served In] in I. repeat (destruct I as [I|I]; [injection I as <- <-; eexists; split; [reflexivity|]; destruct w; repeat constructor|]). destruct I. Qed.
(** The extension that the code finds. *)
Lemma ext_found p ext : zlen p < 2 ^ 31 -> hasExt w p ext -> exists dir file, PathModel.split w p = Some (dir, file) /\ 0 < sv_findByte file (fun c => c =? 46) 0 /\ sv_subStr1 file (sv_findByte file (fun c => c =? 46) 0) = Some ext.
Proof.
  intros Hl (d & stem & Ep & Hd & Hs & Hst & He & Hne). destruct (split_file p Hl) as (dir & d' & file & E & Ep' & Nf & Hd'). exists dir, file. split; [exact E|].
  assert (d' = d /\ file = stem ++ ext) as (_ & ->).
  { apply tail_unique; [congruence|exact Hd'|rewrite <- sepOf_eq; exact Hd|exact Nf|]. unfold none. rewrite Forall_app. split; [eapply Forall_impl; [|exact Hst]; intros x (Hx & _); rewrite <- sepOf_eq; exact Hx|eapply Forall_impl; [|exact Hne]; intros x Hx; rewrite <- sepOf_eq; exact Hx]. }
  assert (F : sv_findByte (stem ++ ext) (fun c => c =? 46) 0 = zlen stem).
  { destruct ext as [|e ext]; [discriminate He|]. cbn [hd] in He. subst e. unfold sv_findByte. cbn [Z.to_nat skipn]. assert (G : forall i, find_from (fun c => c =? 46) i (stem ++ dot :: ext) = i + zlen stem); [|rewrite G; lia]. clear -Hst. induction stem as [|c s IH]; intros i; [cbn; unfold zlen; cbn; lia|]. apply Forall_cons_iff in Hst. destruct Hst as ((_ & Hc) & Hst). cbn [app find_from]. unfold dot in Hc. replace (c =? 46) with false by lia. rewrite (IH Hst). unfold zlen. cbn [length]. lia. }
  rewrite F. split; [destruct stem; [contradiction|unfold zlen; cbn [length]; lia]|]. apply sub_app.
Qed.
Theorem fetch_found root req ext mime : zlen (beforeQuery req) < 2 ^ 31 -> sound w root = true -> stays (if full w root then 0 else 1) (namesOf w root) = true ->
  sound w (asked req) = true -> plain w (asked req) = true -> stays 0 (namesOf w (asked req)) = true -> In (ext, mime) served -> hasExt w (beforeQuery req) ext ->
  exists q, fetchPath w root req = Some (Some (q, mime)) /\ full w q = full w root /\
    forall cwd at_, resolve w cwd at_ q = resolve w cwd (resolve w cwd at_ root) (asked req) /\ within (resolve w cwd at_ root) (resolve w cwd at_ q).
Proof.
  intros Hl Hr Hrs Hs Hp Hst Hi Hx. destruct (join_two root (asked req) Hr Hs Hp) as (q & E & F & R); [apply stays_both; assumption|]. exists q. unfold fetchPath. pose proof (before_eq req) as B. cbv zeta in B. rewrite B. destruct (ext_found _ ext Hl Hx) as (dir & file & -> & Hpos & ->). replace (_ <=? 0) with false by lia.
  apply mime_served in Hi. rewrite Hi. unfold sv_trim. rewrite drop_eq. change (fun c : Z => c =? 47) with (fun c : Z => c =? slash). fold (asked req). rewrite E. split; [reflexivity|]. split; [exact F|]. intros cwd at_. split; [apply R|]. rewrite R. apply resolve_within; assumption.
Qed.
Theorem fetch_missing root req : zlen (beforeQuery req) < 2 ^ 31 -> (forall ext mime, In (ext, mime) served -> ~ hasExt w (beforeQuery req) ext) -> fetchPath w root req = Some None.
Proof.
  intros Hl Hx. unfold fetchPath. pose proof (before_eq req) as B. cbv zeta in B. rewrite B. set (p := beforeQuery req) in *. clearbody p. destruct (split_file p Hl) as (dir & d & file & -> & Ep & Nf & Hd). destruct (find_zero (fun c => c =? 46) file) as [(-> & N)|(a & c & b & Ef & -> & N & Hc)]; [reflexivity|].
  destruct (Z.leb_spec (zlen a) 0) as [L|L]; [reflexivity|]. rewrite Ef, sub_app. destruct (mimeOf (c :: b)) as [mime|] eqn:E; [|reflexivity]. exfalso. apply mime_served in E. apply (Hx _ _ E). exists d, a. rewrite Ef in Nf. unfold none in *. rewrite Forall_app in Nf. destruct Nf as (Na & Nb).
  split; [rewrite Ep, Ef; reflexivity|]. split; [rewrite sepOf_eq; exact Hd|]. split; [intros ->; cbn in L; lia|]. split; [|split; [cbn [hd]; unfold dot; lia|eapply Forall_impl; [|exact Nb]; intros x Hxx; rewrite sepOf_eq; exact Hxx]].
  rewrite Forall_forall in *. intros x I. split; [rewrite sepOf_eq; apply (Na x I)|]. pose proof (N x I). unfold dot. lia.
Qed.

(* ---- SourceCode ---- *)
Lemma norm_plain p : sound w p = true -> plain w p = true -> exists q, joinAndNormalize w [p] = Some q /\ plain w q = true /\ Forall (okName w) (namesOf w q) /\ tidy w q.
Proof.
  intros Hs Hp. pose proof (sound_ok w p Hs) as ((S1 & S2) & S3). rewrite (join_render w [p] (rev (fold_left nstep (namesOf w p) []))) by (try discriminate; apply self_plain; assumption). eexists. split; [reflexivity|].
  assert (Sh : shape w dots2 (fold_left nstep (namesOf w p) [])) by (apply norm_shape; [exact S3|exists [], []; auto]). destruct (shape_list w _ _ Sh) as (u & ns & -> & Hns & Hu).
  assert (Hu' : u = [] \/ u = [dots2]) by intuition. clear Hu. destruct (u ++ ns) as [|n l] eqn:E.
  - apply app_eq_nil in E. destruct E as (-> & ->). assert (D : exists t, render w [p] [] = [dot] ++ trail w t) by (unfold render; destruct (rev [p]) as [|[|a l] rr]; [exists false|exists true|exists false]; reflexivity). destruct D as (t & ->). destruct (read_dot w t) as (D1 & D2 & D3). split; [exact D1|]. rewrite D3. split; [constructor; [apply dot_ok|constructor]|left; exact D3].
  - assert (O : okName w n /\ n <> [dot] /\ Forall (fine w) l /\ (n = dots2 \/ fine w n)).
    { destruct Hu' as [->| ->]; cbn [app] in E.
      - subst ns. inversion Hns as [|x y Hf Hf2]; subst. split; [apply Hf|]. split; [apply Hf|]. split; [exact Hf2|right; exact Hf].
      - injection E as <- <-. split; [apply dots_ok|]. split; [discriminate|]. split; [exact Hns|left; reflexivity]. }
    destruct O as (O1 & O2 & O3 & O4). unfold render. rewrite join_names by apply O1. rewrite andb_true_r, trail_if. cbn [app]. destruct (names_tidy w n l (lastSep w [p]) O1 O2 O3 O4) as (T1 & T2 & T3 & T4 & T5). split; [exact T1|]. rewrite T3. split; [|exact T4]. constructor; [exact O1|]. eapply Forall_impl; [|exact O3]. intros x Hx. apply Hx.
Qed.
Lemma okNames_noDrives q : plain w q = true -> Forall (okName w) (namesOf w q) -> noDrives w q = true.
Proof.
  intros Hp H. unfold noDrives. apply orb_true_iff. destruct (Bool.bool_dec w true) as [Ew|Ew]; [right|left; destruct w; [contradiction|reflexivity]]. apply forallb_forall. intros n I. rewrite Forall_forall in H. destruct (H n I) as (_ & K). specialize (K Ew). destruct n as [|a [|b n]]; try reflexivity. rewrite K. reflexivity.
Qed.
Lemma plain_sound q : plain w q = true -> Forall (okName w) (namesOf w q) -> zlen q < 2 ^ 31 -> sound w q = true.
Proof. intros Hp Hn Hl. unfold sound. rewrite Hp, orb_true_r, okNames_noDrives by assumption. cbn [andb]. lia. Qed.
Definition srcAsked (req : list Z) : list Z := dropFirst (isSepByte w) req.
(** The source file is in the root folder or in its parent: all of "../../.." but one at most is lost. *)
Theorem source_near root req : sound w root = true -> full w root = true -> stays 0 (namesOf w root) = true -> fold_left go (namesOf w root) [] <> [] ->
  sound w (dropFirst (sepOf w) req) = true -> plain w (dropFirst (sepOf w) req) = true ->
  exists q, joinAndNormalize w [dropFirst (sepOf w) req] = Some q /\
    (zlen q < 2 ^ 31 -> exists q', sourcePath w root req = Some q' /\ full w q' = true /\
       forall cwd at_, resolve w cwd at_ q' = resolve w cwd (resolve w cwd at_ root) q /\ within (parent (resolve w cwd at_ root)) (resolve w cwd at_ q')).
Proof.
  intros Hr Hf Hrs Hd Hs Hp. destruct (norm_plain _ Hs Hp) as (q & E & P & O & T). exists q. split; [exact E|]. intros Hl. unfold sourcePath, sv_trim. rewrite drop_eq. assert (D : dropFirst sep req = dropFirst (sepOf w) req) by (clear; induction req as [|c r IH]; [reflexivity|]; cbn [dropFirst]; rewrite IH, sepOf_eq; reflexivity). rewrite D, E.
  assert (St : stays 1 (namesOf w q) = true).
  { destruct T as [->|(u & ns & -> & Hns & [->|(-> & _)])]; [reflexivity|apply (stays_fine ns Hns)|]. cbn [app stays]. destruct (list_eq_dec Z.eq_dec [dot; dot] [dot]); [discriminate|]. destruct (list_eq_dec Z.eq_dec [dot; dot] [dot; dot]); [|congruence]. apply (stays_fine ns Hns). }
  destruct (join_two root q Hr (plain_sound q P O Hl) P) as (q' & E' & F' & R').
  { rewrite Hf. pose proof (stays_app (namesOf w root) [] (namesOf w q)) as A. cbn [length] in A. rewrite A by exact Hrs. apply (stays_more _ 1); [destruct (fold_left go (namesOf w root) []); [contradiction|cbn [length]; lia]|exact St]. }
  exists q'. split; [exact E'|]. split; [rewrite F'; exact Hf|]. intros cwd at_. split; [apply R'|]. rewrite R', (resolve_plain w cwd _ q P). split; [reflexivity|]. cbn [snd fst parent]. set (dir := snd (resolve w cwd at_ root)).
  destruct T as [->|(u & ns & -> & Hns & Hu)].
  - cbn [fold_left]. unfold go at 1. destruct (list_eq_dec Z.eq_dec [dot] [dot]); [|congruence]. destruct dir as [|x dir]; [exists []; reflexivity|exists [x]; reflexivity].
  - rewrite fold_left_app. rewrite go_ordinary by exact Hns. destruct Hu as [->|(-> & _)].
    + cbn [fold_left]. destruct dir as [|x dir]; [exists (rev ns); reflexivity|exists (rev ns ++ [x]); rewrite <- app_assoc; reflexivity].
    + cbn [fold_left]. exists (rev ns). reflexivity.
Qed.
(** A path that does not go up stays in the root folder. *)
Theorem source_inside root req : sound w root = true -> full w root = true -> stays 0 (namesOf w root) = true ->
  sound w (dropFirst (sepOf w) req) = true -> plain w (dropFirst (sepOf w) req) = true -> stays 0 (namesOf w (dropFirst (sepOf w) req)) = true ->
  exists q, joinAndNormalize w [dropFirst (sepOf w) req] = Some q /\
    (zlen q < 2 ^ 31 -> exists q', sourcePath w root req = Some q' /\ full w q' = true /\
       forall cwd at_, resolve w cwd at_ q' = resolve w cwd (resolve w cwd at_ root) (dropFirst (sepOf w) req) /\ within (resolve w cwd at_ root) (resolve w cwd at_ q')).
Proof.
  intros Hr Hf Hrs Hs Hp Hst. destruct (norm_plain _ Hs Hp) as (q & E & P & O & T). exists q. split; [exact E|]. intros Hl. unfold sourcePath, sv_trim. rewrite drop_eq. assert (D : dropFirst sep req = dropFirst (sepOf w) req) by (clear; induction req as [|c r IH]; [reflexivity|]; cbn [dropFirst]; rewrite IH, sepOf_eq; reflexivity). rewrite D, E.
  destruct (join_meaning_full w [dropFirst (sepOf w) req]) as (q1 & E1 & _ & R1); [discriminate|cbn [forallb]; rewrite Hs; reflexivity|cbn [route]; rewrite (plain_notfull _ Hp); cbn [fst snd app]; apply (stays_more _ 0); [lia|exact Hst]|]. rewrite E in E1. injection E1 as <-. cbn [fold_left] in R1.
  set (file := dropFirst (sepOf w) req) in *. assert (Go : forall l, fold_left go (namesOf w q) l = fold_left go (namesOf w file) l) by (intros l; specialize (R1 (fun _ => []) (0, l)); rewrite !resolve_plain in R1 by assumption; cbn [snd] in R1; congruence).
  assert (Sq : stays 0 (namesOf w q) = true).
  { destruct T as [->|(u & ns & Eq & Hns & [->|(-> & _)])]; [reflexivity|rewrite Eq; apply (stays_fine ns Hns)|]. exfalso. assert (K1 := Go []). assert (K2 := Go [[0]]). pose proof (go_above [[0]] (namesOf w file) [] Hst) as K3. cbn [app] in K3. rewrite K3 in K2. rewrite <- K1, Eq in K2. rewrite !fold_left_app in K2. cbn [fold_left] in K2. change (go [] [dot; dot]) with (@nil (list Z)) in K2. change (go [[0]] [dot; dot]) with (@nil (list Z)) in K2. apply (f_equal (@length _)) in K2. rewrite app_length in K2. cbn [length] in K2. lia. }
  destruct (join_two root q Hr (plain_sound q P O Hl) P) as (q' & E' & F' & R'); [rewrite Hf; apply stays_both; assumption|]. exists q'. split; [exact E'|]. split; [rewrite F'; exact Hf|]. intros cwd at_. rewrite R'. split; [apply R1|]. apply resolve_within; assumption.
Qed.
End Files.

(* ---- on POSIX ---- *)
Lemma names_slashed ns : Forall (fun n => n <> [] /\ Forall (fun c => c <> slash) n) ns -> names (isSepByte false) (slashed ns) = ns.
Proof.
  assert (K : forall n, Forall (fun c => c <> slash) n -> none (isSepByte false) n) by (intros n F; eapply Forall_impl; [|exact F]; intros x Hx; rewrite <- sepOf_eq; unfold sepOf; apply Z.eqb_neq; exact Hx).
  induction 1 as [|n ns (Hn & Hc) Hns IH]; [reflexivity|]. unfold slashed in *. cbn [flat_map app]. rewrite names_sep by reflexivity. destruct ns as [|m ns].
  - cbn [flat_map]. rewrite app_nil_r. apply names_one; [apply K, Hc|exact Hn].
  - cbn [flat_map] in *. change ((slash :: m) ++ flat_map (cons slash) ns) with (slash :: m ++ flat_map (cons slash) ns) in *. rewrite names_word; [|apply K, Hc|exact Hn|reflexivity]. rewrite names_sep in IH by reflexivity. rewrite IH. reflexivity.
Qed.
Lemma full_slashed n ns : full false (slashed (n :: ns)) = true /\ anchorOf false (slashed (n :: ns)) = Root.
Proof. split; reflexivity. Qed.
Definition posixName (n : list Z) : Prop := n <> [] /\ Forall (fun c => c <> slash) n.
Lemma asked_slashed n ns : Forall (fun n => posixName n /\ ~ In 63 n) (n :: ns) -> beforeQuery (slashed (n :: ns)) = slashed (n :: ns) /\ asked (slashed (n :: ns)) = n ++ slashed ns /\ namesOf false (n ++ slashed ns) = n :: ns /\ plain false (n ++ slashed ns) = true.
Proof.
  intros H. assert (B : forall l, ~ In 63 l -> beforeQuery l = l) by (induction l as [|c l IH]; intros I; [reflexivity|]; cbn [beforeQuery]; destruct (Z.eqb_spec c 63) as [->|_]; [exfalso; apply I; left; reflexivity|]; rewrite IH; [reflexivity|intros J; apply I; right; exact J]).
  assert (NQ : ~ In 63 (slashed (n :: ns))) by (intros I; apply in_flat_map in I; destruct I as (x & Ix & [I|I]); [discriminate I|]; rewrite Forall_forall in H; apply (proj2 (H x Ix)); exact I).
  assert (Hn : Forall (fun n => n <> [] /\ Forall (fun c => c <> slash) n) (n :: ns)) by (eapply Forall_impl; [|exact H]; intros x (Hx & _); exact Hx). split; [apply B, NQ|].
  pose proof (Forall_inv Hn) as (N1 & N2). destruct n as [|c n]; [contradiction|]. apply Forall_inv in N2 as N3. assert (S0 : (c =? slash) = false) by lia. assert (A : asked (slashed ((c :: n) :: ns)) = (c :: n) ++ slashed ns).
  { unfold asked. rewrite B by exact NQ. unfold slashed at 1. cbn [flat_map app dropFirst]. change (slash =? slash) with true. cbv iota. rewrite S0. reflexivity. }
  split; [exact A|]. assert (P : anchorOf false ((c :: n) ++ slashed ns) = Here) by (cbn [app anchorOf sepOf]; rewrite S0; reflexivity). split; [|unfold plain; rewrite P; reflexivity].
  unfold namesOf. rewrite P. pose proof (names_slashed ((c :: n) :: ns) Hn) as K. unfold slashed in K. cbn [flat_map] in K. change ((slash :: c :: n) ++ flat_map (cons slash) ns) with (slash :: (c :: n) ++ slashed ns) in K. rewrite names_sep in K by reflexivity. etransitivity; [|exact K]. apply names_ext. intros x. apply sepOf_eq.
Qed.
Lemma up_name : posixName up /\ ~ In 63 up.
Proof. split; [split; [discriminate|repeat constructor; discriminate]|cbn; intuition discriminate]. Qed.
Lemma go_ups dir : forall l, length dir = l -> fold_left go (repeat up l) dir = [].
Proof. induction dir as [|x dir IH]; intros l E; subst l; [reflexivity|]. cbn [length repeat fold_left]. change (go (x :: dir) up) with dir. apply IH. reflexivity. Qed.
Lemma stays_ups l : forall d, (l <= d)%nat -> stays d (repeat up l) = true.
Proof. induction l as [|l IH]; intros d L; [reflexivity|]. cbn [repeat stays]. destruct (list_eq_dec Z.eq_dec up [dot]); [discriminate|]. destruct (list_eq_dec Z.eq_dec up [dot; dot]); [|exfalso; match goal with H : up <> _ |- _ => apply H; reflexivity end]. destruct d as [|d]; [lia|]. apply IH. lia. Qed.
Lemma ups_snoc (T : list (list Z)) l : T <> [] -> exists n ns, repeat up l ++ T = n :: ns.
Proof. intros H. destruct l; [destruct T; [contradiction|eexists _, _; reflexivity]|eexists _, _; reflexivity]. Qed.
Lemma posix_sound p : plain false p = true -> zlen p < 2 ^ 31 -> sound false p = true.
Proof. intros Hp Hl. unfold sound, noDrives. rewrite Hp, orb_true_r. cbn [negb orb andb]. lia. Qed.
Lemma posix_sound_full p : full false p = true -> zlen p < 2 ^ 31 -> sound false p = true.
Proof. intros Hp Hl. unfold sound, noDrives. rewrite Hp. cbn [negb orb andb]. lia. Qed.
(** Every file with an extension that is served can be had, wherever it is. *)
Theorem fetch_escapes N T dir stem ext mime : N <> [] -> Forall fileName N -> Forall fileName (T ++ [stem ++ ext]) -> In (ext, mime) served -> stem <> [] -> ~ In dot stem ->
  zlen (slashed N) < 2 ^ 31 -> zlen (slashed (repeat up (length N) ++ T ++ [stem ++ ext])) < 2 ^ 31 -> dir = slashed N ->
  exists q, fetchPath false dir (slashed (repeat up (length N) ++ T ++ [stem ++ ext])) = Some (Some (q, mime)) /\ full false q = true /\
    forall cwd at_, resolve false cwd at_ q = (fst at_, rev (T ++ [stem ++ ext])).
Proof.
  intros HN0 HN HT Hi Hs0 Hsd Hl1 Hl2 ->. assert (FN : forall ns, Forall fileName ns -> Forall (fun n => posixName n /\ ~ In 63 n) ns).
  { intros ns. apply Forall_impl. intros n (F1 & F2 & _). split; [split; [exact F1|eapply Forall_impl; [|exact F2]; intros c (C & _); exact C]|]. intros I. rewrite Forall_forall in F2. destruct (F2 63 I) as (_ & K). congruence. }
  assert (PN : forall ns, Forall fileName ns -> Forall (fun n => n <> [] /\ Forall (fun c => c <> slash) n) ns) by (intros ns H; eapply Forall_impl; [|exact (FN ns H)]; intros n (Hn & _); exact Hn).
  assert (ON : forall ns, Forall fileName ns -> Forall ordinary ns) by (intros ns; apply Forall_impl; intros n (_ & _ & O); exact O).
  set (P := repeat up (length N) ++ T ++ [stem ++ ext]) in *. assert (FP : Forall (fun n => posixName n /\ ~ In 63 n) P) by (apply Forall_app; split; [apply Forall_forall; intros x I; apply repeat_spec in I; subst x; exact up_name|apply FN, HT]).
  destruct (ups_snoc (T ++ [stem ++ ext]) (length N)) as (n & ns & EP); [destruct T; discriminate|]. fold P in EP. rewrite EP in FP. destruct (asked_slashed n ns FP) as (B & A & NA & PA). rewrite <- EP in *.
  destruct N as [|n0 N']; [contradiction|]. destruct (full_slashed n0 N') as (FR & AR). set (N := n0 :: N') in *.
  assert (NR : namesOf false (slashed N) = N) by (unfold namesOf; rewrite AR; etransitivity; [|exact (names_slashed N (PN N HN))]; apply names_ext; intros x; apply sepOf_eq).
  assert (La : zlen (asked (slashed P)) < 2 ^ 31).
  { rewrite A. rewrite EP in Hl2. unfold slashed in Hl2. cbn [flat_map] in Hl2. change ((slash :: n) ++ flat_map (cons slash) ns) with ([slash] ++ n ++ slashed ns) in Hl2. rewrite zlen_app in Hl2. change (zlen [slash]) with 1 in Hl2. lia. }
  assert (St : stays 0 (N ++ P) = true). { pose proof (stays_app N [] P (stays_fine N (ON N HN) 0)) as E. cbn [length] in E. rewrite E. rewrite go_ordinary by (apply ON, HN). rewrite app_nil_r, rev_length. unfold P. apply stays_both; [apply stays_ups; lia|]. apply (stays_fine _ (ON _ HT)). }
  assert (Go : fold_left go P (fold_left go N []) = rev (T ++ [stem ++ ext])). { unfold P. rewrite fold_left_app. rewrite (go_ordinary N (ON N HN)), app_nil_r. rewrite go_ups by apply rev_length. rewrite go_ordinary by (apply ON, HT). apply app_nil_r. }
  destruct (join_two false (slashed N) (asked (slashed P))) as (q & E & F & R); [apply posix_sound_full; assumption|rewrite A in *; apply posix_sound; assumption|rewrite A; exact PA|rewrite FR, NR, A, NA; exact St|].
  exists q. split.
  - unfold fetchPath. pose proof (before_eq (slashed P)) as BE. cbv zeta in BE. rewrite BE. destruct (ext_found false (beforeQuery (slashed P)) ext) as (d & file & -> & Hpos & ->); [rewrite B; exact Hl2| |].
    + rewrite B. unfold P. exists (slashed (repeat up (length N) ++ T) ++ [slash]), stem. split; [unfold slashed; rewrite !flat_map_app; cbn [flat_map]; rewrite app_nil_r, <- !app_assoc; reflexivity|]. split; [right; rewrite last_last; reflexivity|]. split; [exact Hs0|]. apply Forall_app in HT. destruct HT as (_ & HT). apply Forall_inv in HT. destruct HT as (_ & HT & _). apply Forall_app in HT. destruct HT as (H1 & H2). split.
      * rewrite Forall_forall in *. intros x I. destruct (H1 x I) as (C & _). split; [unfold sepOf; lia|]. intros ->. exact (Hsd I).
      * destruct (served_ext false ext mime Hi) as (e & -> & Fe). split; [reflexivity|exact Fe].
    + replace (_ <=? 0) with false by lia. apply mime_served in Hi. rewrite Hi. unfold sv_trim. rewrite drop_eq. change (fun c : Z => c =? 47) with (fun c : Z => c =? slash). fold (asked (slashed P)). rewrite E. reflexivity.
  - split; [rewrite F; exact FR|]. intros cwd at_. rewrite R. rewrite (resolve_full false cwd at_ (slashed N) FR), AR, NR. rewrite A. rewrite (resolve_plain false cwd _ _ PA). cbn [fst snd]. rewrite NA, Go. reflexivity.
Qed.
(** One step out of the folder of the sources. *)
Theorem source_escapes N n0 T : Forall fileName (N ++ [n0]) -> T <> [] -> Forall fileName T -> zlen (slashed (N ++ [n0])) < 2 ^ 31 -> zlen (slashed (up :: T)) < 2 ^ 31 ->
  exists q q', joinAndNormalize false [dropFirst (sepOf false) (slashed (up :: T))] = Some q /\ (zlen q < 2 ^ 31 -> sourcePath false (slashed (N ++ [n0])) (slashed (up :: T)) = Some q' /\ full false q' = true /\
    forall cwd at_, resolve false cwd at_ q' = (fst at_, rev (N ++ T))).
Proof.
  intros HN HT0 HT Hl1 Hl2. assert (FN : forall ns, Forall fileName ns -> Forall (fun n => posixName n /\ ~ In 63 n) ns).
  { intros ns. apply Forall_impl. intros n (F1 & F2 & _). split; [split; [exact F1|eapply Forall_impl; [|exact F2]; intros c (C & _); exact C]|]. intros I. rewrite Forall_forall in F2. destruct (F2 63 I) as (_ & K). congruence. }
  assert (PN : forall ns, Forall fileName ns -> Forall (fun n => n <> [] /\ Forall (fun c => c <> slash) n) ns) by (intros ns H; eapply Forall_impl; [|exact (FN ns H)]; intros n (Hn & _); exact Hn).
  assert (ON : forall ns, Forall fileName ns -> Forall ordinary ns) by (intros ns; apply Forall_impl; intros n (_ & _ & O); exact O).
  assert (FP : Forall (fun n => posixName n /\ ~ In 63 n) (up :: T)) by (constructor; [exact up_name|apply FN, HT]). destruct (asked_slashed up T FP) as (B & A & NA & PA). unfold asked in A. rewrite B in A.
  assert (D : dropFirst (sepOf false) (slashed (up :: T)) = up ++ slashed T) by (exact A). rewrite D.
  assert (La : zlen (up ++ slashed T) < 2 ^ 31). { unfold slashed in Hl2. cbn [flat_map] in Hl2. change ((slash :: up) ++ flat_map (cons slash) T) with ([slash] ++ up ++ slashed T) in Hl2. rewrite zlen_app in Hl2. change (zlen [slash]) with 1 in Hl2. lia. }
  assert (Sa : sound false (up ++ slashed T) = true) by (apply posix_sound; assumption). destruct (N ++ [n0]) as [|m N'] eqn:EN; [destruct N; discriminate|]. destruct (full_slashed m N') as (FR & AR).
  assert (NR : namesOf false (slashed (m :: N')) = m :: N') by (unfold namesOf; rewrite AR; etransitivity; [|exact (names_slashed (m :: N') (PN _ HN))]; apply names_ext; intros x; apply sepOf_eq).
  destruct (source_near false (slashed (m :: N')) (slashed (up :: T))) as (q & E & K); [apply posix_sound_full; assumption|exact FR|rewrite NR; apply (stays_fine _ (ON _ HN))|rewrite NR, (go_ordinary _ (ON _ HN)), app_nil_r; intros Z; apply (f_equal (@length _)) in Z; rewrite rev_length in Z; discriminate Z|rewrite D; exact Sa|rewrite D; exact PA|].
  rewrite D in E. exists q. destruct (Z.ltb_spec (zlen q) (2 ^ 31)) as [L|L]; [|exists []; split; [exact E|lia]]. destruct (K L) as (q' & K1 & K2 & K3). exists q'. split; [exact E|]. intros _. split; [exact K1|]. split; [exact K2|]. intros cwd at_. destruct (K3 cwd at_) as (-> & _).
  destruct (join_meaning_full false [up ++ slashed T]) as (q1 & E1 & _ & R1); [discriminate|cbn [forallb]; rewrite Sa; reflexivity| |].
  { cbn [route]. rewrite (plain_notfull false _ PA). cbn [fst snd app]. rewrite NA. cbn [stays]. destruct (list_eq_dec Z.eq_dec up [dot]); [discriminate|]. destruct (list_eq_dec Z.eq_dec up [dot; dot]); [|exfalso; match goal with H : up <> _ |- _ => apply H; reflexivity end]. apply (stays_fine _ (ON _ HT)). }
  rewrite E in E1. injection E1 as <-. rewrite R1. cbn [fold_left]. rewrite (resolve_full false cwd at_ _ FR), AR, NR. rewrite (resolve_plain false cwd _ _ PA). cbn [fst snd]. rewrite NA. rewrite (go_ordinary _ (ON _ HN)), app_nil_r, <- EN, rev_app_distr. cbn [fold_left rev app]. change (go (n0 :: rev N) up) with (rev N). rewrite (go_ordinary _ (ON _ HT)), rev_app_distr. reflexivity.
Qed.

(* ---- DocServer ---- *)
Lemma names_append w a x : x <> [] -> none (isSepByte w) x -> exists ns n, names (isSepByte w) (a ++ x) = ns ++ [n ++ x] /\ names (isSepByte w) a = ns ++ (match n with [] => [] | _ => [n] end).
Proof.
  intros Hx Nx. assert (D : (exists n, a = n /\ none (isSepByte w) n) \/ exists pre s n, a = pre ++ s :: n /\ isSepByte w s = true /\ none (isSepByte w) n).
  { induction a as [|c a IH]; [left; exists []; split; [reflexivity|constructor]|]. destruct IH as [(n & -> & Nn)|(pre & s & n & -> & Hs & Nn)]; [|right; exists (c :: pre), s, n; auto]. destruct (isSepByte w c) eqn:E; [right; exists [], c, n; auto|left; exists (c :: n); split; [reflexivity|constructor; assumption]]. }
  assert (O : forall n, none (isSepByte w) n -> names (isSepByte w) (n ++ x) = [n ++ x]) by (intros n Nn; apply names_one; [apply Forall_app; split; assumption|destruct n; [exact Hx|discriminate]]).
  assert (O2 : forall n, none (isSepByte w) n -> names (isSepByte w) n = match n with [] => [] | _ => [n] end) by (intros n Nn; destruct n; [reflexivity|apply names_one; [exact Nn|discriminate]]).
  destruct D as [(n & -> & Nn)|(pre & s & n & -> & Hs & Nn)].
  - exists [], n. split; [apply O, Nn|apply O2, Nn].
  - exists (names (isSepByte w) pre), n. rewrite <- app_assoc. cbn [app]. rewrite !names_cut by exact Hs. rewrite (O n Nn), (O2 n Nn). split; reflexivity.
Qed.
Lemma full_names q : full false q = true -> anchorOf false q = Root /\ namesOf false q = names (isSepByte false) q.
Proof. intros F. destruct (full_inv false q F) as (_ & K). destruct (K eq_refl) as (s & r & -> & Hs & A). split; [exact A|]. unfold namesOf. rewrite A. apply names_ext. intros x. apply sepOf_eq. Qed.
Lemma full_app q x : full false q = true -> full false (q ++ x) = true.
Proof. intros F. destruct q as [|c q]; [discriminate|exact F]. Qed.
Lemma tidy_names q : full false q = true -> tidy false q -> namesOf false q = [[dot]] \/ Forall ordinary (namesOf false q).
Proof. intros F [E|(u & ns & E & H & [->|(_ & K)])]; [left; exact E|right; rewrite E; exact H|congruence]. Qed.
Lemma join_tidy_full cs q : cs <> [] -> forallb (sound false) cs = true -> joinAndNormalize false cs = Some q -> full false q = true -> namesOf false q = [[dot]] \/ Forall ordinary (namesOf false q).
Proof. intros H1 H2 H3 F. destruct (join_tidy_text false cs H1 H2) as (q' & E & T & _). rewrite H3 in E. injection E as <-. apply tidy_names; assumption. Qed.
Lemma last_join root q : sound false root = true -> full false q = true -> zlen q < 2 ^ 31 -> (namesOf false q = [[dot]] \/ Forall ordinary (namesOf false q)) ->
  exists q', joinAndNormalize false [root; txt "pages"; q] = Some q' /\ full false q' = true /\ forall cwd at_, resolve false cwd at_ q' = resolve false cwd at_ q.
Proof.
  intros Hr Hf Hl Ho. destruct (join_meaning_full false [root; txt "pages"; q]) as (q' & E & F & R); [discriminate|cbn [forallb]; rewrite Hr, (posix_sound_full q Hf Hl); reflexivity| |].
  - assert (RT : route false false [] [root; txt "pages"; q] = (true, namesOf false q)) by (cbn [route]; rewrite Hf; destruct (full false root); reflexivity). rewrite RT. cbn [fst snd]. destruct Ho as [->|Ho]; [reflexivity|apply stays_fine, Ho].
  - exists q'. split; [exact E|]. split; [rewrite F; cbn [existsb]; rewrite Hf, !orb_true_r; reflexivity|]. intros cwd at_. rewrite R. cbn [fold_left]. set (l := resolve false cwd (resolve false cwd at_ root) (txt "pages")). destruct (full_names q Hf) as (A & _). assert (Fst : fst l = fst at_) by (apply (posix_fst false cwd [root; txt "pages"] at_ eq_refl)). unfold resolve. rewrite A. rewrite Fst. reflexivity.
Qed.
Theorem page_ok (isDir : list Z -> bool) root req : sound false root = true -> full false root = true -> stays 0 (namesOf false root) = true ->
  sound false req = true -> plain false req = true -> stays 0 (namesOf false req) = true ->
  exists q a, joinAndNormalize false [root; txt "pages"; req] = Some q /\
    (zlen q < 2 ^ 31 -> (if isDir q then joinAndNormalize false [q; txt "index.html"] = Some a else a = q ++ txt ".html") /\
     (zlen a < 2 ^ 31 -> exists q', pagePath false isDir root req = Some (Some q') /\ full false q' = true /\
      forall cwd at_, let pages := resolve false cwd (resolve false cwd at_ root) (txt "pages") in
        resolve false cwd at_ q' = resolve false cwd at_ a /\
        (isDir q = true -> resolve false cwd at_ q' = resolve false cwd (resolve false cwd pages req) (txt "index.html") /\ within pages (resolve false cwd at_ q')) /\
        (isDir q = false -> fold_left go (namesOf false req) [] <> [] -> within pages (resolve false cwd at_ q')))).
Proof.
  intros Hr Hf Hrs Hs Hp Hst. pose proof (plain_notfull false req Hp) as Np. assert (NR : forallb (sound false) [root; txt "pages"; req] = true) by (cbn [forallb]; rewrite Hr, Hs; reflexivity).
  assert (RT : route false false [] [root; txt "pages"; req] = (true, (namesOf false root ++ [txt "pages"]) ++ namesOf false req)) by (cbn [route]; rewrite Hf, Np; reflexivity).
  assert (OP : Forall ordinary [txt "pages"]) by (constructor; [split; discriminate|constructor]).
  destruct (join_meaning_full false [root; txt "pages"; req]) as (q & E & F & R); [discriminate|exact NR|rewrite RT; cbn [fst snd]; apply stays_both; [apply stays_both; [exact Hrs|reflexivity]|exact Hst]|]. cbn [existsb] in F. rewrite Hf in F. cbn [orb] in F. cbn [fold_left] in R.
  set (pg := fun (cwd : Z -> list (list Z)) (at_ : loc) => resolve false cwd (resolve false cwd at_ root) (txt "pages")). assert (Pg : forall cwd at_, exists d, snd (pg cwd at_) = txt "pages" :: d) by (intros cwd at_; exists (snd (resolve false cwd at_ root)); reflexivity).
  assert (W : forall cwd at_, within (pg cwd at_) (resolve false cwd at_ q)) by (intros cwd at_; rewrite R; apply resolve_within; assumption).
  destruct (full_names q F) as (A & NQ). assert (Ord : Forall ordinary (namesOf false q)).
  { destruct (join_tidy_full [root; txt "pages"; req] q ltac:(discriminate) NR E F) as [D|O]; [|exact O]. exfalso. destruct (W (fun _ => []) (0, [])) as (_ & x & Ex). destruct (Pg (fun _ => []) (0, [])) as (d & Ed). rewrite Ed in Ex. unfold resolve in Ex. rewrite A, D in Ex. cbn in Ex. destruct x; discriminate Ex. }
  assert (Rq : forall cwd at_, resolve false cwd at_ q = (fst at_, rev (namesOf false q))) by (intros cwd at_; unfold resolve; rewrite A, (go_ordinary _ Ord), app_nil_r; reflexivity).
  assert (PP : isAbsolute false req = false) by (rewrite full_abs; exact Np).
  destruct (isDir q) eqn:Dq.
  - destruct (Z.ltb_spec (zlen q) (2 ^ 31)) as [Lq|Lq]; [|exists q, []; split; [exact E|lia]]. destruct (join_two false q (txt "index.html")) as (a & Ea & Fa & Ra); [apply posix_sound_full; assumption|reflexivity|reflexivity|rewrite F; apply stays_both; [apply (stays_fine _ Ord)|reflexivity]|].
    exists q, a. split; [exact E|]. intros _. rewrite Dq. split; [exact Ea|]. intros La. rewrite F in Fa. destruct (last_join root a Hr Fa La) as (q' & Eq & Fq & Rq').
    { apply (join_tidy_full [q; txt "index.html"]); [discriminate|cbn [forallb]; rewrite (posix_sound_full q F Lq); reflexivity|exact Ea|exact Fa]. }
    exists q'. unfold pagePath. rewrite PP, E, Dq, Ea, Eq. split; [reflexivity|]. split; [exact Fq|]. intros cwd at_. cbv zeta. fold (pg cwd at_). split; [apply Rq'|]. split; [|discriminate]. intros _. rewrite Rq', Ra, R. split; [reflexivity|]. rewrite <- R. destruct (W cwd at_) as (W1 & x & W2). split; [exact W1|]. exists (txt "index.html" :: x). change (snd (resolve false cwd (resolve false cwd at_ q) (txt "index.html"))) with (txt "index.html" :: snd (resolve false cwd at_ q)). rewrite W2. reflexivity.
  - exists q, (q ++ txt ".html"). split; [exact E|]. intros _. rewrite Dq. split; [reflexivity|]. intros La. pose proof (full_app q (txt ".html") F) as Fa. destruct (full_names _ Fa) as (Aa & Na).
    destruct (names_append false q (txt ".html")) as (ns & n & N1 & N2); [discriminate|repeat constructor|]. rewrite <- Na in N1. rewrite <- NQ in N2.
    assert (On : Forall ordinary (namesOf false (q ++ txt ".html"))). { rewrite N1. rewrite N2 in Ord. apply Forall_app in Ord. apply Forall_app. split; [apply Ord|]. constructor; [|constructor]. split; intros K; apply (f_equal (@length _)) in K; rewrite app_length in K; cbn in K; lia. }
    destruct (last_join root _ Hr Fa La (or_intror On)) as (q' & Eq & Fq & Rq'). exists q'. unfold pagePath. rewrite PP, E, Dq, Eq. split; [reflexivity|]. split; [exact Fq|]. intros cwd at_. cbv zeta. fold (pg cwd at_). split; [apply Rq'|]. split; [discriminate|]. intros _ Hne. rewrite Rq'.
    assert (Ra : resolve false cwd at_ (q ++ txt ".html") = (fst at_, rev (namesOf false (q ++ txt ".html")))) by (unfold resolve; rewrite Aa, (go_ordinary _ On), app_nil_r; reflexivity). rewrite Ra, N1.
    destruct (W cwd at_) as (W1 & x & W2). rewrite Rq in W1, W2. cbn [fst snd] in *. split; [exact W1|]. cbn [snd]. rewrite rev_app_distr. cbn [rev app]. rewrite N2, rev_app_distr in W2.
    assert (X : x <> []).
    { intros ->. cbn [app] in W2. rewrite <- rev_app_distr, <- N2 in W2. pose proof (R cwd at_) as R'. fold (pg cwd at_) in R'. rewrite Rq, (resolve_plain false cwd _ _ Hp) in R'. apply (f_equal snd) in R'. cbn [snd] in R'. rewrite W2 in R'. pose proof (go_above (snd (pg cwd at_)) (namesOf false req) [] Hst) as G. cbn [app] in G. rewrite G in R'. apply (f_equal (@length _)) in R'. rewrite app_length in R'. destruct (fold_left go (namesOf false req) []); [contradiction|cbn [length] in R'; lia]. }
    destruct n as [|c n].
    + cbn [rev app] in W2. rewrite W2. exists (([] ++ txt ".html") :: x). reflexivity.
    + cbn [rev app] in W2. destruct x as [|y x]; [contradiction|]. cbn [app] in W2. injection W2 as _ W2. rewrite W2. exists (((c :: n) ++ txt ".html") :: x). reflexivity.
Qed.
Theorem fetch_gives w load root req l : (forall p bin, load p = Some bin -> zlen bin < 2 ^ 64) -> fetch w load root req = Some l ->
  l = respondGeneric NotFound /\ (fetchPath w root req = Some None \/ exists q mime, fetchPath w root req = Some (Some (q, mime)) /\ load q = None) \/
  exists q mime bin, fetchPath w root req = Some (Some (q, mime)) /\ load q = Some bin /\ gives l (fileAnswer mime bin).
Proof.
  intros Hload. unfold fetch. destruct (fetchPath w root req) as [[(q, mime)|]|] eqn:E; [|intros H; injection H as <-; left; auto|discriminate]. destruct (load q) as [bin|] eqn:El; [|intros H; injection H as <-; left; split; [reflexivity|right; exists q, mime; auto]].
  intros H. injection H as <-. right. exists q, mime, bin. split; [reflexivity|]. split; [exact El|].
  assert (M : In mime (map snd served)).
  { unfold fetchPath in E. destruct (if 0 <=? sv_findByte req (fun c => c =? 63) 0 then _ else _); [|discriminate]. destruct (PathModel.split w l) as [[d f]|]; [|discriminate]. destruct (_ <=? 0); [discriminate|]. destruct (sv_subStr1 f _) as [ext|]; [|discriminate]. destruct (mimeOf ext) eqn:Em; [|discriminate]. destruct (joinAndNormalize w _); [|discriminate]. injection E as <- <-. apply mime_served in Em. apply (in_map snd) in Em. exact Em. }
  exists [Out (txt "Content-Type: " ++ mime ++ crlf); Out (txt "Cache-Control: max-age=1200" ++ crlf ++ crlf)], [Out bin]. split; [reflexivity|]. split; [reflexivity|]. split; [reflexivity|]. split; [unfold written, fileAnswer; cbn [flat_map alines map concat]; rewrite <- !app_assoc; reflexivity|]. split; [apply app_nil_r|]. split; [|apply (Hload q bin El)].
  cbn [fileAnswer alines]. constructor; [|constructor; [|constructor]].
  - cbn [map served snd In] in M. repeat (destruct M as [<-|M]; [split; [discriminate|]; split; [cbn; intuition discriminate|]; split; [cbn; intuition discriminate|discriminate]|]). destruct M.
  - split; [discriminate|]. split; [cbn; intuition discriminate|]. split; [cbn; intuition discriminate|discriminate].
Qed.
