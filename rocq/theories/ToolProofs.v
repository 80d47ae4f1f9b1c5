(* The arguments of plytool are read as what they mean. *)
From Coq Require Import Lia ZifyBool ZifyNat String.
From Verif Require Import Txt.
From Verif Require Export ToolSpec.
From Verif Require Import StringViewProofs.
Local Open Scope string_scope.
Local Open Scope list_scope.
Local Open Scope Z_scope.
Local Notation length := List.length.

Lemma dash_spec a : sv_startsWith a (txt "-") = isOption a.
Proof.
  destruct (isOption a) eqn:E.
  - destruct a as [|c a]; [discriminate|]. cbn in E. destruct (Z.eq_dec c 45) as [->|N]; [|exfalso; revert E N; clear; repeat (destruct c as [|c|c]; try discriminate; try congruence)].
    apply sv_startsWith_iff. exists a. reflexivity.
  - destruct (sv_startsWith a (txt "-")) eqn:X; [|reflexivity]. apply sv_startsWith_iff in X. destruct X as [r ->]. discriminate E.
Qed.
Lemma prefixMatch_iff s n : prefixMatch s n = true <-> (2 <= length s)%nat /\ begins s n.
Proof.
  unfold prefixMatch, begins. destruct (Nat.ltb_spec (length s) 2).
  - split; [discriminate|lia].
  - rewrite sv_startsWith_iff. intuition.
Qed.

(** ** The reader, by what is still to be read *)
Definition st (c : cmdLine) (W O : list (list Z)) : Prop :=
  words (rest c) = W /\ skipped c ++ options (rest c) = O /\ ~ In [] (rest c) /\ finalized c = false.
Lemma token_spec c W O : st c W O ->
  match W with
  | [] => readToken c = ([], mkLine [] O false)
  | w :: W' => exists c', readToken c = (w, c') /\ st c' W' O /\ isNil w = false
  end.
Proof.
  destruct c as [r sk f]. intros (A & B & C & D). cbn in *. subst f. unfold readToken. cbn [rest skipped finalized].
  revert sk W O A B C. induction r as [|a r IH]; intros sk W O A B C.
  - cbn in A. subst W. cbn in *. rewrite app_nil_r in B. subst O. reflexivity.
  - cbn [readLoop]. rewrite dash_spec. cbn [words options filter] in A, B. fold (words r) (options r) in *. destruct (isOption a) eqn:E; cbn [negb] in A.
    + apply IH; [exact A|rewrite <- app_assoc; exact B|intros X; apply C; right; exact X].
    + subst W. exists (mkLine r sk false). split; [reflexivity|]. split; [|destruct a; [elim C; left; reflexivity|reflexivity]].
      repeat split; auto. intros X. apply C. right. exact X.
Qed.
Lemma ensure_spec c W O : st c W O -> ensureTerminated c = match W with [] => Ok tt (mkLine [] O false) | w :: _ => Fatal (UnexpectedToken w) end.
Proof.
  intros H. apply token_spec in H. unfold ensureTerminated. destruct W as [|w W]; [rewrite H; reflexivity|]. destruct H as (c' & -> & _ & ->). reflexivity.
Qed.
Definition done : cmdLine := mkLine [] [] true.
Lemma finalize_ok O x c : finalize (mkLine [] O false) = Ok x c <-> O = [] /\ c = done /\ x = tt.
Proof. unfold finalize. cbn. destruct O; split; try discriminate; [intros [= <- <-]; auto|intros (_ & -> & ->); reflexivity|intros (X & _); discriminate X]. Qed.
Lemma plain_spec a c W O b c' : st c W O -> (plain a c = Ok b c' <-> W = [] /\ O = [] /\ b = a /\ c' = done).
Proof.
  intros H. unfold plain. rewrite (ensure_spec _ _ _ H). destruct W as [|w W]; [|split; [discriminate|intros (X & _); discriminate X]].
  destruct (finalize (mkLine [] O false)) as [x c1|e|] eqn:F.
  - apply finalize_ok in F. destruct F as (-> & -> & _). split; [intros [= <- <-]; auto|intros (_ & _ & -> & ->); reflexivity].
  - split; [discriminate|]. intros (_ & -> & _). discriminate F.
  - split; [discriminate|]. intros (_ & -> & _). discriminate F.
Qed.
Lemma name_spec c W O : st c W O -> match W with [] => readName c = Fatal ExpectedName | w :: W' => exists c', readName c = Ok w c' /\ st c' W' O end.
Proof.
  intros H. apply token_spec in H. unfold readName. destruct W as [|w W]; [rewrite H; reflexivity|]. destruct H as (c' & -> & H & ->). eauto.
Qed.
Lemma named_spec f c W O b c' : st c W O -> (named f c = Ok b c' <-> exists n, W = [n] /\ O = [] /\ b = f n /\ c' = done).
Proof.
  intros H. apply name_spec in H. unfold named. destruct W as [|w W]; [rewrite H; split; [discriminate|intros (n & X & _); discriminate X]|].
  destruct H as (c1 & -> & H). rewrite (plain_spec _ _ _ _ _ _ H). split.
  - intros (-> & -> & -> & ->). eauto.
  - intros (n & [= -> ->] & -> & -> & ->). auto.
Qed.

(** ** Options *)
Lemma take_none p l : (forall y, In y l -> p y = false) -> takeOpt p l = ([], l).
Proof. induction l as [|x l IH]; intros H; [reflexivity|]. cbn. rewrite (H x (or_introl eq_refl)), IH by (intros; apply H; right; assumption). reflexivity. Qed.
Lemma take_cases p l : (takeOpt p l = ([], l) /\ forall y, In y l -> p y = false) \/ (exists x l', takeOpt p l = (x, l') /\ p x = true /\ Permutation l (x :: l')).
Proof.
  induction l as [|x l IH]; [left; split; [reflexivity|intros y []]|]. cbn. destruct (p x) eqn:E; [right; exists x, l; auto|].
  destruct IH as [[-> H]|(y & l' & -> & P & H)].
  - left. split; [reflexivity|]. intros y [<-|I]; auto.
  - right. exists y, (x :: l'). split; [reflexivity|]. split; [exact P|]. rewrite H. apply perm_swap.
Qed.
Lemma take_found p l x L : Permutation l (x :: L) -> p x = true -> (forall y, In y L -> p y = false) -> exists l', takeOpt p l = (x, l') /\ Permutation l' L.
Proof.
  intros P X N. destruct (take_cases p l) as [[_ H]|(y & l' & E & Y & Q)].
  - exfalso. rewrite (H x) in X; [discriminate|]. eapply Permutation_in; [apply Permutation_sym; exact P|left; reflexivity].
  - assert (y = x). { assert (I : In y (x :: L)) by (eapply Permutation_in; [exact P|]; eapply Permutation_in; [apply Permutation_sym; exact Q|left; reflexivity]).
      destruct I as [->|I]; [reflexivity|]. rewrite N in Y by exact I. discriminate. }
    subst y. exists l'. split; [exact E|]. apply (Permutation_cons_inv (a := x)). rewrite <- Q. exact P.
Qed.
Lemma take_absent p l L : Permutation l L -> (forall y, In y L -> p y = false) -> takeOpt p l = ([], l).
Proof. intros P N. apply take_none. intros y I. apply N. eapply Permutation_in; eassumption. Qed.
Lemma hasOpt_cases o O : o <> [] -> exists b O', hasOpt o (mkLine [] O false) = (b, mkLine [] O' false) /\ Permutation O (flag o b ++ O').
Proof.
  intros N. unfold hasOpt, checkOpt. cbn [rest skipped finalized]. destruct (take_cases (fun a => bytes_eqb a o) O) as [[-> H]|(x & l' & -> & P & H)].
  - exists false, O. split; reflexivity.
  - apply bytes_eqb_eq in P. subst x. exists true, l'. split; [destruct o; [contradiction|reflexivity]|exact H].
Qed.
Lemma hasOpt_found o O b L : o <> [] -> Permutation O (flag o b ++ L) -> ~ In o L -> exists O', hasOpt o (mkLine [] O false) = (b, mkLine [] O' false) /\ Permutation O' L.
Proof.
  intros N P H. unfold hasOpt, checkOpt. cbn [rest skipped finalized].
  assert (Q : forall y, In y L -> bytes_eqb y o = false). { intros y I. destruct (bytes_eqb y o) eqn:E; [|reflexivity]. apply bytes_eqb_eq in E. subst y. contradiction. }
  destruct b; cbn [flag app] in P.
  - destruct (take_found (fun a => bytes_eqb a o) O o L P) as (l' & -> & R); [apply bytes_eqb_eq; reflexivity|exact Q|]. exists l'. split; [destruct o; [contradiction|reflexivity]|exact R].
  - rewrite (take_absent _ O L P Q). exists O. split; [reflexivity|exact P].
Qed.
Lemma readConfig_cases O : exists oc cfg O', readConfig (mkLine [] O false) = (cfg, mkLine [] O' false) /\ configured oc cfg /\ Permutation O (oc ++ O').
Proof.
  unfold readConfig, checkOpt. cbn [rest skipped finalized]. destruct (take_cases (fun a => sv_startsWith a (txt "--config=")) O) as [[-> H]|(x & l' & -> & P & H)].
  - exists [], [], O. split; [reflexivity|]. split; [constructor|reflexivity].
  - apply sv_startsWith_iff in P. destruct P as [r ->]. exists [txt "--config=" ++ r], r, l'. split; [reflexivity|]. split; [constructor|exact H].
Qed.
Lemma readConfig_found O oc cfg L : configured oc cfg -> Permutation O (oc ++ L) -> (forall y, In y L -> sv_startsWith y (txt "--config=") = false) ->
  exists O', readConfig (mkLine [] O false) = (cfg, mkLine [] O' false) /\ Permutation O' L.
Proof.
  intros C P Q. unfold readConfig, checkOpt. cbn [rest skipped finalized]. destruct C as [|x]; cbn [app] in P.
  - rewrite (take_absent _ O L P Q). exists O. split; [reflexivity|exact P].
  - destruct (take_found (fun a => sv_startsWith a (txt "--config=")) O _ L P) as (l' & -> & R); [apply sv_startsWith_iff; exists x; reflexivity|exact Q|].
    exists l'. split; [reflexivity|exact R].
Qed.
Lemma flag_single o b O : Permutation O (flag o b) -> O = flag o b.
Proof.
  destruct b; cbn; intros P.
  - apply Permutation_length_1_inv. apply Permutation_sym. exact P.
  - apply Permutation_nil. apply Permutation_sym. exact P.
Qed.
Lemma flagged_spec o f c W O b c' : o <> [] -> st c W O -> (flagged o f c = Ok b c' <-> exists n x, W = [n] /\ O = flag o x /\ b = f n x /\ c' = done).
Proof.
  intros N H. apply name_spec in H. unfold flagged. destruct W as [|w W]; [rewrite H; split; [discriminate|intros (n & x & X & _); discriminate X]|].
  destruct H as (c1 & -> & H). rewrite (ensure_spec _ _ _ H). destruct W as [|w' W]; [|split; [discriminate|intros (n & x & X & _); discriminate X]].
  split.
  - destruct (hasOpt_cases o O N) as (x & O' & -> & P). destruct (finalize _) as [u c2|e|] eqn:F; try discriminate. intros [= <- <-].
    apply finalize_ok in F. destruct F as (-> & -> & _). rewrite app_nil_r in P. apply flag_single in P. eauto 6.
  - intros (n & x & [= ->] & -> & -> & ->). destruct (hasOpt_found o (flag o x) x [] N) as (O' & -> & P); [rewrite app_nil_r; reflexivity|intros []|].
    apply Permutation_sym, Permutation_nil in P. subst O'. reflexivity.
Qed.
Lemma generate_spec hf c W O b c' : st c W O -> (command_generate hf c = Ok b c' <-> hf = true /\ exists cfg, W = [] /\ configured O cfg /\ b = Generate cfg /\ c' = done).
Proof.
  intros H. unfold command_generate. destruct hf; [|split; [discriminate|intros (X & _); discriminate X]]. rewrite (ensure_spec _ _ _ H).
  destruct W as [|w W]; [|split; [discriminate|intros (_ & n & X & _); discriminate X]]. split.
  - destruct (readConfig_cases O) as (oc & cfg & O' & -> & C & P). destruct (finalize _) as [u c2|e|] eqn:F; try discriminate. intros [= <- <-].
    apply finalize_ok in F. destruct F as (-> & -> & _). rewrite app_nil_r in P. split; [reflexivity|]. exists cfg. split; [reflexivity|]. split; [|auto].
    destruct C; [apply Permutation_sym, Permutation_nil in P|apply Permutation_sym, Permutation_length_1_inv in P]; subst O; constructor.
  - intros (_ & cfg & _ & C & -> & ->). destruct (readConfig_found O O cfg [] C) as (O' & -> & P); [rewrite app_nil_r; reflexivity|intros y []|].
    apply Permutation_sym, Permutation_nil in P. subst O'. reflexivity.
Qed.
Lemma extract_cases t O : exists oc cfg add auto sh O', extractOptions t (mkLine [] O false) = (mkBuild t cfg add auto sh, mkLine [] O' false) /\
  configured oc cfg /\ (sh = true -> add = true \/ auto = true) /\ Permutation O (oc ++ flag (txt "--add") add ++ flag (txt "--auto") auto ++ flag (txt "--shared") sh ++ O').
Proof.
  unfold extractOptions. destruct (readConfig_cases O) as (oc & cfg & O1 & -> & C & P1).
  destruct (hasOpt_cases (txt "--add") O1) as (add & O2 & -> & P2); [discriminate|]. destruct (hasOpt_cases (txt "--auto") O2) as (auto & O3 & -> & P3); [discriminate|].
  destruct (add || auto) eqn:E.
  - destruct (hasOpt_cases (txt "--shared") O3) as (sh & O4 & -> & P4); [discriminate|]. exists oc, cfg, add, auto, sh, O4. split; [reflexivity|]. split; [exact C|].
    split; [intros _; apply orb_true_iff; exact E|]. rewrite P1, P2, P3, P4. reflexivity.
  - exists oc, cfg, add, auto, false, O3. split; [reflexivity|]. split; [exact C|]. split; [discriminate|]. rewrite P1, P2, P3. reflexivity.
Qed.
Lemma in_flag x o b : In x (flag o b) -> x = o.
Proof. destruct b; [intros [<-|[]]; reflexivity|intros []]. Qed.
Ltac flags := let X := fresh "X" in intros X; repeat (apply in_app_or in X; destruct X as [X|X]); try (destruct X; fail); try (apply in_flag in X; discriminate X).
Definition rests (L : list (list Z)) : Prop := L = [] \/ exists nb, L = flag (txt "--nobuild") nb.
Lemma extract_found t O oc cfg add auto sh L : configured oc cfg -> (sh = true -> add = true \/ auto = true) -> rests L ->
  Permutation O (oc ++ flag (txt "--add") add ++ flag (txt "--auto") auto ++ flag (txt "--shared") sh ++ L) ->
  exists O', extractOptions t (mkLine [] O false) = (mkBuild t cfg add auto sh, mkLine [] O' false) /\ Permutation O' L.
Proof.
  intros C S1 R P. unfold extractOptions. destruct (readConfig_found O oc cfg _ C P) as (O1 & -> & P1).
  { intros y I. repeat (apply in_app_or in I; destruct I as [I|I]); try (apply in_flag in I; subst y; reflexivity).
    destruct R as [->|[nb ->]]; [destruct I|]. apply in_flag in I. subst y. reflexivity. }
  destruct (hasOpt_found (txt "--add") O1 add _ ltac:(discriminate) P1) as (O2 & -> & P2).
  { destruct R as [->|[nb ->]]; flags. }
  destruct (hasOpt_found (txt "--auto") O2 auto _ ltac:(discriminate) P2) as (O3 & -> & P3).
  { destruct R as [->|[nb ->]]; flags. }
  destruct (add || auto) eqn:E.
  - destruct (hasOpt_found (txt "--shared") O3 sh _ ltac:(discriminate) P3) as (O4 & -> & P4).
    { destruct R as [->|[nb ->]]; flags. }
    exists O4. auto.
  - destruct sh; [destruct (S1 eq_refl) as [X|X]; rewrite X in E; rewrite ?orb_true_r in E; discriminate E|]. exists O3. split; [reflexivity|exact P3].
Qed.
Lemma optional_token c W O : st c W O ->
  (exists t c', optional W t /\ readToken c = (t, c') /\ st c' [] O) \/ (exists t c' w W', readToken c = (t, c') /\ st c' (w :: W') O /\ forall u, ~ optional W u).
Proof.
  intros H. pose proof (token_spec _ _ _ H) as T. destruct W as [|w [|w' W]].
  - left. exists [], (mkLine [] O false). split; [constructor|]. split; [exact T|]. repeat split; auto. cbn. apply app_nil_r.
  - destruct T as (c' & -> & S1 & _). left. exists w, c'. split; [constructor|]. auto.
  - destruct T as (c' & -> & S1 & _). right. exists w, c', w', W. split; [reflexivity|]. split; [exact S1|]. intros u X. inversion X.
Qed.
Lemma optional_fun W t u : optional W t -> optional W u -> t = u.
Proof. intros A B. destruct A; inversion B; reflexivity. Qed.
Lemma build_spec c W O b c' : st c W O -> (command_build c = Ok b c' <->
  exists t oc cfg add auto sh, optional W t /\ configured oc cfg /\ (sh = true -> add = true \/ auto = true) /\
    Permutation O (oc ++ flag (txt "--add") add ++ flag (txt "--auto") auto ++ flag (txt "--shared") sh) /\ b = Build (mkBuild t cfg add auto sh) /\ c' = done).
Proof.
  intros H. unfold command_build. destruct (optional_token _ _ _ H) as [(t & c1 & T & -> & S1)|(t & c1 & w & W' & -> & S1 & N)]; rewrite (ensure_spec _ _ _ S1).
  - split.
    + destruct (extract_cases t O) as (oc & cfg & add & auto & sh & O' & -> & C & S2 & P). destruct (finalize _) as [u c2|e|] eqn:F; try discriminate. intros [= <- <-].
      apply finalize_ok in F. destruct F as (-> & -> & _). rewrite app_nil_r in P. exists t, oc, cfg, add, auto, sh. auto 8.
    + intros (t' & oc & cfg & add & auto & sh & T' & C & S2 & P & -> & ->). rewrite <- (optional_fun _ _ _ T T').
      destruct (extract_found t O oc cfg add auto sh [] C S2 (or_introl eq_refl)) as (O' & -> & Q); [rewrite app_nil_r; exact P|].
      apply Permutation_sym, Permutation_nil in Q. subst O'. reflexivity.
  - split; [discriminate|]. intros (t' & oc & cfg & add & auto & sh & T' & _). elim (N _ T').
Qed.
Lemma run_spec c W O b c' : st c W O -> (command_run c = Ok b c' <->
  exists t oc cfg add auto sh nb, optional W t /\ configured oc cfg /\ (sh = true -> add = true \/ auto = true) /\
    Permutation O (oc ++ flag (txt "--add") add ++ flag (txt "--auto") auto ++ flag (txt "--shared") sh ++ flag (txt "--nobuild") nb) /\
    b = Run (mkBuild t cfg add auto sh) (negb nb) /\ c' = done).
Proof.
  intros H. unfold command_run. destruct (optional_token _ _ _ H) as [(t & c1 & T & -> & S1)|(t & c1 & w & W' & -> & S1 & N)]; rewrite (ensure_spec _ _ _ S1).
  - split.
    + destruct (extract_cases t O) as (oc & cfg & add & auto & sh & O' & -> & C & S2 & P).
      destruct (hasOpt_cases (txt "--nobuild") O') as (nb & O2 & -> & P2); [discriminate|]. destruct (finalize _) as [u c2|e|] eqn:F; try discriminate. intros [= <- <-].
      apply finalize_ok in F. destruct F as (-> & -> & _). rewrite app_nil_r in P2. exists t, oc, cfg, add, auto, sh, nb. rewrite P2 in P. auto 9.
    + intros (t' & oc & cfg & add & auto & sh & nb & T' & C & S2 & P & -> & ->). rewrite <- (optional_fun _ _ _ T T').
      destruct (extract_found t O oc cfg add auto sh _ C S2 (or_intror (ex_intro _ nb eq_refl)) P) as (O' & -> & Q).
      destruct (hasOpt_found (txt "--nobuild") O' nb [] ltac:(discriminate)) as (O2 & -> & Q2); [rewrite app_nil_r; exact Q|intros []|].
      apply Permutation_sym, Permutation_nil in Q2. subst O2. reflexivity.
  - split; [discriminate|]. intros (t' & oc & cfg & add & auto & sh & nb & T' & _). elim (N _ T').
Qed.

(** ** Names *)
Lemma begins_app s n m : (2 <= length s)%nat -> begins s n -> begins s m -> firstn 2 n = firstn 2 m.
Proof. intros L [r ->] [r' ->]. rewrite !firstn_app. replace (2 - length s)%nat with 0%nat by lia. reflexivity. Qed.
Definition apart (names : list (list Z)) : bool := forallb (fun n => forallb (fun m => bytes_eqb n m || negb (bytes_eqb (firstn 2 n) (firstn 2 m))) names) names.
Lemma apart_abbr names s n : apart names = true -> In n names -> prefixMatch s n = true -> abbr names s n.
Proof.
  intros A I P. apply prefixMatch_iff in P. destruct P as [L B]. split; [exact L|]. split; [exact B|]. intros m J D M. exfalso.
  unfold apart in A. rewrite forallb_forall in A. specialize (A n I). rewrite forallb_forall in A. specialize (A m J). cbv beta in A.
  rewrite (proj2 (bytes_eqb_eq (firstn 2 n) (firstn 2 m)) (begins_app s n m L B M)), orb_false_r in A. apply bytes_eqb_eq in A. congruence.
Qed.
Lemma abbr_match names s n : abbr names s n -> prefixMatch s n = true.
Proof. intros (L & B & _). apply prefixMatch_iff. auto. Qed.
Lemma abbr_other names s n m : abbr names s n -> In m names -> m <> n -> prefixMatch n m = false -> prefixMatch s m = false.
Proof.
  intros (L & B & U) I D F. destruct (prefixMatch s m) eqn:E; [|reflexivity]. apply prefixMatch_iff in E. destruct E as [_ E].
  assert (X : s = n) by (apply (U m); auto). subst s. assert (prefixMatch n m = true) by (apply prefixMatch_iff; auto). congruence.
Qed.
Lemma cats_apart : apart categories = true. Proof. vm_compute. reflexivity. Qed.
Lemma folders_apart : apart folderNames = true. Proof. vm_compute. reflexivity. Qed.
Lemma targets_apart : apart targetNames = true. Proof. vm_compute. reflexivity. Qed.
Lemma modules_apart : apart moduleNames = true. Proof. vm_compute. reflexivity. Qed.
Ltac member := cbn [In]; repeat first [left; reflexivity | right]; fail.
Ltac amember := unfold categories, folderNames, targetNames, moduleNames, externNames; member.
Ltac cat := apply apart_abbr; [exact cats_apart|amember|assumption].

(** ** Commands with names of their own *)
Lemma folder_sound c cat W O a c' : st c W O -> abbr categories cat (txt "folder") -> command_folder c = Ok a c' -> means (cat :: W) O a /\ needsFolder a = false /\ c' = done.
Proof.
  intros H K. unfold command_folder. pose proof (token_spec _ _ _ H) as T. destruct W as [|w W].
  - rewrite T. cbn [isNil]. rewrite (plain_spec _ _ [] O); [|repeat split; auto; cbn; apply app_nil_r]. intros (_ & -> & -> & ->).
    split; [|split; reflexivity]. eapply m_sub; [exact K|left; reflexivity|reflexivity].
  - destruct T as (c1 & -> & S1 & ->). destruct (prefixMatch w (txt "list")) eqn:E1.
    { rewrite (plain_spec _ _ _ _ _ _ S1). intros (-> & -> & -> & ->). split; [|split; reflexivity].
      eapply m_word; [exact K|apply (apart_abbr folderNames); [exact folders_apart| |exact E1]; amember|member]. }
    destruct (prefixMatch w (txt "create")) eqn:E2.
    { rewrite (named_spec _ _ _ _ _ _ S1). intros (n & -> & -> & -> & ->). split; [|split; reflexivity].
      eapply m_named; [exact K|apply (apart_abbr folderNames); [exact folders_apart| |exact E2]; amember|member]. }
    destruct (prefixMatch w (txt "delete")) eqn:E3.
    { rewrite (named_spec _ _ _ _ _ _ S1). intros (n & -> & -> & -> & ->). split; [|split; reflexivity].
      eapply m_named; [exact K|apply (apart_abbr folderNames); [exact folders_apart| |exact E3]; amember|member]. }
    destruct (prefixMatch w (txt "set")) eqn:E4; [|discriminate].
    rewrite (named_spec _ _ _ _ _ _ S1). intros (n & -> & -> & -> & ->). split; [|split; reflexivity].
    eapply m_named; [exact K|apply (apart_abbr folderNames); [exact folders_apart| |exact E4]; amember|member].
Qed.
Lemma module_sound c cat W O a c' : st c W O -> abbr categories cat (txt "module") -> command_module c = Ok a c' -> means (cat :: W) O a /\ needsFolder a = false /\ c' = done.
Proof.
  intros H K. unfold command_module. pose proof (token_spec _ _ _ H) as T. destruct W as [|w W].
  - rewrite T. cbn [isNil]. rewrite (plain_spec _ _ [] O); [|repeat split; auto; cbn; apply app_nil_r]. intros (_ & -> & -> & ->).
    split; [|split; reflexivity]. eapply m_sub; [exact K| |reflexivity]. right; right; left; reflexivity.
  - destruct T as (c1 & -> & S1 & ->). destruct (prefixMatch w (txt "list")) eqn:E1.
    { rewrite (plain_spec _ _ _ _ _ _ S1). intros (-> & -> & -> & ->). split; [|split; reflexivity].
      eapply m_word; [exact K|apply (apart_abbr moduleNames); [exact modules_apart| |exact E1]; amember|member]. }
    destruct (prefixMatch w (txt "update")) eqn:E2; [|discriminate].
    rewrite (plain_spec _ _ _ _ _ _ S1). intros (-> & -> & -> & ->). split; [|split; reflexivity].
    eapply m_word; [exact K|apply (apart_abbr moduleNames); [exact modules_apart| |exact E2]; amember|member].
Qed.
Lemma target_sound hf c cat W O a c' : st c W O -> abbr categories cat (txt "target") -> command_target hf c = Ok a c' -> means (cat :: W) O a /\ hf = true /\ c' = done.
Proof.
  intros H K. unfold command_target. destruct hf; [|discriminate]. pose proof (token_spec _ _ _ H) as T. destruct W as [|w W].
  - rewrite T. cbn [isNil]. rewrite (plain_spec _ _ [] O); [|repeat split; auto; cbn; apply app_nil_r]. intros (_ & -> & -> & ->).
    split; [|split; reflexivity]. eapply m_sub; [exact K| |reflexivity]. right; left; reflexivity.
  - destruct T as (c1 & -> & S1 & ->). destruct (prefixMatch w (txt "list")) eqn:E1.
    { rewrite (plain_spec _ _ _ _ _ _ S1). intros (-> & -> & -> & ->). split; [|split; reflexivity].
      eapply m_word; [exact K|apply (apart_abbr targetNames); [exact targets_apart| |exact E1]; amember|member]. }
    destruct (prefixMatch w (txt "add")) eqn:E2.
    { rewrite flagged_spec by (try exact S1; discriminate). intros (n & x & -> & -> & -> & ->). split; [|split; reflexivity].
      apply m_add; [exact K|apply (apart_abbr targetNames); [exact targets_apart| |exact E2]; amember]. }
    destruct (prefixMatch w (txt "remove")) eqn:E3.
    { rewrite (named_spec _ _ _ _ _ _ S1). intros (n & -> & -> & -> & ->). split; [|split; reflexivity].
      eapply m_named; [exact K|apply (apart_abbr targetNames); [exact targets_apart| |exact E3]; amember|member]. }
    destruct (prefixMatch w (txt "set")) eqn:E4.
    { rewrite (named_spec _ _ _ _ _ _ S1). intros (n & -> & -> & -> & ->). split; [|split; reflexivity].
      eapply m_named; [exact K|apply (apart_abbr targetNames); [exact targets_apart| |exact E4]; amember|member]. }
    destruct (prefixMatch w (txt "graph")) eqn:E5; [|discriminate].
    rewrite (plain_spec _ _ _ _ _ _ S1). intros (-> & -> & -> & ->). split; [|split; reflexivity].
    eapply m_word; [exact K|apply (apart_abbr targetNames); [exact targets_apart| |exact E5]; amember|member].
Qed.
Definition vague (s : list Z) : Prop := exists m m', In m externNames /\ In m' externNames /\ m <> m' /\ begins s m /\ begins s m' /\ ~ In s externNames.
Lemma extern_abbr s n : ~ vague s -> In n externNames -> prefixMatch s n = true -> (forall m, In m externNames -> m <> n -> prefixMatch m n = true -> s <> m) -> abbr externNames s n.
Proof.
  intros V I P E. pose proof P as Q. apply prefixMatch_iff in P. destruct P as [L B]. split; [exact L|]. split; [exact B|]. intros m J D M.
  destruct (list_eq_dec Z.eq_dec s n) as [X|X]; [exact X|]. exfalso.
  destruct (in_dec (list_eq_dec Z.eq_dec) s externNames) as [Y|Y]; [|apply V; exists m, n; auto 7].
  apply (E s Y X Q). reflexivity.
Qed.
Ltac others := let m := fresh "m" in intros m; unfold externNames; cbn [In]; intros [<-|[<-|[<-|[<-|[<-|[]]]]]] ? ?; try congruence; try discriminate.
Lemma extern_sound hf c cat W O a c' : st c W O -> abbr categories cat (txt "extern") -> (forall s, hd_error W = Some s -> ~ vague s) ->
  command_extern hf c = Ok a c' -> means (cat :: W) O a /\ hf = true /\ c' = done.
Proof.
  intros H K V. unfold command_extern. destruct hf; [|discriminate]. pose proof (token_spec _ _ _ H) as T. destruct W as [|w W].
  - rewrite T. cbn [isNil]. rewrite (plain_spec _ _ [] O); [|repeat split; auto; cbn; apply app_nil_r]. intros (_ & -> & -> & ->).
    split; [|split; reflexivity]. eapply m_sub; [exact K| |reflexivity]. right; right; right; left; reflexivity.
  - specialize (V w eq_refl). destruct T as (c1 & -> & S1 & ->). destruct (prefixMatch w (txt "list")) eqn:E1.
    { rewrite (plain_spec _ _ _ _ _ _ S1). intros (-> & -> & -> & ->). split; [|split; reflexivity].
      eapply m_word; [exact K|apply extern_abbr; [exact V| |exact E1|others]; amember|member]. }
    destruct (prefixMatch w (txt "info")) eqn:E2.
    { rewrite (named_spec _ _ _ _ _ _ S1). intros (n & -> & -> & -> & ->). split; [|split; reflexivity].
      eapply m_named; [exact K|apply extern_abbr; [exact V| |exact E2|others]; amember|member]. }
    destruct (prefixMatch w (txt "select")) eqn:E3.
    { rewrite flagged_spec by (try exact S1; discriminate). intros (n & x & -> & -> & -> & ->). split; [|split; reflexivity].
      apply m_select; [exact K|apply extern_abbr; [exact V| |exact E3|others]; amember]. }
    destruct (prefixMatch w (txt "selected")) eqn:E4.
    { rewrite (plain_spec _ _ _ _ _ _ S1). intros (-> & -> & -> & ->). split; [|split; reflexivity].
      eapply m_word; [exact K|apply extern_abbr; [exact V| |exact E4|]; [amember|]|member].
      others. intros ->. vm_compute in E3. discriminate E3. }
    destruct (prefixMatch w (txt "install")) eqn:E5; [|discriminate].
    rewrite (named_spec _ _ _ _ _ _ S1). intros (n & -> & -> & -> & ->). split; [|split; reflexivity].
    eapply m_named; [exact K|apply extern_abbr; [exact V| |exact E5|others]; amember|member].
Qed.
Lemma dispatch_sound hf c W O a c' : st c W O -> hd_error W <> Some (txt "rpc") ->
  (forall cat s, nth_error W 0 = Some cat -> begins cat (txt "extern") -> nth_error W 1 = Some s -> ~ vague s) ->
  dispatch hf c = Ok a c' -> means W O a /\ (needsFolder a = true -> hf = true) /\ c' = done.
Proof.
  intros H R V. unfold dispatch. pose proof (token_spec _ _ _ H) as T. destruct W as [|w W].
  { rewrite T. cbn [isNil]. destruct (finalize _) as [u c2|e|] eqn:F; try discriminate. intros [= <- <-].
    apply finalize_ok in F. destruct F as (-> & -> & _). split; [constructor|]. split; [discriminate|reflexivity]. }
  destruct T as (c1 & -> & S1 & ->). destruct (bytes_eqb w (txt "rpc")) eqn:ER; [apply bytes_eqb_eq in ER; subst w; elim R; reflexivity|].
  destruct (prefixMatch w (txt "folder")) eqn:E1.
  { intros X. apply (folder_sound _ w _ _ _ _ S1) in X; [|cat]. destruct X as (A & B & D). split; [exact A|]. split; [rewrite B; discriminate|exact D]. }
  destruct (prefixMatch w (txt "target")) eqn:E2.
  { intros X. apply (target_sound _ _ w _ _ _ _ S1) in X; [|cat]. destruct X as (A & B & D). auto. }
  destruct (prefixMatch w (txt "module")) eqn:E3.
  { intros X. apply (module_sound _ w _ _ _ _ S1) in X; [|cat]. destruct X as (A & B & D). split; [exact A|]. split; [rewrite B; discriminate|exact D]. }
  destruct (prefixMatch w (txt "extern")) eqn:E4.
  { intros X. apply (extern_sound _ _ w _ _ _ _ S1) in X; [|cat|].
    - destruct X as (A & B & D). auto.
    - intros s Y. apply (V w s); [reflexivity|apply prefixMatch_iff in E4; apply E4|]. destruct W; exact Y. }
  destruct (prefixMatch w (txt "generate")) eqn:E5.
  { rewrite (generate_spec _ _ _ _ _ _ S1). intros (-> & cfg & -> & C & -> & ->). split; [|auto]. apply m_generate; [cat|exact C]. }
  destruct (prefixMatch w (txt "build")) eqn:E6.
  { rewrite (build_spec _ _ _ _ _ S1). intros (t & oc & cfg & add & auto & sh & A & B & C & P & -> & ->). split; [|split; [discriminate|reflexivity]].
    eapply m_build; eauto. cat. }
  destruct (prefixMatch w (txt "run")) eqn:E7.
  { rewrite (run_spec _ _ _ _ _ S1). intros (t & oc & cfg & add & auto & sh & nb & A & B & C & P & -> & ->). split; [|split; [discriminate|reflexivity]].
    eapply m_run; eauto. cat. }
  destruct (prefixMatch w (txt "open")) eqn:E8.
  { rewrite (plain_spec _ _ _ _ _ _ S1). intros (-> & -> & -> & ->). split; [|split; [discriminate|reflexivity]]. apply (m_alone w (txt "open")); [cat|member]. }
  destruct (prefixMatch w (txt "codegen")) eqn:E9.
  { rewrite (plain_spec _ _ _ _ _ _ S1). intros (-> & -> & -> & ->). split; [|split; [discriminate|reflexivity]]. apply (m_alone w (txt "codegen")); [cat|member]. }
  destruct (prefixMatch w (txt "bootstrap")) eqn:E10.
  { rewrite (plain_spec _ _ _ _ _ _ S1). intros (-> & -> & -> & ->). split; [|split; [discriminate|reflexivity]]. apply (m_alone w (txt "bootstrap")); [cat|member]. }
  destruct (prefixMatch w (txt "cleanup")) eqn:E11; [|discriminate].
  rewrite (plain_spec _ _ _ _ _ _ S1). intros (-> & -> & -> & ->). split; [|split; [discriminate|reflexivity]]. apply (m_alone w (txt "cleanup")); [cat|member].
Qed.
Ltac chain K := repeat match goal with
  | |- (if prefixMatch ?w ?m then _ else _) = _ =>
      first [rewrite (abbr_match _ _ _ K : prefixMatch w m = true) | rewrite (abbr_other _ _ _ m K); [|amember|discriminate|vm_compute; reflexivity]]
  end.
Lemma not_rpc w n : abbr categories w n -> In n categories -> bytes_eqb w (txt "rpc") = false.
Proof.
  intros (L & [r B] & _) I. destruct (bytes_eqb w (txt "rpc")) eqn:E; [|reflexivity]. apply bytes_eqb_eq in E. subst w. exfalso.
  unfold categories in I. cbn [In] in I. repeat (destruct I as [<-|I]; [discriminate B|]). exact I.
Qed.
Ltac top T K := destruct T as (?c1 & T1 & S1 & N1); rewrite T1, N1; rewrite (not_rpc _ _ K) by amember; chain K.
Ltac cases I := cbn [In] in I; repeat (destruct I as [I|I]; [injection I; clear I; intros; subst|]); try (destruct I).
Lemma dispatch_complete hf c W O a : st c W O -> means W O a -> (needsFolder a = true -> hf = true) -> dispatch hf c = Ok a done.
Proof.
  intros H M F. pose proof (token_spec _ _ _ H) as T. unfold dispatch. destruct M as [ |cat name names a K I ->|cat s name names sub a K J I|cat s n name names sub a K J I|cat s n b K J|cat s n b K J|cat os cfg K C|cat ws t os oc cfg add auto sh K A B C P|cat ws t os oc cfg add auto sh nb K A B C P|cat name a K I].
  - rewrite T. cbn. reflexivity.
  - cases I; top T K.
    + unfold command_folder. apply token_spec in S1. rewrite S1. cbn. reflexivity.
    + unfold command_target. rewrite (F eq_refl). apply token_spec in S1. rewrite S1. cbn. reflexivity.
    + unfold command_module. apply token_spec in S1. rewrite S1. cbn. reflexivity.
    + unfold command_extern. rewrite (F eq_refl). apply token_spec in S1. rewrite S1. cbn. reflexivity.
  - cases I; top T K; try rewrite (F eq_refl);
      unfold command_folder, command_target, command_module, command_extern;
      (apply token_spec in S1; destruct S1 as (c2 & T2 & S2 & N2); rewrite T2, N2; chain J; apply (plain_spec _ _ _ _ _ _ S2); auto).
  - cases I; top T K; try rewrite (F eq_refl);
      unfold command_folder, command_target, command_module, command_extern;
      (apply token_spec in S1; destruct S1 as (c2 & T2 & S2 & N2); rewrite T2, N2; chain J; apply (named_spec _ _ _ _ _ _ S2); eauto).
  - top T K. unfold command_target. rewrite (F eq_refl). apply token_spec in S1. destruct S1 as (c2 & T2 & S2 & N2). rewrite T2, N2. chain J.
    apply (flagged_spec (txt "--shared") TargetAdd c2 [n] (flag (txt "--shared") b)); [discriminate|exact S2|]. eauto 6.
  - top T K. unfold command_extern. rewrite (F eq_refl). apply token_spec in S1. destruct S1 as (c2 & T2 & S2 & N2). rewrite T2, N2. chain J.
    apply (flagged_spec (txt "--install") ExternSelect c2 [n] (flag (txt "--install") b)); [discriminate|exact S2|]. eauto 6.
  - top T K. apply (generate_spec _ _ _ _ _ _ S1). split; [apply F; reflexivity|]. eauto.
  - top T K. apply (build_spec _ _ _ _ _ S1). exists t, oc, cfg, add, auto, sh. auto 8.
  - top T K. apply (run_spec _ _ _ _ _ S1). exists t, oc, cfg, add, auto, sh, nb. auto 9.
  - cases I; top T K; apply (plain_spec _ _ _ _ _ _ S1); auto.
Qed.
Lemma start_st prog args : ~ In [] args -> st (start (prog :: args)) (words args) (options args).
Proof. intros H. repeat split; auto. Qed.
Theorem tool_read hf prog args a : ~ In [] args -> hd_error (words args) <> Some (txt "rpc") -> ~ ambiguous args ->
  ((exists c, plytool hf (prog :: args) = Ok a c) <-> means (words args) (options args) a /\ (needsFolder a = true -> hf = true)).
Proof.
  intros N R V. split.
  - intros [c E]. destruct (dispatch_sound hf (start (prog :: args)) _ _ a c (start_st prog args N) R) as (A & B & _); [|exact E|auto].
    intros cat s X Y Z (m & m' & Q). apply V. exists cat, s, m, m'. auto.
  - intros [M F]. exists done. eapply dispatch_complete; [apply start_st; exact N|exact M|exact F].
Qed.

(** ** No assertion fails, and the line is finished *)
Definition fresh (c : cmdLine) : Prop := finalized c = false.
Lemma token_fresh c : fresh c -> exists t c', readToken c = (t, c') /\ fresh c'.
Proof. intros H. unfold readToken. destruct (readLoop _ _) as [t [r sk]]. eexists. eexists. split; [reflexivity|exact H]. Qed.
Lemma ensure_fresh c : fresh c -> (exists c', ensureTerminated c = Ok tt c' /\ fresh c') \/ exists e, ensureTerminated c = Fatal e.
Proof. intros H. destruct (token_fresh c H) as (t & c' & E & F). unfold ensureTerminated. rewrite E. destruct (isNil t); eauto. Qed.
Lemma finalize_fresh c : fresh c -> (exists c', finalize c = Ok tt c' /\ finalized c' = true) \/ exists e, finalize c = Fatal e.
Proof. intros H. unfold finalize. rewrite H. destruct (skipped c); eauto. Qed.
Definition good (r : res action) : Prop := match r with Ok _ c => finalized c = true | Fatal _ => True | Asserts => False end.
Lemma finish_good a c : fresh c -> good (match finalize c with Ok x c => Ok a c | Fatal e => Fatal e | Asserts => Asserts end).
Proof. intros H. destruct (finalize_fresh c H) as [(c' & -> & F)|(e & ->)]; [exact F|exact I]. Qed.
Lemma plain_good a c : fresh c -> good (plain a c).
Proof. intros H. unfold plain. destruct (ensure_fresh c H) as [(c' & -> & F)|(e & ->)]; [apply finish_good; exact F|exact I]. Qed.
Lemma hasOpt_fresh o c : fresh c -> exists b c', hasOpt o c = (b, c') /\ fresh c'.
Proof. intros H. unfold hasOpt, checkOpt. destruct (takeOpt _ _) as [x sk]. eauto. Qed.
Lemma config_fresh c : fresh c -> exists x c', readConfig c = (x, c') /\ fresh c'.
Proof. intros H. unfold readConfig, checkOpt. destruct (takeOpt _ _) as [x sk]. eauto. Qed.
Lemma name_fresh c : fresh c -> (exists n c', readName c = Ok n c' /\ fresh c') \/ exists e, readName c = Fatal e.
Proof. intros H. destruct (token_fresh c H) as (t & c' & E & F). unfold readName. rewrite E. destruct (isNil t); eauto. Qed.
Lemma named_good f c : fresh c -> good (named f c).
Proof. intros H. unfold named. destruct (name_fresh c H) as [(n & c' & -> & F)|(e & ->)]; [apply plain_good; exact F|exact I]. Qed.
Lemma flagged_good o f c : fresh c -> good (flagged o f c).
Proof.
  intros H. unfold flagged. destruct (name_fresh c H) as [(n & c1 & -> & F)|(e & ->)]; [|exact I]. destruct (ensure_fresh c1 F) as [(c2 & -> & F2)|(e & ->)]; [|exact I].
  destruct (hasOpt_fresh o c2 F2) as (b & c3 & -> & F3). apply finish_good. exact F3.
Qed.
Lemma extract_fresh t c : fresh c -> exists p c', extractOptions t c = (p, c') /\ fresh c'.
Proof.
  intros H. unfold extractOptions. destruct (config_fresh c H) as (x & c1 & -> & F1). destruct (hasOpt_fresh (txt "--add") c1 F1) as (add & c2 & -> & F2).
  destruct (hasOpt_fresh (txt "--auto") c2 F2) as (auto & c3 & -> & F3). destruct (add || auto); [|eauto].
  destruct (hasOpt_fresh (txt "--shared") c3 F3) as (sh & c4 & -> & F4). eauto.
Qed.
Ltac goods := repeat match goal with |- context [if ?b then _ else _] => destruct b end; first [exact I | apply plain_good; assumption | apply named_good; assumption | apply flagged_good; assumption].
Lemma dispatch_good hf c : fresh c -> dispatch hf c = Ok Rpc (snd (readToken c)) \/ good (dispatch hf c).
Proof.
  intros H. unfold dispatch. destruct (token_fresh c H) as (t & c1 & E & F). rewrite E. cbn [snd].
  destruct (isNil t); [right; apply finish_good; exact F|]. destruct (bytes_eqb t (txt "rpc")); [left; reflexivity|]. right.
  destruct (token_fresh c1 F) as (s & c2 & E2 & F2).
  destruct (prefixMatch t (txt "folder")); [unfold command_folder; rewrite E2; goods|].
  destruct (prefixMatch t (txt "target")); [unfold command_target; rewrite E2; goods|].
  destruct (prefixMatch t (txt "module")); [unfold command_module; rewrite E2; goods|].
  destruct (prefixMatch t (txt "extern")); [unfold command_extern; rewrite E2; goods|].
  destruct (prefixMatch t (txt "generate")).
  { unfold command_generate. destruct hf; [|exact I]. destruct (ensure_fresh c1 F) as [(c3 & -> & F3)|(e & ->)]; [|exact I].
    destruct (config_fresh c3 F3) as (x & c4 & -> & F4). apply finish_good. exact F4. }
  destruct (prefixMatch t (txt "build")).
  { unfold command_build. rewrite E2. destruct (ensure_fresh c2 F2) as [(c3 & -> & F3)|(e & ->)]; [|exact I].
    destruct (extract_fresh s c3 F3) as (p & c4 & -> & F4). apply finish_good. exact F4. }
  destruct (prefixMatch t (txt "run")).
  { unfold command_run. rewrite E2. destruct (ensure_fresh c2 F2) as [(c3 & -> & F3)|(e & ->)]; [|exact I].
    destruct (extract_fresh s c3 F3) as (p & c4 & -> & F4). destruct (hasOpt_fresh (txt "--nobuild") c4 F4) as (b & c5 & -> & F5). apply finish_good. exact F5. }
  goods.
Qed.

(** ** Settings *)
Lemma has_in l n : has l n = true <-> In n l.
Proof.
  unfold has. rewrite existsb_exists. split.
  - intros (x & I & E). apply bytes_eqb_eq in E. subst x. exact I.
  - intros I. exists n. split; [exact I|apply bytes_eqb_eq; reflexivity].
Qed.
Definition withName (l : list (list Z)) (n : list Z) : list (list Z) := if in_dec (list_eq_dec Z.eq_dec) n l then l else l ++ [n].
Lemma add_spec sh n s : fst (addTarget sh n s) = mkSettings (withName (roots s) n) (if sh then withName (shared s) n else shared s) n (selectors s) /\
  (snd (addTarget sh n s) = false <-> fst (addTarget sh n s) = s).
Proof.
  destruct s as [r h a e]. unfold addTarget, withName. cbn [roots shared active selectors].
  pose proof (has_in r n) as HR. pose proof (has_in h n) as HH.
  assert (L : forall l : list (list Z), l ++ [n] <> l) by (intros l X; apply (f_equal (@length _)) in X; rewrite app_length in X; cbn in X; lia).
  destruct (in_dec (list_eq_dec Z.eq_dec) n r) as [I|I], (in_dec (list_eq_dec Z.eq_dec) n h) as [J|J];
    destruct (has r n) eqn:ER; try (exfalso; tauto); try (exfalso; apply I, HR; reflexivity); try (exfalso; assert (false = true) by (apply HR; exact I); discriminate);
    cbn [roots shared active selectors];
    destruct (has h n) eqn:EH; try (exfalso; apply J, HH; reflexivity); try (exfalso; assert (false = true) by (apply HH; exact J); discriminate);
    destruct sh; cbn [andb negb roots shared active selectors];
    (destruct (bytes_eqb a n) eqn:EA; [apply bytes_eqb_eq in EA; subst a|assert (a <> n) by (intros X; subst; rewrite (proj2 (bytes_eqb_eq n n) eq_refl) in EA; discriminate)]);
    cbn [fst snd]; split; try reflexivity; split; intros X; try reflexivity; try discriminate X; try (exfalso; inversion X; subst; solve [congruence | eapply L; eassumption]).
Qed.
Lemma erase_spec n l : match eraseFirst n l with Some l' => exists a b, l = a ++ n :: b /\ ~ In n a /\ l' = a ++ b | None => ~ In n l end.
Proof.
  induction l as [|x l IH]; [intros []|]. cbn. destruct (bytes_eqb x n) eqn:E.
  - apply bytes_eqb_eq in E. subst x. exists [], l. auto.
  - assert (D : x <> n) by (intros X; subst; rewrite (proj2 (bytes_eqb_eq n n) eq_refl) in E; discriminate).
    destruct (eraseFirst n l) as [l'|].
    + destruct IH as (a & b & -> & N & ->). exists (x :: a), b. split; [reflexivity|]. split; [intros [X|X]; auto|reflexivity].
    + intros [X|X]; auto.
Qed.
Lemma same_spec f e l : eraseSame f e l = filter (fun x => match f x with Some e' => negb (e' =? e) | None => true end) l.
Proof. induction l as [|x l IH]; [reflexivity|]. cbn. rewrite IH. destruct (f x) as [e'|]; [destruct (e' =? e); reflexivity|reflexivity]. Qed.
Lemma withName_nodup l n : NoDup l -> NoDup (withName l n).
Proof.
  intros H. unfold withName. destruct (in_dec _ n l) as [I|I]; [exact H|]. apply Permutation_NoDup with (n :: l); [apply Permutation_cons_append|constructor; assumption].
Qed.
Lemma filter_none {A} (q : A -> bool) l : (forall x, In x l -> q x = false) -> filter q l = [].
Proof. induction l as [|x l IH]; intros H; [reflexivity|]. cbn. rewrite (H x (or_introl eq_refl)). apply IH. intros y I. apply H. right. exact I. Qed.
Lemma filter_sub {A} (q p : A -> bool) l : (forall x, q x = true -> p x = true) -> filter q (filter p l) = filter q l.
Proof.
  intros H. induction l as [|x l IH]; [reflexivity|]. cbn. destruct (p x) eqn:P; cbn; rewrite IH; [reflexivity|]. destruct (q x) eqn:Q; [rewrite (H x Q) in P; discriminate|reflexivity].
Qed.
Lemma dispatch_skipped hf c : fresh c -> match dispatch hf c with Ok a c' => Ok a c' = Ok Rpc (snd (readToken c)) \/ skipped c' = [] | _ => True end.
Proof.
  intros H.
  assert (FI : forall (a : action) d, match (match finalize d with Ok x d' => Ok a d' | Fatal e => Fatal e | Asserts => Asserts end) with Ok b c' => skipped c' = [] | _ => True end).
  { intros a d. unfold finalize. destruct (finalized d); [exact I|]. destruct (skipped d); [reflexivity|exact I]. }
  assert (W : forall (P : Prop) (r : res action), match r with Ok b c' => skipped c' = [] | _ => True end -> match r with Ok b c' => Ok b c' = Ok Rpc (snd (readToken c)) \/ skipped c' = [] | _ => True end).
  { intros _ [b d|e|]; auto. }
  assert (PL : forall a d, match plain a d with Ok b c' => skipped c' = [] | _ => True end).
  { intros a d. unfold plain. destruct (ensureTerminated d); try exact I. apply FI. }
  assert (NM : forall f d, match named f d with Ok b c' => skipped c' = [] | _ => True end).
  { intros f d. unfold named. destruct (readName d); try exact I. apply PL. }
  assert (FL : forall o f d, match flagged o f d with Ok b c' => skipped c' = [] | _ => True end).
  { intros o f d. unfold flagged. destruct (readName d); try exact I. destruct (ensureTerminated c0); try exact I. destruct (hasOpt o c1). apply FI. }
  unfold dispatch. destruct (readToken c) as [t c1]. cbn [snd] in *.
  destruct (isNil t); [apply W; [exact True|]; apply FI|]. destruct (bytes_eqb t (txt "rpc")); [left; reflexivity|]. apply W; [exact True|].
  unfold command_folder, command_target, command_module, command_extern, command_generate, command_build, command_run.
  destruct (readToken c1) as [u c2].
  repeat match goal with
  | |- match (if ?b then _ else _) with _ => _ end => destruct b
  | |- match (match ensureTerminated ?d with _ => _ end) with _ => _ end => destruct (ensureTerminated d)
  | |- match (let '(_, _) := readConfig ?d in _) with _ => _ end => destruct (readConfig d)
  | |- match (let '(_, _) := extractOptions ?t ?d in _) with _ => _ end => destruct (extractOptions t d)
  | |- match (let '(_, _) := hasOpt ?t ?d in _) with _ => _ end => destruct (hasOpt t d)
  end; first [exact I | apply PL | apply NM | apply FL | apply FI].
Qed.
