(* Instantiating the targets of a project. *)
From Coq Require Import Lia ZifyBool ZifyNat.
From Verif Require Import Base StringViewProofs PathProofs BuildModel BuildSpec BuildProofs InstSpec.

Definition srcs (st : inst) : list nat := map esrc (entries st).
Lemma findSrc_ok es s : match findSrc es s with Some i => at_ es i s | None => ~ In s (map esrc es) end.
Proof.
  induction es as [|e es IH]; cbn [findSrc map]; [intros []|]. destruct (Nat.eqb_spec (esrc e) s) as [E|N]; [exists e; auto|]. destruct (findSrc es s) as [i|]; cbn [option_map].
  - destruct IH as (e' & A & B). exists e'. auto.
  - intros [X|X]; auto.
Qed.
Lemma at_in es i s : at_ es i s -> In s (map esrc es).
Proof. intros (e & A & <-). apply in_map, (nth_error_In _ _ A). Qed.
Lemma at_uniq es i j s : NoDup (map esrc es) -> at_ es i s -> at_ es j s -> i = j.
Proof.
  intros N (e & A & <-) (e' & B & E). assert (La : (i < length (map esrc es))%nat) by (rewrite map_length; apply nth_error_Some; congruence). assert (M : nth_error (map esrc es) i = nth_error (map esrc es) j) by (rewrite (map_nth_error esrc _ _ A), (map_nth_error esrc _ _ B), E; reflexivity).
  apply (proj1 (NoDup_nth_error _) N i j La M).
Qed.
Lemma at_fun es i s s' : at_ es i s -> at_ es i s' -> s = s'.
Proof. intros (e & A & <-) (e' & B & <-). congruence. Qed.
(** The entries stay where they are. *)
Definition ext (es es' : list entry) : Prop := forall i s, at_ es i s -> at_ es' i s.
Lemma ext_in es es' s : ext es es' -> In s (map esrc es) -> In s (map esrc es').
Proof. intros X I. apply in_map_iff in I. destruct I as (e & <- & I). apply In_nth_error in I. destruct I as (i & I). apply (at_in _ i). apply X. exists e. auto. Qed.
Lemma ext_trans a b c : ext a b -> ext b c -> ext a c.
Proof. intros H1 H2 i s H. apply H2, H1, H. Qed.
Lemma ext_app es more : ext es (es ++ more).
Proof. intros i s (e & A & E). exists e. split; [|exact E]. rewrite nth_error_app1; [exact A|]. apply nth_error_Some. congruence. Qed.
Lemma set_src es i n : map esrc (setNode es i n) = map esrc es.
Proof.
  unfold setNode. destruct (nth_error es i) as [e|] eqn:E; [|reflexivity]. revert i E. induction es as [|x es IH]; intros [|i] E; cbn in *; try discriminate; [injection E as ->; reflexivity|]. rewrite IH; auto.
Qed.
Lemma set_nth es i n k : nth_error (setNode es i n) k = if Nat.eqb k i then option_map (fun e => mkentry (esrc e) (Some n)) (nth_error es i) else nth_error es k.
Proof.
  unfold setNode. destruct (nth_error es i) as [e|] eqn:E; [rewrite upd_nth, E; reflexivity|]. cbn [option_map]. destruct (Nat.eqb_spec k i) as [->|N]; [exact E|reflexivity].
Qed.
Lemma ext_set es i n : ext es (setNode es i n).
Proof.
  intros k s (e & A & E). unfold at_. rewrite set_nth. destruct (Nat.eqb_spec k i) as [->|N]; [|exists e; auto]. rewrite A. cbn [option_map]. eexists. split; [reflexivity|]. exact E.
Qed.
Lemma at_atSrc es es' o c : ext es es' -> atSrc es o c -> atSrc es' o c.
Proof. intros X. unfold atSrc. destruct o, c; auto. Qed.
Lemma forall2_mono {A B} (P Q : A -> B -> Prop) l l' : (forall x y, P x y -> Q x y) -> Forall2 P l l' -> Forall2 Q l l'.
Proof. intros H F. induction F; constructor; auto. Qed.
Lemma made_ext env es es' s c root n : ext es es' -> made env es s c root n -> made env es' s c root n.
Proof.
  intros X. unfold made. destruct (env s) as [name cs|p]; [|auto]. intros (A1 & A2 & A3 & A4 & A5 & A6 & A7 & A8 & A9 & A10 & A11 & t & B1 & B2 & B3 & B4). repeat (split; [assumption|]). split.
  { revert A8. apply forall2_mono. intros p q (Y & Z). split; [exact Y|]. apply X. exact Z. }
  repeat (split; [assumption|]). exists t. split; [exact B1|]. split; [exact B2|]. split; [exact (at_atSrc _ _ _ _ X B3)|exact B4].
Qed.
Lemma wants_app a b : wants (a ++ b) = wants a ++ wants b.
Proof. unfold wants. apply flat_map_app. Qed.
Lemma reaches_trans env a b c : reaches env a b -> reaches env b c -> reaches env a c.
Proof. intros H. induction H as [s|s c' x N H IH]; [auto|]. intros H'. apply (reaches_step _ _ c'); auto. Qed.

Section Env.
Context (env : nat -> source) (U : list nat).
Hypothesis Uclosed : forall s c, In s U -> needs env s c -> In c U.
Definition onward (g s : nat) : Prop := exists c, needs env g c /\ reaches env c s.
Definition black (G : list nat) (st : inst) (x : nat) : Prop := In x (srcs st) /\ ~ In x G.
(** [own]: what each source is contained in, and whether it is a shared root. *)
Record WF (own : nat -> option nat * bool) (shc : option nat) (G : list nat) (st : inst) : Prop := mkWF {
  wf_nodup : NoDup (srcs st);
  wf_incl : incl (srcs st) U;
  wf_gray : forall g, In g G -> In g (srcs st) ;
  wf_entry : forall i e, nth_error (entries st) i = Some e ->
     if in_dec Nat.eq_dec (esrc e) G then exists n, edep e = Some n /\ ready n = false
     else match edep e with Some n => present env (esrc e) = true /\ ready n = true /\ made env (entries st) (esrc e) (fst (own (esrc e))) (snd (own (esrc e))) n | None => present env (esrc e) = false end;
  wf_rank : exists rank : nat -> nat, forall x y, black G st x -> needs env x y -> black G st y /\ (rank y < rank x)%nat;
  wf_ok : forall x, black G st x -> ~ twice env x /\ ~ clash env x;
  wf_shared : atSrc (entries st) (shared st) shc;
  wf_unsel : NoDup (unselected st) /\ forall x, In x (unselected st) <-> In x (srcs st) /\ env x = SExtern None;
  wf_uninst : NoDup (uninstalled st) /\ forall p, In p (uninstalled st) <-> exists x, In x (srcs st) /\ env x = SExtern (Some (p, None)) }.
Definition post (own : nat -> option nat * bool) (shc : option nat) (G : list nat) (st : inst) (s : nat) (r : res (inst * option nat)) : Prop :=
  match r with
  | Deep => False
  | Crash => exists x, reaches env s x /\ broken env x
  | Ok (st', o) => WF own shc G st' /\ (forall k, (k < length (entries st))%nat -> nth_error (entries st') k = nth_error (entries st) k) /\ (length (entries st) <= length (entries st'))%nat /\
      black G st' s /\ (forall x, In x (srcs st') -> In x (srcs st) \/ reaches env s x) /\
      match o with None => present env s = false | Some j => present env s = true /\ at_ (entries st') j s end
  end.
Definition recOk (own : nat -> option nat * bool) (shc : option nat) (G : list nat) (fuel : nat) (rec : inst -> nat -> res (inst * option nat)) : Prop :=
  forall st s, In s U -> WF own shc G st -> (forall g, In g G -> onward g s) -> (length U < fuel + length (entries st))%nat -> (forall x, ~ In x (srcs st) -> own x = (shc, false)) -> post own shc G st s (rec st s).

(** A target after some of the calls of its module function. *)
Record part (es : list entry) (name : text) (c : option nat) (cs : list call) (n : dep) : Prop := mkpart {
  pt_ready : ready n = false; pt_done : done n = false; pt_seen : seen n = []; pt_libs : libs n = []; pt_dlls : dlls n = []; pt_frames : frames n = []; pt_flags : flags n = [];
  pt_deps : Forall2 (fun p q => fst p = fst q /\ at_ es (snd p) (snd q)) (deps n) (filter (fun q => present env (snd q)) (wants cs));
  pt_once : NoDup (filter (present env) (map snd (wants cs)));
  pt_incs : incs n = pubDirs cs;
  pt_defs : NoDup (map fst (defs n)) /\ (forall k v, In (k, v) (defs n) <-> In (CDef Public k v) cs);
  pt_tgt : exists t, tgt n = Some t /\ tname t = name /\ atSrc es (container t) c /\ prefix t = lastPrefix cs /\ privIncs t = allDirs cs /\ privFlags t = [] /\ anySources t = hasSources cs /\
      NoDup (map fst (privDefs t)) /\ (forall k v, In (k, v) (privDefs t) <-> lastDef cs k v) /\ tkind t = lastType cs }.
Lemma part_ext es es' name c cs n : ext es es' -> part es name c cs n -> part es' name c cs n.
Proof.
  intros X [A1 A2 A3 A4 A5 A6 A7 A8 A9 A10 A11 (t & B1 & B2 & B3 & B4)]. constructor; try assumption.
  - revert A8. apply forall2_mono. intros p q (Y & Z). split; [exact Y|]. apply X. exact Z.
  - exists t. split; [exact B1|]. split; [exact B2|]. split; [exact (at_atSrc _ _ _ _ X B3)|exact B4].
Qed.
Lemma lastDef_snoc cs c k v : lastDef (cs ++ [c]) k v <-> match c with CDef u k' v' => (k' = k /\ v' = v) \/ (k' <> k /\ lastDef cs k v) | _ => lastDef cs k v end.
Proof.
  assert (Skip : (forall u' v', c <> CDef u' k v') -> lastDef (cs ++ [c]) k v <-> lastDef cs k v).
  { intros N. split.
    - intros (a & u & b & E & H). destruct b as [|y b'] using rev_ind; [|clear IHb'].
      + apply app_inj_tail in E. destruct E as (_ & E). destruct (N u v). exact E.
      + rewrite app_comm_cons, app_assoc in E. apply app_inj_tail in E. destruct E as (-> & ->). exists a, u, b'. split; [reflexivity|]. intros u' v' I. apply (H u' v'). apply in_or_app. left. exact I.
    - intros (a & u & b & -> & H). exists a, u, (b ++ [c]). split; [rewrite <- app_assoc; reflexivity|]. intros u' v' I. apply in_app_or in I. destruct I as [I|[I|[]]]; [exact (H _ _ I)|exact (N _ _ I)]. }
  destruct c as [v0 dir|v0 k0 x|v0 s|t|p|]; try (apply Skip; discriminate).
  destruct (list_eq_dec Z.eq_dec k0 k) as [->|N].
  - split.
    + intros (a & u & b & E & H). left. split; [reflexivity|]. destruct b as [|y b'] using rev_ind; [|clear IHb'].
      * apply app_inj_tail in E. destruct E as (_ & E). congruence.
      * rewrite app_comm_cons, app_assoc in E. apply app_inj_tail in E. destruct E as (-> & <-). destruct (H v0 x). apply in_or_app. right. left. reflexivity.
    + intros [(_ & ->)|(X & _)]; [|congruence]. exists cs, v0, []. split; [reflexivity|]. intros u' v' [].
  - rewrite Skip by (intros u' v'; congruence). split; [auto|]. intros [(X & _)|(_ & X)]; [congruence|exact X].
Qed.

Lemma setDef_last (ds : list (text * text)) cs k v u : NoDup (map fst ds) -> (forall k v, In (k, v) ds <-> lastDef cs k v) -> NoDup (map fst (setDef ds k v)) /\ forall k' v', In (k', v') (setDef ds k v) <-> lastDef (cs ++ [CDef u k v]) k' v'.
Proof.
  intros N H. destruct (setDef_ok ds k v) as (S1 & S2 & S3 & S4). specialize (S1 N). specialize (S2 N). split; [exact S1|]. intros k' v'. rewrite lastDef_snoc. destruct (list_eq_dec Z.eq_dec k' k) as [->|Nk].
  - split; [intros I; left; split; [reflexivity|]; apply (in_valueOf _ _ _ S1) in I, S2; congruence|]. intros [(_ & <-)|(X & _)]; [exact S2|congruence].
  - rewrite (S4 k' v' Nk), H. split; [intros X; right; split; [congruence|exact X]|]. intros [(X & _)|(_ & X)]; [congruence|exact X].
Qed.
Lemma plain_ok es name c cs n t a : part es name c cs n -> tgt n = Some t -> (forall v s, a <> CDep v s) ->
  match plainCall a n t with
  | Some n' => part es name c (cs ++ [a]) n'
  | None => exists k v v', In (CDef Public k v) (cs ++ [a]) /\ In (CDef Public k v') (cs ++ [a]) /\ v <> v'
  end.
Proof.
  intros [A1 A2 A3 A4 A5 A6 A7 A8 A9 A10 (A11 & A12) (t' & B1 & B2 & B3 & B4 & B5 & B6 & B7 & B8 & B9 & B10)] Tn Na. assert (t' = t) by congruence. subst t'.
  assert (W : wants (cs ++ [a]) = wants cs) by (rewrite wants_app; destruct a; try apply app_nil_r; destruct (Na v s); reflexivity).
  assert (Dsame : (forall u k v, a <> CDef u k v) -> forall k v, lastDef (cs ++ [a]) k v <-> lastDef cs k v) by (intros X k v; rewrite lastDef_snoc; destruct a; try reflexivity; destruct (X v0 k0 x); reflexivity).
  assert (Psame : (forall k v, a <> CDef Public k v) -> forall k v, In (k, v) (defs n) <-> In (CDef Public k v) (cs ++ [a])).
  { intros X k v. rewrite A12, in_app_iff. cbn [In]. split; [auto|]. intros [Y|[Y|[]]]; [exact Y|]. destruct (X _ _ Y). }
  destruct a as [v dir|v k x|v s|k|p|]; cbn [plainCall].
  - constructor; cbn [ready done seen libs dlls frames flags deps incs defs tgt]; try assumption; try (rewrite W; assumption).
    + unfold pubDirs. rewrite flat_map_app, <- (A10 : _ = flat_map _ cs). destruct v; cbn; [symmetry; apply app_nil_r|reflexivity].
    + split; [exact A11|apply Psame; discriminate].
    + eexists. split; [reflexivity|]. cbn [tname container prefix privIncs privFlags anySources privDefs tkind]. split; [exact B2|]. split; [exact B3|]. split; [unfold lastPrefix; rewrite fold_left_app; exact B4|]. split; [unfold allDirs; rewrite flat_map_app, B5; reflexivity|].
      split; [exact B6|]. split; [unfold hasSources; rewrite existsb_app, B7; cbn; rewrite orb_false_r; reflexivity|]. split; [exact B8|]. split; [intros k0 v0; rewrite B9, Dsame by discriminate; reflexivity|]. unfold lastType. rewrite fold_left_app. exact B10.
  - destruct (setDef_last (privDefs t) cs k x v B8 B9) as (D1 & D2).
    assert (Tg : forall t', t' = mktarget (tkind t) (tname t) (container t) (prefix t) (privIncs t) (setDef (privDefs t) k x) (privFlags t) (anySources t) -> tname t' = name /\ atSrc es (container t') c /\ prefix t' = lastPrefix (cs ++ [CDef v k x]) /\ privIncs t' = allDirs (cs ++ [CDef v k x]) /\ privFlags t' = [] /\ anySources t' = hasSources (cs ++ [CDef v k x]) /\
      NoDup (map fst (privDefs t')) /\ (forall k0 v0, In (k0, v0) (privDefs t') <-> lastDef (cs ++ [CDef v k x]) k0 v0) /\ tkind t' = lastType (cs ++ [CDef v k x])).
    { intros t' ->. cbn [tname container prefix privIncs privFlags anySources privDefs tkind]. split; [exact B2|]. split; [exact B3|]. split; [unfold lastPrefix; rewrite fold_left_app; exact B4|]. split; [unfold allDirs; rewrite flat_map_app, B5; cbn; rewrite app_nil_r; reflexivity|].
      split; [exact B6|]. split; [unfold hasSources; rewrite existsb_app, B7; cbn; rewrite orb_false_r; reflexivity|]. split; [exact D1|]. split; [exact D2|]. unfold lastType. rewrite fold_left_app. exact B10. }
    assert (Pi : incs n = pubDirs (cs ++ [CDef v k x])) by (unfold pubDirs; rewrite flat_map_app; cbn; rewrite app_nil_r; exact A10).
    destruct v.
    + constructor; unfold setTgt; cbn [ready done seen libs dlls frames flags deps incs defs tgt]; try assumption; try (rewrite W; assumption).
      * split; [exact A11|apply Psame; discriminate].
      * eexists. split; [reflexivity|]. apply Tg. reflexivity.
    + destruct (valueOf k (defs n)) as [x'|] eqn:V.
      * apply valueOf_in in V. apply A12 in V. destruct (bytes_eqb_spec x' x) as [->|Nx].
        -- constructor; unfold setTgt; cbn [ready done seen libs dlls frames flags deps incs defs tgt]; try assumption; try (rewrite W; assumption).
           ++ split; [exact A11|]. intros k0 v0. rewrite A12, in_app_iff. cbn [In]. split; [auto|]. intros [Y|[Y|[]]]; [exact Y|]. injection Y as <- <-. exact V.
           ++ eexists. split; [reflexivity|]. apply Tg. reflexivity.
        -- exists k, x', x. split; [apply in_or_app; left; exact V|]. split; [apply in_or_app; right; left; reflexivity|exact Nx].
      * constructor; cbn [ready done seen libs dlls frames flags deps incs defs tgt]; try assumption; try (rewrite W; assumption).
        -- split; [rewrite map_app; apply nodup_snoc; [exact A11|]; apply valueOf_none; exact V|]. intros k0 v0. rewrite !in_app_iff, A12. cbn [In]. split; (intros [Y|[Y|[]]]; [auto|]); injection Y as <- <-; auto.
        -- eexists. split; [reflexivity|]. apply Tg. reflexivity.
  - destruct (Na v s). reflexivity.
  - constructor; unfold setTgt; cbn [ready done seen libs dlls frames flags deps incs defs tgt]; try assumption; try (rewrite W; assumption).
    + unfold pubDirs. rewrite flat_map_app. cbn. rewrite app_nil_r. exact A10.
    + split; [exact A11|apply Psame; discriminate].
    + eexists. split; [reflexivity|]. cbn [tname container prefix privIncs privFlags anySources privDefs tkind]. split; [exact B2|]. split; [exact B3|]. split; [unfold lastPrefix; rewrite fold_left_app; exact B4|]. split; [unfold allDirs; rewrite flat_map_app, B5; cbn; rewrite app_nil_r; reflexivity|].
      split; [exact B6|]. split; [unfold hasSources; rewrite existsb_app, B7; cbn; rewrite orb_false_r; reflexivity|]. split; [exact B8|]. split; [intros k0 v0; rewrite B9, Dsame by discriminate; reflexivity|]. unfold lastType. rewrite fold_left_app. reflexivity.
  - constructor; unfold setTgt; cbn [ready done seen libs dlls frames flags deps incs defs tgt]; try assumption; try (rewrite W; assumption).
    + unfold pubDirs. rewrite flat_map_app. cbn. rewrite app_nil_r. exact A10.
    + split; [exact A11|apply Psame; discriminate].
    + eexists. split; [reflexivity|]. cbn [tname container prefix privIncs privFlags anySources privDefs tkind]. split; [exact B2|]. split; [exact B3|]. split; [unfold lastPrefix; rewrite fold_left_app; reflexivity|]. split; [unfold allDirs; rewrite flat_map_app, B5; cbn; rewrite app_nil_r; reflexivity|].
      split; [exact B6|]. split; [unfold hasSources; rewrite existsb_app, B7; cbn; rewrite orb_false_r; reflexivity|]. split; [exact B8|]. split; [intros k0 v0; rewrite B9, Dsame by discriminate; reflexivity|]. unfold lastType. rewrite fold_left_app. exact B10.
  - constructor; unfold setTgt; cbn [ready done seen libs dlls frames flags deps incs defs tgt]; try assumption; try (rewrite W; assumption).
    + unfold pubDirs. rewrite flat_map_app. cbn. rewrite app_nil_r. exact A10.
    + split; [exact A11|apply Psame; discriminate].
    + eexists. split; [reflexivity|]. cbn [tname container prefix privIncs privFlags anySources privDefs tkind]. split; [exact B2|]. split; [exact B3|]. split; [unfold lastPrefix; rewrite fold_left_app; exact B4|]. split; [unfold allDirs; rewrite flat_map_app, B5; cbn; rewrite app_nil_r; reflexivity|].
      split; [exact B6|]. split; [unfold hasSources; rewrite existsb_app; cbn; rewrite orb_true_r; reflexivity|]. split; [exact B8|]. split; [intros k0 v0; rewrite B9, Dsame by discriminate; reflexivity|]. unfold lastType. rewrite fold_left_app. exact B10.
Qed.

(** Changing the node of a source that is not done. *)
Lemma WF_set own shc G st i s n n' : WF own shc G st -> at_ (entries st) i s -> In s G -> node (entries st) i = Some n -> ready n' = false ->
  WF own shc G (mkinst (setNode (entries st) i n') (shared st) (unselected st) (uninstalled st)).
Proof.
  intros W Hi Gs Ni Rn. set (st' := mkinst _ _ _ _). assert (Es : srcs st' = srcs st) by (unfold srcs, st'; cbn [entries]; apply set_src).
  assert (X : ext (entries st) (entries st')) by (unfold st'; cbn [entries]; apply ext_set).
  assert (Eb : forall x, black G st' x <-> black G st x) by (intros x; unfold black; rewrite Es; reflexivity).
  destruct W as [W1 W2 W3 W4 (rank & W5) W6 W7 W8 W9]. constructor; rewrite ?Es; try assumption.
  - intros k e E. unfold st' in E. cbn [entries] in E. rewrite set_nth in E. destruct (Nat.eqb_spec k i) as [->|Nk].
    + destruct Hi as (e0 & Hi & He). rewrite Hi in E. cbn [option_map] in E. injection E as <-. cbn [esrc edep]. rewrite He. destruct (in_dec Nat.eq_dec s G); [|contradiction]. exists n'. auto.
    + specialize (W4 k e E). destruct (in_dec Nat.eq_dec (esrc e) G); [exact W4|]. destruct (edep e) as [m|]; [|exact W4]. destruct W4 as (P1 & P2 & P3). split; [exact P1|]. split; [exact P2|]. exact (made_ext _ _ _ _ _ _ _ X P3).
  - exists rank. intros x y Bx Nx. apply Eb in Bx. destruct (W5 x y Bx Nx) as (By & L). split; [apply Eb; exact By|exact L].
  - intros x Bx. apply W6, Eb. exact Bx.
  - exact (at_atSrc _ _ _ _ X W7).
Qed.
Lemma node_at es i s n : node es i = Some n -> at_ es i s -> exists e, nth_error es i = Some e /\ esrc e = s /\ edep e = Some n.
Proof. unfold node. intros N (e & A & B). rewrite A in N. exists e. auto. Qed.
Lemma filter_snd (l : list (vis * nat)) : map snd (filter (fun q => present env (snd q)) l) = filter (present env) (map snd l).
Proof. induction l as [|(v, s) l IH]; cbn [filter map snd]; [reflexivity|]. destruct (present env s); cbn [map snd]; rewrite IH; reflexivity. Qed.
Lemma forall2_in {A B} (P : A -> B -> Prop) l l' x : Forall2 P l l' -> In x l -> exists y, In y l' /\ P x y.
Proof. intros F. induction F as [|a b l0 l1 H F IHF]; intros I; [contradiction|]. destruct I as [->|I]; [exists b; split; [left; reflexivity|exact H]|]. destruct (IHF I) as (y & Iy & Hy). exists y. split; [right; exact Iy|exact Hy]. Qed.
Lemma forall2_in' {A B} (P : A -> B -> Prop) l l' y : Forall2 P l l' -> In y l' -> exists x, In x l /\ P x y.
Proof. intros F. induction F as [|a b l0 l1 H F IHF]; intros I; [contradiction|]. destruct I as [->|I]; [exists a; split; [left; reflexivity|exact H]|]. destruct (IHF I) as (z & Iy & Hy). exists z. split; [right; exact Iy|exact Hy]. Qed.
Lemma run_ok own shc G s name full i fuel rec : env s = STarget name full -> In s U -> recOk own shc (s :: G) fuel rec -> (forall g, In g G -> onward g s) ->
  forall cs pre st n, full = pre ++ cs -> WF own shc (s :: G) st -> at_ (entries st) i s -> node (entries st) i = Some n -> part (entries st) name shc pre n -> (length U < fuel + length (entries st))%nat -> (forall x, ~ In x (srcs st) -> own x = (shc, false)) ->
  (forall v c, In (v, c) (wants pre) -> black (s :: G) st c) -> 
  match run rec i cs st with
  | Deep => False
  | Crash => exists x, reaches env s x /\ broken env x
  | Ok st' => exists n', WF own shc (s :: G) st' /\ node (entries st') i = Some n' /\ part (entries st') name shc full n' /\ ext (entries st) (entries st') /\
      (forall k, (k < length (entries st))%nat -> k <> i -> nth_error (entries st') k = nth_error (entries st) k) /\ (length (entries st) <= length (entries st'))%nat /\
      (forall x, In x (srcs st') -> In x (srcs st) \/ reaches env s x) /\ (forall v c, In (v, c) (wants full) -> black (s :: G) st' c)
  end.
Proof.
  intros Es Us Hrec Hg. assert (Ec : callsOf env s = full) by (unfold callsOf; rewrite Es; reflexivity).
  induction cs as [|a cs IH]; intros pre st n Ef W Hi Ni Hp Hf Hown Hb; cbn [run].
  { rewrite app_nil_r in Ef. subst pre. exists n. split; [exact W|]. split; [exact Ni|]. split; [exact Hp|]. split; [intros k x X; exact X|]. split; [reflexivity|]. split; [lia|]. auto. }
  assert (Plain : (forall v c, a <> CDep v c) -> match node (entries st) i with None => Crash | Some n => match tgt n with None => Crash | Some t => match plainCall a n t with None => Crash | Some n' => run rec i cs (mkinst (setNode (entries st) i n') (shared st) (unselected st) (uninstalled st)) end end end = run rec i (a :: cs) st ->
    match run rec i (a :: cs) st with
    | Deep => False
    | Crash => exists x, reaches env s x /\ broken env x
    | Ok st' => exists n', WF own shc (s :: G) st' /\ node (entries st') i = Some n' /\ part (entries st') name shc full n' /\ ext (entries st) (entries st') /\
      (forall k, (k < length (entries st))%nat -> k <> i -> nth_error (entries st') k = nth_error (entries st) k) /\ (length (entries st) <= length (entries st'))%nat /\
      (forall x, In x (srcs st') -> In x (srcs st) \/ reaches env s x) /\ (forall v c, In (v, c) (wants full) -> black (s :: G) st' c) end).
  { intros Na Eq. rewrite <- Eq. clear Eq. rewrite Ni. destruct (pt_tgt _ _ _ _ _ Hp) as (t & Tn & _). rewrite Tn. pose proof (plain_ok _ _ _ _ _ _ a Hp Tn Na) as HP. destruct (plainCall a n t) as [n'|].
    - set (st1 := mkinst _ _ _ _). assert (X1 : ext (entries st) (entries st1)) by apply ext_set.
      assert (W1 : WF own shc (s :: G) st1) by exact (WF_set own shc (s :: G) st i s n n' W Hi (or_introl eq_refl) Ni (pt_ready _ _ _ _ _ HP)).
      assert (L1 : length (entries st1) = length (entries st)) by apply set_length. assert (S1 : srcs st1 = srcs st) by apply set_src.
      pose proof (IH (pre ++ [a]) st1 n' ltac:(rewrite <- app_assoc; exact Ef) W1 (X1 _ _ Hi) (node_set_same _ _ _ _ Ni) (part_ext _ _ _ _ _ _ X1 HP) ltac:(lia) ltac:(rewrite S1; exact Hown)) as HI.
      assert (Hb1 : forall v c, In (v, c) (wants (pre ++ [a])) -> black (s :: G) st1 c).
      { intros v c I. rewrite wants_app in I. apply in_app_or in I. unfold black. rewrite S1. destruct I as [I|I]; [exact (Hb v c I)|]. destruct a; cbn in I; try contradiction. destruct I as [I|[]]. destruct (Na v0 s0). reflexivity. }
      specialize (HI Hb1). destruct (run rec i cs st1) as [st'| |]; [|exact HI|exact HI]. destruct HI as (n2 & I1 & I2 & I3 & I4 & I5 & I6 & I7 & I8). exists n2. split; [exact I1|]. split; [exact I2|]. split; [exact I3|]. split; [exact (ext_trans _ _ _ X1 I4)|]. split; [|split; [lia|split; [rewrite S1 in I7; exact I7|exact I8]]].
      intros k Lk Nk. rewrite I5 by (try exact Nk; lia). unfold st1. cbn [entries]. rewrite set_nth. destruct (Nat.eqb_spec k i); [contradiction|reflexivity].
    - exists s. split; [constructor|]. right. right. destruct HP as (k & v & v' & H1 & H2 & H3). exists k, v, v'. rewrite Ec, Ef. rewrite in_app_iff in H1, H2. cbn [In] in H1, H2. rewrite !in_app_iff. cbn [In]. tauto. }
  destruct a as [v dir|v k x|v c|k|p|]; try (apply Plain; [discriminate|reflexivity]). clear Plain.
  assert (Nc : needs env s c) by (exists v; rewrite Ec, Ef, wants_app; apply in_or_app; right; left; reflexivity).
  assert (Hg' : forall g, In g (s :: G) -> onward g c).
  { intros g [<-|I]; [exists c; split; [exact Nc|constructor]|]. destruct (Hg g I) as (c' & A & B). exists c'. split; [exact A|]. apply (reaches_trans _ _ _ _ B). apply (reaches_step _ _ c); [exact Nc|constructor]. }
  pose proof (Hrec st c (Uclosed _ _ Us Nc) W Hg' Hf Hown) as HR. destruct (rec st c) as [(st1, o)| |]; [| |exact HR].
  2:{ destruct HR as (x & R & B). exists x. split; [exact (reaches_step _ _ _ _ Nc R)|exact B]. }
  destruct HR as (W1 & Same & Len & Bc & New & Ho). assert (X1 : ext (entries st) (entries st1)).
  { intros k x (e & A & B). exists e. split; [|exact B]. rewrite Same; [exact A|]. apply nth_error_Some. congruence. }
  assert (Li : (i < length (entries st))%nat) by (destruct Hi as (e & A & _); apply nth_error_Some; congruence).
  assert (Ni1 : node (entries st1) i = Some n) by (unfold node in *; rewrite (Same i Li); exact Ni).
  assert (Hown1 : forall x, ~ In x (srcs st1) -> own x = (shc, false)) by (intros x Hx; apply Hown; intros I; apply Hx; exact (ext_in _ _ _ X1 I)).
  assert (Hb1 : forall v' c', In (v', c') (wants (pre ++ [CDep v c])) -> black (s :: G) st1 c').
  { intros v' c' I. rewrite wants_app in I. apply in_app_or in I. destruct I as [I|[I|[]]]; [|injection I as <- <-; exact Bc]. destruct (Hb _ _ I) as (A & B). split; [exact (ext_in _ _ _ X1 A)|exact B]. }
  assert (New' : forall x, In x (srcs st1) -> In x (srcs st) \/ reaches env s x) by (intros x I; destruct (New x I) as [Y|Y]; [auto|right; exact (reaches_step _ _ _ _ Nc Y)]).
  pose proof (part_ext _ _ _ _ _ _ X1 Hp) as Hp1.
  assert (Hf1 : (length U < fuel + length (entries st1))%nat) by lia.
  assert (Ef1 : full = (pre ++ [CDep v c]) ++ cs) by (rewrite <- app_assoc; exact Ef).
  assert (Wd : wants (pre ++ [CDep v c]) = wants pre ++ [(v, c)]) by (rewrite wants_app; reflexivity).
  assert (Pt : forall es n', (deps n' = deps n \/ deps n' <> deps n) -> ready n' = false -> done n' = done n -> seen n' = seen n -> incs n' = incs n -> defs n' = defs n -> libs n' = libs n -> dlls n' = dlls n -> frames n' = frames n -> flags n' = flags n -> tgt n' = tgt n -> part es name shc pre n ->
     Forall2 (fun p q => fst p = fst q /\ at_ es (snd p) (snd q)) (deps n') (filter (fun q => present env (snd q)) (wants pre ++ [(v, c)])) -> NoDup (filter (present env) (map snd (wants pre ++ [(v, c)]))) -> part es name shc (pre ++ [CDep v c]) n').
  { intros es n' _ E1 E2 E3 E4 E5 E6 E7 E8 E9 E10 [A1 A2 A3 A4 A5 A6 A7 A8 A9 A10 (A11 & A12) (t & B1 & B2 & B3 & B4 & B5 & B6 & B7 & B8 & B9 & B10)] F2 Nd. constructor; rewrite ?Wd, ?E2, ?E3, ?E4, ?E5, ?E6, ?E7, ?E8, ?E9, ?E10; try assumption.
    - unfold pubDirs. rewrite flat_map_app. cbn. rewrite app_nil_r. exact A10.
    - split; [exact A11|]. intros k x. rewrite A12, in_app_iff. cbn [In]. split; [auto|]. intros [Y|[Y|[]]]; [exact Y|discriminate].
    - exists t. split; [exact B1|]. split; [exact B2|]. split; [exact B3|]. split; [unfold lastPrefix; rewrite fold_left_app; exact B4|]. split; [unfold allDirs; rewrite flat_map_app, B5; cbn; rewrite app_nil_r; reflexivity|].
      split; [exact B6|]. split; [unfold hasSources; rewrite existsb_app, B7; cbn; rewrite orb_false_r; reflexivity|]. split; [exact B8|]. split; [intros k0 v0; rewrite B9, lastDef_snoc; reflexivity|]. unfold lastType. rewrite fold_left_app. exact B10. }
  destruct o as [j|].
  - destruct Ho as (Pc & Hj). rewrite Ni1. destruct (existsb (fun p => Nat.eqb (snd p) j) (deps n)) eqn:Dup.
    + exists s. split; [constructor|]. right. left. unfold twice. rewrite Ec, Ef1, wants_app, Wd. intros Nd. apply existsb_exists in Dup. destruct Dup as (p & Ip & Ep). apply Nat.eqb_eq in Ep.
      rewrite map_app, filter_app, map_app, filter_app in Nd. cbn [map snd filter] in Nd. rewrite Pc in Nd. rewrite <- app_assoc in Nd. apply NoDup_remove_2 in Nd. apply Nd. apply in_or_app. left.
      destruct (forall2_in _ _ _ _ (pt_deps _ _ _ _ _ Hp1) Ip) as ((v', q) & Iq & _ & Aq). cbn [snd] in Aq. rewrite Ep in Aq. pose proof (at_fun _ _ _ _ Aq Hj) as ->. rewrite <- filter_snd. apply in_map_iff. exists (v', c). auto.
    + set (n2 := mkdep (deps n ++ [(v, j)]) (ready n) (done n) (seen n) (incs n) (defs n) (libs n) (dlls n) (frames n) (flags n) (tgt n)). set (st2 := mkinst _ _ _ _).
      assert (X2 : ext (entries st1) (entries st2)) by apply ext_set.
      assert (L2 : length (entries st2) = length (entries st1)) by apply set_length. assert (S2 : srcs st2 = srcs st1) by apply set_src.
      assert (W2 : WF own shc (s :: G) st2) by exact (WF_set own shc (s :: G) st1 i s n n2 W1 (X1 _ _ Hi) (or_introl eq_refl) Ni1 (pt_ready _ _ _ _ _ Hp)).
      assert (Hp2 : part (entries st2) name shc (pre ++ [CDep v c]) n2).
      { apply (part_ext (entries st1)); [exact X2|]. apply Pt; try reflexivity; [right; unfold n2; cbn [deps]; intros E; apply (f_equal (@length _)) in E; rewrite app_length in E; cbn [length] in E; lia|exact (pt_ready _ _ _ _ _ Hp)|exact Hp1| |].
        - unfold n2. cbn [deps]. rewrite filter_app. cbn [filter snd]. rewrite Pc. apply Forall2_app; [exact (pt_deps _ _ _ _ _ Hp1)|]. constructor; [|constructor]. cbn [fst snd]. auto.
        - rewrite map_app, filter_app. cbn [map snd filter]. rewrite Pc. apply nodup_snoc; [exact (pt_once _ _ _ _ _ Hp1)|]. intros I. rewrite <- filter_snd in I. apply in_map_iff in I. destruct I as ((v', q) & Eq & Iq). cbn [snd] in Eq. subst q.
          destruct (forall2_in' _ _ _ _ (pt_deps _ _ _ _ _ Hp1) Iq) as ((v2, j2) & Ij & _ & Aj). cbn [snd] in Aj. pose proof (at_uniq _ _ _ _ (wf_nodup _ _ _ _ W1) Aj Hj) as ->.
          assert (X : existsb (fun p : vis * nat => Nat.eqb (snd p) j) (deps n) = true) by (apply existsb_exists; exists (v2, j); split; [exact Ij|apply Nat.eqb_refl]). congruence. }
      assert (Hb2 : forall v' c', In (v', c') (wants (pre ++ [CDep v c])) -> black (s :: G) st2 c') by (intros v' c' I; unfold black; rewrite S2; exact (Hb1 v' c' I)).
      pose proof (IH (pre ++ [CDep v c]) st2 n2 Ef1 W2 (X2 _ _ (X1 _ _ Hi)) (node_set_same _ _ _ _ Ni1) Hp2 ltac:(lia) ltac:(rewrite S2; exact Hown1) Hb2) as HI.
      destruct (run rec i cs st2) as [st'| |]; [|exact HI|exact HI]. destruct HI as (n3 & I1 & I2 & I3 & I4 & I5 & I6 & I7 & I8). exists n3. split; [exact I1|]. split; [exact I2|]. split; [exact I3|]. split; [exact (ext_trans _ _ _ X1 (ext_trans _ _ _ X2 I4))|]. split; [|split; [lia|split; [|exact I8]]].
      * intros k Lk Nk. rewrite I5 by (try exact Nk; lia). unfold st2. cbn [entries]. rewrite set_nth. destruct (Nat.eqb_spec k i); [contradiction|]. exact (Same k Lk).
      * intros x I. rewrite S2 in I7. destruct (I7 x I) as [Y|Y]; [exact (New' x Y)|auto].
  - assert (Hp2 : part (entries st1) name shc (pre ++ [CDep v c]) n).
    { apply Pt; try reflexivity; [left; reflexivity|exact (pt_ready _ _ _ _ _ Hp)|exact Hp1| |].
      - rewrite filter_app. cbn [filter snd]. rewrite Ho, app_nil_r. exact (pt_deps _ _ _ _ _ Hp1).
      - rewrite map_app, filter_app. cbn [map snd filter]. rewrite Ho, app_nil_r. exact (pt_once _ _ _ _ _ Hp1). }
    pose proof (IH (pre ++ [CDep v c]) st1 n Ef1 W1 (X1 _ _ Hi) Ni1 Hp2 Hf1 Hown1 Hb1) as HI.
    destruct (run rec i cs st1) as [st'| |]; [|exact HI|exact HI]. destruct HI as (n3 & I1 & I2 & I3 & I4 & I5 & I6 & I7 & I8). exists n3. split; [exact I1|]. split; [exact I2|]. split; [exact I3|]. split; [exact (ext_trans _ _ _ X1 I4)|]. split; [|split; [lia|split; [|exact I8]]].
    + intros k Lk Nk. rewrite I5 by (try exact Nk; lia). exact (Same k Lk).
    + intros x I. destruct (I7 x I) as [Y|Y]; [exact (New' x Y)|auto].
Qed.

(* ---- a source ---- *)
Lemma nodup_bound (l : list nat) : NoDup l -> incl l U -> (length l <= length U)%nat.
Proof. intros N I. exact (NoDup_incl_length N I). Qed.
(** Adding an entry for a source that is not there. *)
Lemma black_app G st s o sh us ui x : black G (mkinst (entries st ++ [mkentry s o]) sh us ui) x <-> (In x (srcs st) \/ x = s) /\ ~ In x G.
Proof. unfold black, srcs. cbn [entries]. rewrite map_app, in_app_iff. cbn [map esrc In]. intuition. Qed.
Lemma at_new es s o : at_ (es ++ [mkentry s o]) (length es) s.
Proof. eexists. split; [rewrite nth_error_app2 by lia; rewrite Nat.sub_diag; reflexivity|reflexivity]. Qed.
Definition newShared (isRoot : bool) (st : inst) (s : nat) (shc : option nat) : option nat :=
  match findSrc (entries st) s with Some _ => shc | None => if isRoot && isTarget env s then Some s else shc end.
Lemma max_rank (rank : nat -> nat) (l : list nat) : exists m, forall x, In x l -> (rank x < m)%nat.
Proof. induction l as [|y l (m & IH)]; [exists O; intros x []|]. exists (S (Nat.max m (rank y))). intros x [<-|I]; [lia|]. specialize (IH x I). lia. Qed.
Lemma addNat_ok x l : (NoDup l -> NoDup (addNat x l)) /\ forall y, In y (addNat x l) <-> In y l \/ y = x.
Proof.
  unfold addNat. destruct (existsb (Nat.eqb x) l) eqn:E.
  - apply existsb_exists in E. destruct E as (z & I & E). apply Nat.eqb_eq in E. subst z. split; [auto|]. intros y. split; [auto|]. intros [H| ->]; auto.
  - split; [|intros y; rewrite in_app_iff; cbn [In]; intuition]. intros N. apply nodup_snoc; [exact N|]. intros I. assert (existsb (Nat.eqb x) l = true) by (apply existsb_exists; exists x; split; [exact I|apply Nat.eqb_refl]). congruence.
Qed.
(** An entry that is complete when it is added. *)
Lemma WF_add own shc G st s o us ui : WF own shc G st -> In s U -> ~ In s (srcs st) -> (forall c, ~ needs env s c) -> ~ twice env s -> ~ clash env s ->
  match o with Some n => present env s = true /\ ready n = true /\ made env (entries st ++ [mkentry s o]) s (fst (own s)) (snd (own s)) n | None => present env s = false end ->
  (NoDup us /\ forall x, In x us <-> (In x (srcs st) \/ x = s) /\ env x = SExtern None) -> (NoDup ui /\ forall p, In p ui <-> exists x, (In x (srcs st) \/ x = s) /\ env x = SExtern (Some (p, None))) ->
  WF own shc G (mkinst (entries st ++ [mkentry s o]) (shared st) us ui).
Proof.
  intros W Us Ns Nn Nt Ncl Ho Hus Hui. assert (X : ext (entries st) (entries st ++ [mkentry s o])) by apply ext_app. destruct W as [W1 W2 W3 W4 (rank & W5) W6 W7 W8 W9]. assert (Gs : ~ In s G) by (intros I; apply Ns, W3, I). constructor.
  - unfold srcs. cbn [entries]. rewrite map_app. apply nodup_snoc; assumption.
  - intros x I. unfold srcs in I. cbn [entries] in I. rewrite map_app in I. apply in_app_or in I. destruct I as [I|[<-|[]]]; [exact (W2 x I)|exact Us].
  - intros g I. unfold srcs. cbn [entries]. rewrite map_app. apply in_or_app. left. exact (W3 g I).
  - cbn [entries]. intros i e E. destruct (Nat.lt_ge_cases i (length (entries st))) as [L|L].
    + rewrite nth_error_app1 in E by exact L. specialize (W4 i e E). destruct (in_dec Nat.eq_dec (esrc e) G); [exact W4|]. destruct (edep e) as [m|]; [|exact W4]. destruct W4 as (P1 & P2 & P3). split; [exact P1|]. split; [exact P2|]. exact (made_ext _ _ _ _ _ _ _ X P3).
    + rewrite nth_error_app2 in E by exact L. destruct (i - length (entries st))%nat as [|z]; [|destruct z; discriminate]. injection E as <-. cbn [esrc edep]. destruct (in_dec Nat.eq_dec s G); [contradiction|]. exact Ho.
  - exists rank. intros x y Bx Nx. apply black_app in Bx. destruct Bx as ([Bx| ->] & Gx); [|destruct (Nn y Nx)]. destruct (W5 x y (conj Bx Gx) Nx) as ((A & B) & L). split; [apply black_app; auto|exact L].
  - intros x Bx. apply black_app in Bx. destruct Bx as ([Bx| ->] & Gx); [exact (W6 x (conj Bx Gx))|auto].
  - cbn [entries shared]. exact (at_atSrc _ _ _ _ X W7).
  - cbn [unselected]. destruct Hus as (A & B). split; [exact A|]. intros x. rewrite B. unfold srcs. cbn [entries]. rewrite map_app, in_app_iff. cbn [map esrc In]. intuition.
  - cbn [uninstalled]. destruct Hui as (A & B). split; [exact A|]. intros p. rewrite B. unfold srcs. cbn [entries]. split; intros (x & Hx & Ex); exists x; (split; [|exact Ex]); rewrite map_app, in_app_iff in *; cbn [map esrc In] in *; intuition.
Qed.
Lemma inst_ok fuel : forall own shc G st s isRoot, In s U -> WF own shc G st -> (forall g, In g G -> onward g s) -> (length U < fuel + length (entries st))%nat ->
  (forall x, ~ In x (srcs st) -> own x = (newShared isRoot st s shc, isRoot && Nat.eqb x s)) -> post own (newShared isRoot st s shc) G st s (instantiate env fuel st s isRoot).
Proof.
  induction fuel as [|fuel IH]; intros own shc G st s isRoot Us W Hg Hf Hown.
  { exfalso. pose proof (nodup_bound _ (wf_nodup _ _ _ _ W) (wf_incl _ _ _ _ W)) as B. unfold srcs in B. rewrite map_length in B. lia. }
  cbn [instantiate]. unfold newShared in Hown |- *. pose proof (findSrc_ok (entries st) s) as HF. destruct (findSrc (entries st) s) as [i|].
  - pose proof HF as (e & Ne & Ee). pose proof (wf_entry _ _ _ _ W i e Ne) as We. rewrite Ee in We. unfold node. rewrite Ne. destruct (in_dec Nat.eq_dec s G) as [Gs|Gs].
    + destruct We as (n & En & Rn). rewrite En, Rn. exists s. split; [constructor|]. left. exact (Hg s Gs).
    + assert (Bs : black G st s) by (split; [exact (at_in _ _ _ HF)|exact Gs]). destruct (edep e) as [n|] eqn:En.
      * destruct We as (Ps & Rn & _). rewrite Rn. split; [exact W|]. split; [reflexivity|]. split; [lia|]. split; [exact Bs|]. split; [auto|]. split; [exact Ps|exact HF].
      * split; [exact W|]. split; [reflexivity|]. split; [lia|]. split; [exact Bs|]. split; [auto|exact We].
  - assert (Gs : ~ In s G) by (intros X; apply HF; exact (wf_gray _ _ _ _ W s X)).
    assert (Ext : forall o us ui, (forall c, ~ needs env s c) -> ~ twice env s -> ~ clash env s -> isTarget env s = false ->
      match o with Some n => present env s = true /\ ready n = true /\ made env (entries st ++ [mkentry s o]) s (fst (own s)) (snd (own s)) n | None => present env s = false end ->
      (NoDup us /\ forall x, In x us <-> (In x (srcs st) \/ x = s) /\ env x = SExtern None) -> (NoDup ui /\ forall p, In p ui <-> exists x, (In x (srcs st) \/ x = s) /\ env x = SExtern (Some (p, None))) ->
      post own (if isRoot && isTarget env s then Some s else shc) G st s (Ok (mkinst (entries st ++ [mkentry s o]) (shared st) us ui, match o with Some _ => Some (length (entries st)) | None => None end))).
    { intros o us ui H1 H2 H3 H3' H4 H5 H6. rewrite H3', andb_false_r. split; [exact (WF_add own shc G st s o us ui W Us HF H1 H2 H3 H4 H5 H6)|]. cbn [entries]. split; [intros k L; apply nth_error_app1; exact L|]. split; [rewrite app_length; lia|]. split; [apply black_app; auto|]. split.
      - intros x I. unfold srcs in I. cbn [entries] in I. rewrite map_app in I. apply in_app_or in I. destruct I as [I|[<-|[]]]; [left; exact I|right; constructor].
      - destruct o; [|exact H4]. split; [exact (proj1 H4)|apply at_new]. }
    destruct (wf_unsel _ _ _ _ W) as (N8 & W8). destruct (wf_uninst _ _ _ _ W) as (N9 & W9).
    assert (Keep8 : env s <> SExtern None -> forall x, In x (unselected st) <-> (In x (srcs st) \/ x = s) /\ env x = SExtern None) by (intros X x; rewrite W8; split; [tauto|intros ([Y| ->] & Z); [auto|congruence]]).
    assert (Keep9 : (forall p, env s <> SExtern (Some (p, None))) -> forall p, In p (uninstalled st) <-> exists x, (In x (srcs st) \/ x = s) /\ env x = SExtern (Some (p, None))).
    { intros X p. rewrite W9. split; [intros (x & A & B); exists x; auto|intros (x & [A| ->] & B); [exists x; auto|destruct (X p B)]]. }
    assert (Nocalls : isTarget env s = false -> callsOf env s = []) by (unfold isTarget, callsOf; destruct (env s); [discriminate|reflexivity]).
    assert (NoE : isTarget env s = false -> (forall c, ~ needs env s c) /\ ~ twice env s /\ ~ clash env s).
    { intros Ti. specialize (Nocalls Ti). unfold needs, twice, clash. rewrite Nocalls. cbn. split; [intros c (v & [])|]. split; [intros X; apply X; constructor|]. intros (k & v & v' & [] & _). }
    destruct (env s) as [name cs|[(p, [m|])|]] eqn:Es.
    + (* a target *)
      clear Ext NoE Nocalls. assert (Et : isTarget env s = true) by (unfold isTarget; rewrite Es; reflexivity). rewrite Et, andb_true_r in *. set (shc' := if isRoot then Some s else shc) in *. set (i := length (entries st)). set (sh := if isRoot then Some i else shared st).
      set (n0 := setTgt emptyDep (mktarget Lib name sh [] [] [] [] false)). set (st1 := mkinst (entries st ++ [mkentry s (Some n0)]) sh (unselected st) (uninstalled st)).
      assert (X1 : ext (entries st) (entries st1)) by apply ext_app. assert (Hi : at_ (entries st1) i s) by apply at_new.
      assert (S1 : srcs st1 = srcs st ++ [s]) by (unfold srcs, st1; cbn [entries]; apply map_app).
      assert (L1 : length (entries st1) = S (length (entries st))) by (unfold st1; cbn [entries]; rewrite app_length; cbn [length]; lia).
      assert (Hsh : atSrc (entries st1) sh shc') by (unfold sh, shc'; destruct isRoot; [exact Hi|exact (at_atSrc _ _ _ _ X1 (wf_shared _ _ _ _ W))]).
      assert (Ni : node (entries st1) i = Some n0) by (unfold node, st1, i; cbn [entries]; rewrite nth_error_app2 by lia; rewrite Nat.sub_diag; reflexivity).
      assert (B1 : forall x, black (s :: G) st1 x <-> black G st x).
      { intros x. unfold black. rewrite S1, in_app_iff. cbn [In]. split; [intros ([A|[A|[]]] & B); [tauto|subst; tauto]|intros (A & B)]. split; [auto|]. intros [<-|Y]; [exact (HF A)|exact (B Y)]. }
      assert (W1 : WF own shc' (s :: G) st1).
      { destruct W as [V1 V2 V3 V4 (rank & V5) V6 V7 V8 V9]. constructor; rewrite ?S1.
        - apply nodup_snoc; assumption.
        - intros x I. apply in_app_or in I. destruct I as [I|[<-|[]]]; [exact (V2 x I)|exact Us].
        - intros g [<-|I]; apply in_or_app; [right; left; reflexivity|left; exact (V3 g I)].
        - intros k e E. unfold st1 in E. cbn [entries] in E. destruct (Nat.lt_ge_cases k (length (entries st))) as [L|L].
          + rewrite nth_error_app1 in E by exact L. specialize (V4 k e E). assert (Nes : esrc e <> s) by (intros Y; apply HF; rewrite <- Y; apply in_map; exact (nth_error_In _ _ E)).
            destruct (in_dec Nat.eq_dec (esrc e) (s :: G)) as [Y|Y].
            * destruct (in_dec Nat.eq_dec (esrc e) G) as [Z|Z]; [exact V4|]. destruct Y as [Y|Y]; [congruence|contradiction].
            * destruct (in_dec Nat.eq_dec (esrc e) G) as [Z|Z]; [destruct Y; right; exact Z|]. destruct (edep e) as [m|]; [|exact V4]. destruct V4 as (P1 & P2 & P3). split; [exact P1|]. split; [exact P2|]. exact (made_ext _ _ _ _ _ _ _ X1 P3).
          + rewrite nth_error_app2 in E by exact L. destruct (k - length (entries st))%nat as [|z]; [|destruct z; discriminate]. injection E as <-. cbn [esrc edep]. destruct (in_dec Nat.eq_dec s (s :: G)) as [Y|Y]; [|destruct Y; left; reflexivity]. exists n0. auto.
        - exists rank. intros x y Bx Nx. apply B1 in Bx. destruct (V5 x y Bx Nx) as (By & L). split; [apply B1; exact By|exact L].
        - intros x Bx. apply V6, B1. exact Bx.
        - exact Hsh.
        - unfold st1. cbn [unselected]. split; [exact N8|]. intros x. rewrite (Keep8 ltac:(discriminate) x), in_app_iff. cbn [In]. intuition.
        - unfold st1. cbn [uninstalled]. split; [exact N9|]. intros p. rewrite (Keep9 ltac:(discriminate) p). split; intros (x & A & B); exists x; (split; [|exact B]); rewrite in_app_iff in *; cbn [In] in *; intuition. }
      assert (Hrec : recOk own shc' (s :: G) fuel (fun st s => instantiate env fuel st s false)).
      { intros st2 s2 U2 W2 G2 F2 O2. assert (Sh : newShared false st2 s2 shc' = shc') by (unfold newShared; destruct (findSrc (entries st2) s2); reflexivity). rewrite <- Sh at 1. apply (IH own shc'); auto. rewrite Sh. intros x Hx. rewrite (O2 x Hx). reflexivity. }
      assert (Hp : part (entries st1) name shc' [] n0).
      { constructor; try reflexivity; [constructor|constructor| |].
        - split; [cbn; constructor|]. intros k v. cbn [In n0 setTgt emptyDep defs]. tauto.
        - eexists. split; [reflexivity|]. cbn [tname container prefix privIncs privFlags anySources privDefs tkind]. split; [reflexivity|]. split; [exact Hsh|]. repeat (split; [reflexivity|]). split; [constructor|]. split; [|reflexivity]. intros k v. split; [intros []|]. intros (a & u & b & E & _). destruct a; discriminate. }
      assert (Own1 : forall x, ~ In x (srcs st1) -> own x = (shc', false)).
      { intros x Hx. rewrite S1, in_app_iff in Hx. cbn [In] in Hx. rewrite Hown by tauto. destruct (Nat.eqb_spec x s) as [->|_]; [tauto|]. rewrite andb_false_r. reflexivity. }
      pose proof (run_ok own shc' G s name cs i fuel _ Es Us Hrec Hg cs [] st1 n0 eq_refl W1 Hi Ni Hp ltac:(lia) Own1 ltac:(intros v c [])) as HR.
      destruct (run (fun st s => instantiate env fuel st s false) i cs st1) as [st2| |]; [|exact HR|exact HR]. destruct HR as (n2 & W2 & N2 & P2 & X2 & Same2 & Len2 & New2 & Bl2).
      rewrite N2. destruct (pt_tgt _ _ _ _ _ P2) as (t & T1 & T2 & T3 & T4 & T5 & T6 & T7 & T8 & T9 & T10). rewrite T1.
      set (t' := mktarget (finalType isRoot (shared st2) t) (tname t) (container t) (prefix t) (privIncs t) (privDefs t) (privFlags t) (anySources t)). set (n3 := mkdep (deps n2) true (done n2) (seen n2) (incs n2) (defs n2) (libs n2) (dlls n2) (frames n2) (flags n2) (Some t')).
      set (st3 := mkinst (setNode (entries st2) i n3) (shared st2) (unselected st2) (uninstalled st2)).
      assert (X3 : ext (entries st2) (entries st3)) by apply ext_set. assert (S3 : srcs st3 = srcs st2) by apply set_src. assert (L3 : length (entries st3) = length (entries st2)) by apply set_length.
      assert (Hi2 : at_ (entries st2) i s) by exact (X2 _ _ Hi).
      assert (Ec : callsOf env s = cs) by (unfold callsOf; rewrite Es; reflexivity).
      assert (Ins : In s (srcs st2)) by exact (at_in _ _ _ Hi2).
      assert (B3 : forall x, black G st3 x <-> x = s \/ black (s :: G) st2 x).
      { intros x. unfold black. rewrite S3. cbn [In]. split; [intros (A & B); destruct (Nat.eq_dec x s); [auto|right; split; [exact A|intros [Y|Y]; [congruence|contradiction]]]|intros [->|(A & B)]; [auto|split; [exact A|tauto]]]. }
      assert (Ow : own s = (shc', isRoot)) by (rewrite Hown by exact HF; rewrite Nat.eqb_refl, andb_true_r; reflexivity).
      assert (M3 : made env (entries st3) s shc' isRoot n3).
      { apply (made_ext env (entries st2)); [exact X3|]. unfold made. rewrite Es. unfold n3. cbn [ready done seen libs dlls frames flags deps incs defs tgt]. split; [reflexivity|]. split; [exact (pt_done _ _ _ _ _ P2)|]. split; [exact (pt_seen _ _ _ _ _ P2)|]. split; [exact (pt_libs _ _ _ _ _ P2)|]. split; [exact (pt_dlls _ _ _ _ _ P2)|].
        split; [exact (pt_frames _ _ _ _ _ P2)|]. split; [exact (pt_flags _ _ _ _ _ P2)|]. split; [exact (pt_deps _ _ _ _ _ P2)|]. split; [exact (pt_incs _ _ _ _ _ P2)|]. split; [exact (proj1 (pt_defs _ _ _ _ _ P2))|]. split; [exact (proj2 (pt_defs _ _ _ _ _ P2))|].
        exists t'. split; [reflexivity|]. unfold t'. cbn [tname container prefix privIncs privFlags anySources privDefs tkind]. repeat (split; [assumption|]). unfold finalType, typeOf. rewrite T10, T7, T4. pose proof (wf_shared _ _ _ _ W2) as Hs. unfold atSrc in Hs.
        assert (Pl : forall l : text, (0 <? zlen l) = negb (Nat.eqb (length l) 0)) by (intros l; unfold zlen; destruct l; reflexivity). rewrite Pl.
        destruct (lastType cs); destruct (hasSources cs); cbn [negb]; try reflexivity; destruct isRoot; try reflexivity; destruct (shared st2), shc'; try contradiction; cbn [andb]; try reflexivity; destruct (negb (Nat.eqb (length (lastPrefix cs)) 0)); reflexivity. }
      assert (W3 : WF own shc' G st3).
      { destruct W2 as [V1 V2 V3 V4 (rank & V5) V6 V7 V8 V9]. constructor; rewrite ?S3; try assumption.
        - intros g I. apply V3. right. exact I.
        - intros k e E. unfold st3 in E. cbn [entries] in E. rewrite set_nth in E. destruct (Nat.eqb_spec k i) as [->|Nk].
          + destruct Hi2 as (e0 & He0 & He1). rewrite He0 in E. cbn [option_map] in E. injection E as <-. cbn [esrc edep]. rewrite He1. destruct (in_dec Nat.eq_dec s G); [contradiction|]. split; [unfold present; rewrite Es; reflexivity|]. split; [reflexivity|]. rewrite Ow. exact M3.
          + specialize (V4 k e E). assert (Nes : esrc e <> s) by (intros Y; apply Nk; apply (at_uniq (entries st2) k i s V1); [exists e; auto|exact Hi2]).
            destruct (in_dec Nat.eq_dec (esrc e) G) as [Z|Z].
            * destruct (in_dec Nat.eq_dec (esrc e) (s :: G)) as [Y|Y]; [exact V4|]. destruct Y. right. exact Z.
            * destruct (in_dec Nat.eq_dec (esrc e) (s :: G)) as [Y|Y]; [destruct Y as [Y|Y]; [congruence|contradiction]|]. destruct (edep e) as [m|]; [|exact V4]. destruct V4 as (Q1 & Q2 & Q3). split; [exact Q1|]. split; [exact Q2|]. exact (made_ext _ _ _ _ _ _ _ X3 Q3).
        - destruct (max_rank rank (srcs st2)) as (mx & Hmx). exists (fun x => if Nat.eqb x s then mx else rank x). intros x y Bx Nx. apply B3 in Bx. destruct (Nat.eqb_spec x s) as [->|Nxs].
          + destruct Nx as (v & Nx). rewrite Ec in Nx. pose proof (Bl2 v y Nx) as By. split; [apply B3; auto|]. destruct By as (By1 & By2). destruct (Nat.eqb_spec y s) as [->|_]; [destruct By2; left; reflexivity|]. exact (Hmx y By1).
          + destruct Bx as [Bx|Bx]; [contradiction|]. destruct (V5 x y Bx Nx) as (By & L). split; [apply B3; auto|]. destruct By as (By1 & By2). destruct (Nat.eqb_spec y s) as [->|_]; [destruct By2; left; reflexivity|exact L].
        - intros x Bx. apply B3 in Bx. destruct Bx as [->|Bx]; [|exact (V6 x Bx)]. split; [unfold twice; rewrite Ec; intros Y; apply Y; exact (pt_once _ _ _ _ _ P2)|]. intros (k & v & v' & A & B & C). rewrite Ec in A, B. destruct (pt_defs _ _ _ _ _ P2) as (D1 & D2). apply D2 in A, B. apply (in_valueOf _ _ _ D1) in A, B. congruence.
        - exact (at_atSrc _ _ _ _ X3 V7). }
      split; [exact W3|]. split.
      { intros k Lk. unfold st3. cbn [entries]. rewrite set_nth. destruct (Nat.eqb_spec k i) as [->|Nk]; [unfold i in Lk; lia|]. rewrite Same2 by (try exact Nk; lia). unfold st1. cbn [entries]. apply nth_error_app1. exact Lk. }
      split; [lia|]. split; [apply B3; auto|]. split.
      { intros x I. rewrite S3 in I. destruct (New2 x I) as [Y|Y]; [|auto]. rewrite S1 in Y. apply in_app_or in Y. destruct Y as [Y|[<-|[]]]; [auto|right; constructor]. }
      split; [unfold present; rewrite Es; reflexivity|exact (X3 _ _ Hi2)].
    + (* installed *)
      assert (Et : isTarget env s = false) by (unfold isTarget; rewrite Es; reflexivity). destruct (NoE Et) as (E1 & E2 & E3). apply (Ext (Some _)); auto.
      * split; [unfold present; rewrite Es; reflexivity|]. split; [reflexivity|]. unfold made. rewrite Es. reflexivity.
      * split; [exact N8|]. apply Keep8. discriminate.
      * split; [exact N9|]. apply Keep9. discriminate.
    + assert (Et : isTarget env s = false) by (unfold isTarget; rewrite Es; reflexivity). destruct (NoE Et) as (E1 & E2 & E3). apply (Ext None); auto.
      * unfold present. rewrite Es. reflexivity.
      * split; [exact N8|]. apply Keep8. discriminate.
      * destruct (addNat_ok p (uninstalled st)) as (A1 & A2). split; [auto|]. intros q. rewrite A2, W9. split.
        -- intros [(x & A & B)| ->]; [exists x; auto|exists s; auto].
        -- intros (x & [A| ->] & B); [left; exists x; auto|right; congruence].
    + assert (Et : isTarget env s = false) by (unfold isTarget; rewrite Es; reflexivity). destruct (NoE Et) as (E1 & E2 & E3). apply (Ext None); auto.
      * unfold present. rewrite Es. reflexivity.
      * destruct (addNat_ok s (unselected st)) as (A1 & A2). split; [auto|]. intros x. rewrite A2, W8. split; [intros [(A & B)| ->]; auto|intros ([A| ->] & B); auto].
      * split; [exact N9|]. apply Keep9. discriminate.
Qed.

(* ---- the roots ---- *)
Lemma WF_own own own' shc G st : (forall x, In x (srcs st) -> own x = own' x) -> WF own shc G st -> WF own' shc G st.
Proof.
  intros E [V1 V2 V3 V4 V5 V6 V7 V8 V9]. constructor; try assumption. intros i e Ne. specialize (V4 i e Ne). rewrite <- E; [exact V4|]. apply in_map. exact (nth_error_In _ _ Ne).
Qed.
Lemma black_reach own shc G st x y : WF own shc G st -> black G st x -> reaches env x y -> black G st y.
Proof. intros W B R. destruct (wf_rank _ _ _ _ W) as (rank & H). induction R as [s|s c z N R IH]; [exact B|]. apply IH. exact (proj1 (H _ _ B N)). Qed.
Lemma black_fine own shc G st x : WF own shc G st -> black G st x -> ~ broken env x.
Proof.
  intros W B [(c & N & R)|[T|C]]; [|exact (proj1 (wf_ok _ _ _ _ W x B) T)|exact (proj2 (wf_ok _ _ _ _ W x B) C)]. destruct (wf_rank _ _ _ _ W) as (rank & H). destruct (H _ _ B N) as (Bc & L).
  assert (Le : (rank x <= rank c)%nat). { clear N L B. induction R as [s|s c z N R IH]; [lia|]. destruct (H _ _ Bc N) as (Bz & L). specialize (IH Bz). lia. }
  lia.
Qed.
Lemma rooted_app a s b x : rooted env (a ++ [(s, b)]) x <-> rooted env a x \/ reaches env s x.
Proof.
  unfold rooted. split.
  - intros (s' & b' & I & R). apply in_app_or in I. destruct I as [I|[I|[]]]; [left; eauto|]. injection I as -> ->. auto.
  - intros [(s' & b' & I & R)|R]; [exists s', b'; split; [apply in_or_app; left; exact I|exact R]|]. exists s, b. split; [apply in_or_app; right; left; reflexivity|exact R].
Qed.
Definition owned (a : list (nat * bool)) (x : nat) (o : option nat * bool) : Prop :=
  exists a' s b r' c, a = a' ++ (s, b) :: r' /\ reaches env s x /\ ~ rooted env a' x /\ holder env (a' ++ [(s, b)]) c /\ o = (c, b && Nat.eqb x s).
Lemma owned_app a y x o : owned a x o -> owned (a ++ [y]) x o.
Proof. intros (a' & s & b & r' & c & E & H). exists a', s, b, (r' ++ [y]), c. split; [rewrite E, <- app_assoc; reflexivity|exact H]. Qed.
Lemma roots_ok fuel : (length U < fuel)%nat -> forall r a st own shc, (forall s b, In (s, b) r -> In s U) -> WF own shc [] st -> holder env a shc -> (forall x, In x (srcs st) <-> rooted env a x) -> (forall x, In x (srcs st) -> owned a x (own x)) ->
  match instantiateRoots env fuel st r with
  | Deep => False
  | Crash => exists x, rooted env (a ++ r) x /\ broken env x
  | Ok st' => exists own' shc', WF own' shc' [] st' /\ (forall x, In x (srcs st') <-> rooted env (a ++ r) x) /\ (forall x, In x (srcs st') -> owned (a ++ r) x (own' x))
  end.
Proof.
  intros Hf. induction r as [|(s, b) r IH]; intros a st own shc Hr W Ho Hs Hown; cbn [instantiateRoots].
  { rewrite app_nil_r. exists own, shc. auto. }
  assert (Us : In s U) by (apply (Hr s b); left; reflexivity).
  set (own' := fun x => if in_dec Nat.eq_dec x (srcs st) then own x else (newShared b st s shc, b && Nat.eqb x s)).
  assert (W' : WF own' shc [] st) by (apply (WF_own own); [|exact W]; intros x I; unfold own'; destruct (in_dec Nat.eq_dec x (srcs st)); [reflexivity|contradiction]).
  pose proof (inst_ok fuel own' shc [] st s b Us W' ltac:(intros g []) ltac:(lia)) as HI.
  assert (Hn : forall x, ~ In x (srcs st) -> own' x = (newShared b st s shc, b && Nat.eqb x s)) by (intros x Hx; unfold own'; destruct (in_dec Nat.eq_dec x (srcs st)); [contradiction|reflexivity]).
  specialize (HI Hn). destruct (instantiate env fuel st s b) as [(st1, o)| |]; [| |exact HI].
  2:{ destruct HI as (x & R & B). exists x. split; [|exact B]. exists s, b. split; [apply in_or_app; right; left; reflexivity|exact R]. }
  destruct HI as (W1 & Same & Len & Bs & New & _).
  assert (Hh : holder env (a ++ [(s, b)]) (newShared b st s shc)).
  { unfold newShared. pose proof (findSrc_ok (entries st) s) as HF. destruct (findSrc (entries st) s) as [i|]; [apply holder_old; [exact Ho|]; right; right; apply Hs; exact (at_in _ _ _ HF)|].
    destruct b; [|apply holder_old; auto]. destruct (isTarget env s) eqn:Et; cbn [andb]; [|apply holder_old; auto]. apply holder_new; [exact Et|]. intros X. apply HF. apply Hs. exact X. }
  assert (X1 : ext (entries st) (entries st1)).
  { intros k x (e & A & B). exists e. split; [|exact B]. rewrite Same; [exact A|]. apply nth_error_Some. congruence. }
  assert (Hs1 : forall x, In x (srcs st1) <-> rooted env (a ++ [(s, b)]) x).
  { intros x. rewrite rooted_app. split; [intros I; destruct (New x I) as [Y|Y]; [left; apply Hs; exact Y|auto]|]. intros [Y|Y]; [apply (ext_in _ _ _ X1); apply Hs; exact Y|]. exact (proj1 (black_reach _ _ _ _ _ _ W1 Bs Y)). }
  assert (Hown1 : forall x, In x (srcs st1) -> owned (a ++ [(s, b)]) x (own' x)).
  { intros x I. destruct (in_dec Nat.eq_dec x (srcs st)) as [J|J].
    - apply owned_app. unfold own'. destruct (in_dec Nat.eq_dec x (srcs st)); [|contradiction]. exact (Hown x J).
    - destruct (New x I) as [Y|Y]; [contradiction|]. exists a, s, b, [], (newShared b st s shc). split; [reflexivity|]. split; [exact Y|]. split; [intros Z; apply J, Hs; exact Z|]. split; [exact Hh|exact (Hn x J)]. }
  replace (a ++ (s, b) :: r) with ((a ++ [(s, b)]) ++ r) by (rewrite <- app_assoc; reflexivity).
  exact (IH (a ++ [(s, b)]) st1 own' (newShared b st s shc) ltac:(intros s' b' I; apply (Hr s' b'); right; exact I) W1 Hh Hs1 Hown1).
Qed.
Lemma noInst_WF own : WF own None [] noInst.
Proof.
  constructor; cbn.
  - constructor.
  - intros x [].
  - intros g [].
  - intros [|i] e E; discriminate.
  - exists (fun _ => O). intros x y ([] & _).
  - intros x ([] & _).
  - exact I.
  - split; [constructor|]. intros x. split; [intros []|intros ([] & _)].
  - split; [constructor|]. intros p. split; [intros []|intros (x & [] & _)].
Qed.
Theorem instantiate_ok fuel rs : (length U < fuel)%nat -> (forall s b, In (s, b) rs -> In s U) ->
  match instantiateRoots env fuel noInst rs with
  | Deep => False
  | Crash => exists x, rooted env rs x /\ broken env x
  | Ok st =>
    (forall x, rooted env rs x -> ~ broken env x) /\
    NoDup (map esrc (entries st)) /\ (forall x, In x (map esrc (entries st)) <-> rooted env rs x) /\
    (forall e, In e (entries st) -> entryOk env rs (entries st) e) /\
    (NoDup (unselected st) /\ forall x, In x (unselected st) <-> rooted env rs x /\ env x = SExtern None) /\
    (NoDup (uninstalled st) /\ forall p, In p (uninstalled st) <-> exists x, rooted env rs x /\ env x = SExtern (Some (p, None)))
  end.
Proof.
  intros Hf Hr. pose proof (roots_ok fuel Hf rs [] noInst (fun _ => (None, false)) None Hr (noInst_WF _) (holder_none _)) as H.
  assert (E0 : forall x, In x (srcs noInst) <-> rooted env [] x) by (intros x; split; [intros []|intros (s & b & [] & _)]). specialize (H E0 ltac:(intros x [])). cbn [app] in H.
  destruct (instantiateRoots env fuel noInst rs) as [st| |]; [|exact H|exact H]. destruct H as (own & shc & W & Hs & Ho).
  split; [intros x R; apply (black_fine own shc [] st x W); split; [apply Hs; exact R|intros []]|]. split; [exact (wf_nodup _ _ _ _ W)|]. split; [exact Hs|]. split.
  - intros e I. apply In_nth_error in I. destruct I as (i & E). pose proof (wf_entry _ _ _ _ W i e E) as We. destruct (in_dec Nat.eq_dec (esrc e) []) as [[]|_]. unfold entryOk. destruct (edep e) as [n|]; [|exact We]. destruct We as (_ & _ & M).
    assert (Ie : In (esrc e) (srcs st)) by (apply in_map; exact (nth_error_In _ _ E)). destruct (Ho _ Ie) as (a & s & b & r & c & H1 & H2 & H3 & H4 & H5). exists a, s, b, r, c. rewrite H5 in M. cbn [fst snd] in M. auto.
  - split; [destruct (wf_unsel _ _ _ _ W) as (A & B); split; [exact A|]; intros x; rewrite B, Hs; reflexivity|]. destruct (wf_uninst _ _ _ _ W) as (A & B). split; [exact A|]. intros p. rewrite B. split; intros (x & X & Y); exists x; (split; [apply Hs; exact X|exact Y]).
Qed.
(** What comes out can be handed on. *)
Theorem instantiate_graph fuel rs st : (length U < fuel)%nat -> (forall s b, In (s, b) rs -> In s U) -> (forall s p m, env s = SExtern (Some (p, Some m)) -> NoDup (map fst (defs m))) ->
  instantiateRoots env fuel noInst rs = Ok st -> closed (entries st) /\ fresh (entries st) /\ keyed (entries st) /\ acyclic (entries st) /\ (length (entries st) <= length U)%nat.
Proof.
  intros Hf Hr Hx E. pose proof (roots_ok fuel Hf rs [] noInst (fun _ => (None, false)) None Hr (noInst_WF _) (holder_none _)) as H.
  assert (E0 : forall x, In x (srcs noInst) <-> rooted env [] x) by (intros x; split; [intros []|intros (s & b & [] & _)]). specialize (H E0 ltac:(intros x [])). rewrite E in H. destruct H as (own & shc & W & _ & _).
  assert (Nd : forall d n, node (entries st) d = Some n -> exists s, at_ (entries st) d s /\ made env (entries st) s (fst (own s)) (snd (own s)) n).
  { intros d n N. unfold node in N. destruct (nth_error (entries st) d) as [e|] eqn:Ne; [|discriminate]. pose proof (wf_entry _ _ _ _ W d e Ne) as We. destruct (in_dec Nat.eq_dec (esrc e) []) as [[]|_]. rewrite N in We. exists (esrc e). split; [exists e; auto|exact (proj2 (proj2 We))]. }
  assert (Ed : forall d c, edge (entries st) d c -> exists s x, at_ (entries st) d s /\ at_ (entries st) c x /\ needs env s x /\ present env x = true).
  { intros d c (v & I). unfold depsOf in I. destruct (node (entries st) d) as [n|] eqn:N; [|contradiction]. destruct (Nd d n N) as (s & A & M). unfold made in M. destruct (env s) as [name cs|[(p, [m|])|]] eqn:Es; try contradiction; [|subst n; contradiction].
    destruct M as (_ & _ & _ & _ & _ & _ & _ & F & _). destruct (forall2_in _ _ _ _ F I) as ((v', x) & J & _ & B). cbn [snd] in B. apply filter_In in J. exists s, x. split; [exact A|]. split; [exact B|]. split; [exists v'; unfold callsOf; rewrite Es; exact (proj1 J)|exact (proj2 J)]. }
  split; [|split; [|split; [|split]]].
  - intros d c De. destruct (Ed d c De) as (s & x & _ & (e & Ne & Ee) & _ & Px). unfold node. rewrite Ne. pose proof (wf_entry _ _ _ _ W c e Ne) as We. destruct (in_dec Nat.eq_dec (esrc e) []) as [[]|_]. destruct (edep e); [discriminate|]. congruence.
  - intros d n N. destruct (Nd d n N) as (s & _ & M). unfold made in M. destruct (env s) as [name cs|[(p, [m|])|]] eqn:Es; try contradiction; [|subst n; split; reflexivity]. tauto.
  - intros d n N. destruct (Nd d n N) as (s & _ & M). unfold made in M. destruct (env s) as [name cs|[(p, [m|])|]] eqn:Es; try contradiction; [|subst n; cbn [defs tgt]; split; [exact (Hx _ _ _ Es)|discriminate]].
    destruct M as (_ & _ & _ & _ & _ & _ & _ & _ & _ & D & _ & t & T & _ & _ & _ & _ & _ & _ & D' & _). split; [exact D|]. intros t' T'. assert (t' = t) by congruence. subst. exact D'.
  - destruct (wf_rank _ _ _ _ W) as (rank & Hrk). exists (fun d => match nth_error (entries st) d with Some e => rank (esrc e) | None => O end). intros d c De. destruct (Ed d c De) as (s & x & A & (e2 & N2 & E2) & Nx & _). pose proof (at_in _ _ _ A) as Is. destruct A as (e1 & N1 & E1). rewrite N1, N2, E1, E2. apply (Hrk s x); [|exact Nx]. split; [exact Is|intros []].
  - pose proof (nodup_bound _ (wf_nodup _ _ _ _ W) (wf_incl _ _ _ _ W)) as B. unfold srcs in B. rewrite map_length in B. exact B.
Qed.
End Env.

(* ---- adding a dependency to one ---- *)
Lemma addDependency_ok v c ds : NoDup (map snd ds) -> let (ds', new) := addDependency v c ds in
  map snd ds' = map snd ds ++ (if new then [c] else []) /\ NoDup (map snd ds') /\ (new = true <-> ~ In c (map snd ds)) /\ (forall x, In (Public, x) ds' <-> In (Public, x) ds \/ (v = Public /\ x = c)).
Proof.
  intros N. unfold addDependency. destruct (existsb (fun p => Nat.eqb (snd p) c) ds) eqn:E.
  - assert (I : In c (map snd ds)) by (apply existsb_exists in E; destruct E as (p & I & E); apply Nat.eqb_eq in E; rewrite <- E; apply in_map; exact I). cbv zeta. set (ds' := match v with Public => _ | Private => ds end).
    assert (H : map snd ds' = map snd ds /\ forall x, In (Public, x) ds' <-> In (Public, x) ds \/ (v = Public /\ x = c)).
    { unfold ds'. destruct v; [split; [reflexivity|]; intros x; split; [auto|intros [H|(H & _)]; [exact H|discriminate]]|]. clear ds' E. induction ds as [|(u, y) ds IH]; [contradiction|]. cbn [map snd] in *. destruct (Nat.eqb_spec y c) as [->|Ny].
      - split; [reflexivity|]. intros x. cbn [In]. split; [intros [H|H]; [right; split; congruence|auto]|]. intros [[H|H]|(_ & ->)]; auto. injection H as -> ->. auto.
      - inversion N as [|a b N1 N2]; subst. destruct I as [I|I]; [congruence|]. destruct (IH N2 I) as (A & B). split; [cbn [map snd]; rewrite A; reflexivity|]. intros x. cbn [In]. rewrite B. tauto. }
    destruct H as (A & B). rewrite A, app_nil_r. split; [reflexivity|]. split; [exact N|]. split; [split; [discriminate|contradiction]|exact B].
  - assert (I : ~ In c (map snd ds)). { intros I. apply in_map_iff in I. destruct I as (p & Ep & I). assert (existsb (fun p => Nat.eqb (snd p) c) ds = true) by (apply existsb_exists; exists p; split; [exact I|apply Nat.eqb_eq; exact Ep]). congruence. }
    rewrite map_app. cbn [map snd]. split; [reflexivity|]. split; [apply nodup_snoc; assumption|]. split; [tauto|]. intros x. rewrite in_app_iff. cbn [In]. split; [intros [H|[H|[]]]; [auto|injection H as -> ->; auto]|intros [H|(-> & ->)]; auto].
Qed.
