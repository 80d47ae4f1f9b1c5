(* Proofs about the names of externs and providers, the written names, and signatures. *)
From Verif Require Import Base ScanModel ScanSpec StringViewModel NumTextModel NumTextSpec NumTextProofs
  NamesModel NamesSpec NamesProofs.

Lemma first_at_in {A} (P : A -> Prop) l i : first_at P l i -> exists x, In x l /\ P x.
Proof. intros ((x & Hx & Px) & _). exists x. split; [eapply nth_error_In; exact Hx|exact Px]. Qed.
Lemma findExternImm_some r n e : findExternImm r n = Some e <-> fst e = rname r /\ first_at (fun d => d = n) (rexterns r) (snd e).
Proof.
  unfold findExternImm. destruct e as [a i]. cbn [fst snd].
  pose proof (find_at_0 (fun d => name_eqb d n) (fun d => d = n) (rexterns r) i (fun d => name_eqb_eq d n)) as H.
  destruct (find_at _ (rexterns r) 0) as [j|] eqn:E; rewrite <- H.
  - split; [intros Q; injection Q as <- <-; auto|intros [-> Q]; injection Q as ->; reflexivity].
  - split; [discriminate|intros [_ Q]; discriminate].
Qed.
Lemma findExternImm_no r n : findExternImm r n <> None <-> In n (rexterns r).
Proof.
  destruct (findExternImm r n) as [e|] eqn:E.
  - apply findExternImm_some in E. destruct E as [_ E]. apply first_at_in in E. destruct E as (x & Hx & ->). split; [auto|congruence].
  - split; [congruence|]. intros H. unfold findExternImm in E. destruct (find_at _ _ _) eqn:Ef; [discriminate|].
    pose proof (proj1 (find_at_none _ _ _) Ef n H) as F. cbn beta in F. rewrite name_eqb_refl in F. discriminate.
Qed.
Lemma findProviderImm_some e p r q : findProviderImm e p r = Some q <-> fst q = rname r /\ first_at (fun x => x = (e, p)) (rproviders r) (snd q).
Proof.
  unfold findProviderImm. destruct q as [a i]. cbn [fst snd].
  pose proof (find_at_0 (fun q => ext_eqb (fst q) e && name_eqb (snd q) p) (fun x => x = (e, p)) (rproviders r) i) as H.
  assert (Hf : forall x, ext_eqb (fst x) e && name_eqb (snd x) p = true <-> x = (e, p)).
  { intros [x y]. cbn [fst snd]. rewrite andb_true_iff, ext_eqb_eq, name_eqb_eq. split; [intros [-> ->]; reflexivity|].
    intros Q. injection Q as -> ->. auto. }
  specialize (H Hf). destruct (find_at _ (rproviders r) 0) as [j|] eqn:E; rewrite <- H.
  - split; [intros Q; injection Q as <- <-; auto|intros [-> Q]; injection Q as ->; reflexivity].
  - split; [discriminate|intros [_ Q]; discriminate].
Qed.
Lemma findProviderImm_no e p r : findProviderImm e p r <> None <-> In (e, p) (rproviders r).
Proof.
  destruct (findProviderImm e p r) as [q|] eqn:E.
  - apply findProviderImm_some in E. destruct E as [_ E]. apply first_at_in in E. destruct E as (x & Hx & ->). split; [auto|congruence].
  - split; [congruence|]. intros H. unfold findProviderImm in E. destruct (find_at _ _ _) eqn:Ef; [discriminate|].
    pose proof (proj1 (find_at_none _ _ _) Ef (e, p) H) as F. cbn beta in F. cbn [fst snd] in F.
    rewrite name_eqb_refl, (proj2 (ext_eqb_eq e e) eq_refl) in F. discriminate.
Qed.

(** What the extern lookup does with a list of components. *)
Lemma extern_fwd reg comps e rest : unique_repos reg ->
  findExternInternal reg comps = (Ret (Some e) false, rest) ->
  exists pre, comps = pre ++ rest /\ extern_named reg pre e.
Proof.
  intros Hu. unfold findExternInternal. destruct comps as [|c0 comps1]; [discriminate|].
  destruct (find_repo reg c0) as [r|] eqn:E.
  - apply find_repo_some in E. destruct E as [Hr Er]. destruct comps1 as [|c1 comps2]; [discriminate|].
    destruct (findExternImm r c1) as [e'|] eqn:Ee.
    + intros Q. injection Q as <- <-. apply findExternImm_some in Ee. destruct Ee as [F1 F2].
      exists [c0; c1]. split; [reflexivity|]. exists r, c1. subst c0. auto.
    + destruct (1 <? length c1)%nat; discriminate.
  - apply find_repo_none in E. destruct (scan_repos (fun r => findExternImm r c0) reg None false) as [[e'|] [|]] eqn:Es; try discriminate.
    intros Q. injection Q as <- <-. apply (scan_one _ _ _ _ Hu (fun r => findExternImm_no r c0)) in Es.
    destruct Es as (r & Ho & El). apply findExternImm_some in El. destruct El as [F1 F2].
    exists [c0]. split; [reflexivity|]. exists r, c0. pose proof Ho as (Hr & _). auto 10.
Qed.
Lemma extern_bwd reg pre rest e : unique_repos reg -> extern_named reg pre e ->
  findExternInternal reg (pre ++ rest) = (Ret (Some e) false, rest).
Proof.
  intros Hu (r & n & Hr & Ef & Hf & [->|(-> & Hn & Ho)]); cbn [app findExternInternal].
  - rewrite (find_repo_in reg r Hu Hr). rewrite (proj2 (findExternImm_some r n e) (conj Ef Hf)). reflexivity.
  - rewrite (proj2 (find_repo_none reg n) Hn).
    rewrite (proj2 (scan_one _ _ reg e Hu (fun r => findExternImm_no r n))); [reflexivity|].
    exists r. split; [exact Ho|]. now apply findExternImm_some.
Qed.
Lemma extern_logged reg comps x l rest : findExternInternal reg comps = (Ret x l, rest) ->
  l = match x with Some _ => false | None => true end.
Proof.
  unfold findExternInternal. destruct comps as [|c0 comps1]; [discriminate|].
  destruct (find_repo reg c0) as [r|].
  - destruct comps1 as [|c1 comps2]; [intros Q; injection Q as <- <- _; reflexivity|].
    destruct (findExternImm r c1); [intros Q; injection Q as <- <- _; reflexivity|].
    destruct (1 <? length c1)%nat; [intros Q; injection Q as <- <- _; reflexivity|discriminate].
  - destruct (scan_repos _ reg None false) as [[e'|] [|]]; intros Q; injection Q as <- <- _; reflexivity.
Qed.

(** The one way the extern lookup fails an assertion. *)
Definition short_missing (reg : registry) (comps : list name) : Prop :=
  exists r c extra, In r reg /\ comps = rname r :: [c] :: extra /\ ~ In [c] (rexterns r).
Lemma extern_crash reg comps rest : unique_repos reg -> comps <> [] -> Forall (fun c => c <> []) comps ->
  (fst (findExternInternal reg comps) = Crash <-> short_missing reg comps) /\
  (findExternInternal reg comps = (Crash, rest) -> short_missing reg comps).
Proof.
  intros Hu Hn Hne.
  assert (K : fst (findExternInternal reg comps) = Crash <-> short_missing reg comps).
  { unfold findExternInternal. destruct comps as [|c0 comps1]; [congruence|]. clear Hn. split.
    - destruct (find_repo reg c0) as [r|] eqn:E.
      + apply find_repo_some in E. destruct E as [Hr Er]. destruct comps1 as [|c1 comps2]; [discriminate|].
        destruct (findExternImm r c1) as [e'|] eqn:Ee; [discriminate|].
        destruct (1 <? length c1)%nat eqn:El; [discriminate|]. intros _. apply Nat.ltb_ge in El.
        inversion Hne as [|? ? ? Hne']; subst. inversion Hne'; subst.
        destruct c1 as [|c [|? ?]]; [congruence| |cbn in El; lia].
        exists r, c, comps2. split; [exact Hr|]. split; [reflexivity|]. intros Hin. apply findExternImm_no in Hin. congruence.
      + destruct (scan_repos _ reg None false) as [[e'|] [|]]; discriminate.
    - intros (r & c & extra & Hr & Ec & Hno). injection Ec as -> ->. rewrite (find_repo_in reg r Hu Hr).
      destruct (findExternImm r [c]) eqn:Ee; [|reflexivity]. exfalso. apply Hno. apply findExternImm_no. congruence. }
  split; [exact K|]. intros E. apply K. now rewrite E.
Qed.

Lemma ident_ne w : ident 2 w -> w <> [].
Proof. destruct w; [intros []|discriminate]. Qed.
Lemma spells_ne s comps : spells s comps -> Forall (fun c => c <> []) comps.
Proof. intros (_ & H & _). eapply Forall_impl; [|exact H]. apply ident_ne. Qed.
Lemma spells_inj s a b : spells s a -> spells s b -> a = b.
Proof. intros H1 H2. apply split_of_spells in H1, H2. congruence. Qed.
Lemma app_split_nil {A} (a b : list A) : a ++ b <> [] -> a ++ b = match a ++ b with [] => [] | c :: l => c :: l end.
Proof. destruct (a ++ b); congruence. Qed.

Lemma findExtern_split reg s comps : spells s comps ->
  findExtern reg s = match findExternInternal reg comps with
      | (Ret (Some e) l, rest) => Ret (Some e) (l || match rest with [] => false | _ => true end)
      | (o, _) => o
      end.
Proof.
  intros Hs. pose proof Hs as (Hn & _). apply split_of_spells in Hs. unfold findExtern. rewrite Hs.
  destruct comps; [congruence|reflexivity].
Qed.
Theorem findExtern_spec reg s : unique_repos reg -> bytes_ok s ->
  (forall e logged, findExtern reg s = Ret (Some e) logged <->
     exists comps extra, spells s (comps ++ extra) /\ extern_named reg comps e /\ (logged = true <-> extra <> [])) /\
  (findExtern reg s = Crash <-> exists comps, spells s comps /\ short_missing reg comps) /\
  findExtern reg s <> Ret None false.
Proof.
  intros Hu Hb. split; [|split].
  - intros e logged. split.
    + intros E. destruct (splitName s) as [|c0 more] eqn:Es. { unfold findExtern in E. rewrite Es in E. discriminate. }
      apply split_spec in Es; [|exact Hb|discriminate]. rewrite (findExtern_split reg s _ Es) in E.
      destruct (findExternInternal reg (c0 :: more)) as [[[e'|] l|] rest] eqn:Ei; try discriminate.
      pose proof (extern_logged _ _ _ _ _ Ei) as ->. injection E as <- El. cbn [orb] in El.
      apply (extern_fwd _ _ _ _ Hu) in Ei. destruct Ei as (pre & Ep & He). exists pre, rest. rewrite <- Ep.
      split; [exact Es|]. split; [exact He|]. subst logged. destruct rest; split; congruence.
    + intros (comps & extra & Hs & He & Hl). rewrite (findExtern_split reg s _ Hs), (extern_bwd reg comps extra e Hu He).
      cbn [orb]. f_equal. destruct extra; destruct logged; try reflexivity.
      * exfalso. now apply (proj1 Hl eq_refl).
      * exfalso. pose proof (proj2 Hl ltac:(discriminate)). discriminate.
  - split.
    + intros E. destruct (splitName s) as [|c0 more] eqn:Es. { unfold findExtern in E. rewrite Es in E. discriminate. }
      apply split_spec in Es; [|exact Hb|discriminate]. rewrite (findExtern_split reg s _ Es) in E.
      exists (c0 :: more). split; [exact Es|]. destruct (findExternInternal reg (c0 :: more)) as [[[e'|] l|] rest] eqn:Ei; try discriminate.
      apply (extern_crash reg (c0 :: more) rest Hu); [discriminate|now apply (spells_ne s)|exact Ei].
    + intros (comps & Hs & Hm). rewrite (findExtern_split reg s _ Hs). pose proof Hs as (Hn & _).
      apply (extern_crash reg comps [] Hu Hn (spells_ne _ _ Hs)) in Hm.
      destruct (findExternInternal reg comps) as [o rest]. cbn [fst] in Hm. subst o. reflexivity.
  - intros E. unfold findExtern in E. destruct (splitName s) as [|c0 more]; [discriminate|].
    destruct (findExternInternal reg (c0 :: more)) as [[[e'|] l|] rest] eqn:Ei; try discriminate.
    pose proof (extern_logged _ _ _ _ _ Ei) as ->. discriminate.
Qed.

(** Providers. *)
Lemma provider_tail reg e rest (q : name * nat) : unique_repos reg -> rest <> [] ->
  (match rest with
   | [] => Crash
   | p0 :: rest1 =>
       match find_repo reg p0 with
       | Some r =>
           match rest1 with
           | [] => Ret None true
           | p1 :: rest2 =>
               match findProviderImm e p1 r with
               | None => Ret None true
               | Some q => match rest2 with [] => Ret (Some q) false | _ => Ret None true end
               end
           end
       | None =>
           match scan_repos (findProviderImm e p0) reg None false with
           | (None, _) => Ret None true
           | (Some _, true) => Ret None true
           | (Some q, false) => match rest1 with [] => Ret (Some q) false | _ => Ret None true end
           end
       end
   end = Ret (Some q) false) <-> provider_named reg e rest q.
Proof.
  intros Hu Hn. destruct rest as [|p0 rest1]; [congruence|]. clear Hn.
  destruct (find_repo reg p0) as [r|] eqn:E.
  - apply find_repo_some in E. destruct E as [Hr Er]. split.
    + destruct rest1 as [|p1 rest2]; [discriminate|].
      destruct (findProviderImm e p1 r) as [q'|] eqn:Eq; [|discriminate]. destruct rest2; [|discriminate].
      intros Q. injection Q as <-. apply findProviderImm_some in Eq. destruct Eq as [F1 F2].
      exists r, p1. subst p0. auto.
    + intros (r' & p & Hr' & Ef & Hf & [Ec|(Ec & Hno & _)]).
      * injection Ec as -> ->. assert (r = r') as -> by (apply (unique_eq reg); auto).
        rewrite (proj2 (findProviderImm_some e p r' q) (conj Ef Hf)). reflexivity.
      * injection Ec as -> ->. exfalso. apply Hno. exists r. auto.
  - apply find_repo_none in E. split.
    + destruct (scan_repos (findProviderImm e p0) reg None false) as [[q'|] [|]] eqn:Es; try discriminate.
      destruct rest1; [|discriminate]. intros Q. injection Q as <-.
      apply (scan_one _ _ _ _ Hu (findProviderImm_no e p0)) in Es. destruct Es as (r & Ho & El).
      apply findProviderImm_some in El. destruct El as [F1 F2]. exists r, p0. pose proof Ho as (Hr & _). auto 10.
    + intros (r & p & Hr & Ef & Hf & [Ec|(Ec & Hno & Ho)]).
      * injection Ec as -> _. exfalso. apply E. exists r. auto.
      * injection Ec as -> ->. rewrite (proj2 (scan_one _ _ reg q Hu (findProviderImm_no e p))); [reflexivity|].
        exists r. split; [exact Ho|]. now apply findProviderImm_some.
Qed.

Theorem getExternProvider_spec reg s : unique_repos reg -> bytes_ok s ->
  (forall q, getExternProvider reg s = Ret (Some q) false <->
     exists ec pc e, spells s (ec ++ pc) /\ extern_named reg ec e /\ provider_named reg e pc q) /\
  (getExternProvider reg s = Crash <->
     (exists comps, spells s comps /\ (short_missing reg comps \/ exists e, extern_named reg comps e))) /\
  (forall q, getExternProvider reg s <> Ret (Some q) true) /\ getExternProvider reg s <> Ret None false.
Proof.
  intros Hu Hb.
  assert (U : forall comps, spells s comps -> getExternProvider reg s =
     match findExternInternal reg comps with
      | (Crash, _) => Crash
      | (Ret None l, _) => Ret None l
      | (Ret (Some e) _, rest) =>
          match rest with
          | [] => Crash
          | p0 :: rest1 =>
              match find_repo reg p0 with
              | Some r =>
                  match rest1 with
                  | [] => Ret None true
                  | p1 :: rest2 =>
                      match findProviderImm e p1 r with
                      | None => Ret None true
                      | Some q => match rest2 with [] => Ret (Some q) false | _ => Ret None true end
                      end
                  end
              | None =>
                  match scan_repos (findProviderImm e p0) reg None false with
                  | (None, _) => Ret None true
                  | (Some _, true) => Ret None true
                  | (Some q, false) => match rest1 with [] => Ret (Some q) false | _ => Ret None true end
                  end
              end
          end
      end).
  { intros comps Hs. pose proof Hs as (Hn & _). apply split_of_spells in Hs. unfold getExternProvider. rewrite Hs.
    destruct comps; [congruence|reflexivity]. }
  assert (V : splitName s = [] -> getExternProvider reg s = Ret None true).
  { intros E. unfold getExternProvider. now rewrite E. }
  split; [|split; [|split]].
  - intros q. split.
    + intros E. destruct (splitName s) as [|c0 more] eqn:Es. { rewrite (V eq_refl) in E. discriminate. }
      apply split_spec in Es; [|exact Hb|discriminate]. rewrite (U _ Es) in E.
      destruct (findExternInternal reg (c0 :: more)) as [[[e|] l|] rest] eqn:Ei; try discriminate.
      pose proof (extern_logged _ _ _ _ _ Ei) as ->. apply (extern_fwd _ _ _ _ Hu) in Ei. destruct Ei as (pre & Ep & He).
      destruct rest as [|p0 rest1]; [discriminate|].
      apply (provider_tail reg e (p0 :: rest1) q Hu ltac:(discriminate)) in E.
      exists pre, (p0 :: rest1), e. rewrite <- Ep. auto.
    + intros (ec & pc & e & Hs & He & Hp). rewrite (U _ Hs), (extern_bwd reg ec pc e Hu He).
      apply (provider_tail reg e pc q Hu); [|exact Hp]. destruct Hp as (r & p & _ & _ & _ & [->|(-> & _)]); discriminate.
  - split.
    + intros E. destruct (splitName s) as [|c0 more] eqn:Es. { rewrite (V eq_refl) in E. discriminate. }
      apply split_spec in Es; [|exact Hb|discriminate]. rewrite (U _ Es) in E. exists (c0 :: more). split; [exact Es|].
      destruct (findExternInternal reg (c0 :: more)) as [[[e|] l|] rest] eqn:Ei; try discriminate.
      * right. pose proof (extern_logged _ _ _ _ _ Ei) as ->. apply (extern_fwd _ _ _ _ Hu) in Ei. destruct Ei as (pre & Ep & He).
        destruct rest as [|p0 rest1].
        -- rewrite app_nil_r in Ep. rewrite Ep. exists e. exact He.
        -- exfalso. destruct (find_repo reg p0) as [r|].
           ++ destruct rest1 as [|p1 rest2]; [discriminate|]. destruct (findProviderImm e p1 r); [|discriminate]. destruct rest2; discriminate.
           ++ destruct (scan_repos (findProviderImm e p0) reg None false) as [[q|] [|]]; try discriminate. destruct rest1; discriminate.
      * left. apply (extern_crash reg (c0 :: more) rest Hu); [discriminate|now apply (spells_ne s)|exact Ei].
    + intros (comps & Hs & [Hm|(e & He)]).
      * rewrite (U _ Hs). pose proof Hs as (Hn & _). apply (extern_crash reg comps [] Hu Hn (spells_ne _ _ Hs)) in Hm.
        destruct (findExternInternal reg comps) as [o rest]. cbn [fst] in Hm. subst o. reflexivity.
      * rewrite (U _ Hs). rewrite <- (app_nil_r comps), (extern_bwd reg comps [] e Hu He). reflexivity.
  - intros q E. destruct (splitName s) as [|c0 more] eqn:Es. { rewrite (V eq_refl) in E. discriminate. }
    apply split_spec in Es; [|exact Hb|discriminate]. rewrite (U _ Es) in E.
    destruct (findExternInternal reg (c0 :: more)) as [[[e|] l|] [|p0 rest1]] eqn:Ei; try discriminate.
    destruct (find_repo reg p0) as [r|].
    + destruct rest1 as [|p1 rest2]; [discriminate|]. destruct (findProviderImm e p1 r); [|discriminate]. destruct rest2; discriminate.
    + destruct (scan_repos (findProviderImm e p0) reg None false) as [[q'|] [|]]; try discriminate. destruct rest1; discriminate.
  - intros E. destruct (splitName s) as [|c0 more] eqn:Es. { rewrite (V eq_refl) in E. discriminate. }
    apply split_spec in Es; [|exact Hb|discriminate]. rewrite (U _ Es) in E.
    destruct (findExternInternal reg (c0 :: more)) as [[[e|] l|] rest] eqn:Ei; try discriminate.
    + destruct rest as [|p0 rest1]; [discriminate|]. destruct (find_repo reg p0) as [r|].
      * destruct rest1 as [|p1 rest2]; [discriminate|]. destruct (findProviderImm e p1 r); [|discriminate]. destruct rest2; discriminate.
      * destruct (scan_repos (findProviderImm e p0) reg None false) as [[q'|] [|]]; try discriminate. destruct rest1; discriminate.
    + pose proof (extern_logged _ _ _ _ _ Ei) as ->. discriminate.
Qed.
