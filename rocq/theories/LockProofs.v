(* Proofs about the lazily initialised mutex and the spin lock (C48). *)
From Coq Require Import Lia Arith.
From Verif Require Import ListUpd LockSpec WeakMemProofs.
Open Scope nat_scope.

(* ---- Mutex_LazyInit ---- *)
Definition stored (m : mem) : Prop := length (m flag) = 2.
Definition knows (v : view) : Prop := 1 <= v flag /\ 1 <= v body.
Definition flag_ok (m : mem) : Prop :=
  (exists x, m flag = [x] /\ val x = 0%Z) \/ (exists x y, m flag = [x; y] /\ val x = 0%Z /\ val y = 1%Z /\ 1 <= mview y body).
Definition body_ok (m : mem) (b : bool) : Prop :=
  if b then exists x y, m body = [x; y] /\ val y = 1%Z else exists x, m body = [x] /\ val x = 0%Z.

Definition tok (m : mem) (b : bool) (sp h : option nat) (t : nat) (th : lthread) : Prop :=
  tle (lview th) m /\
  let v := vcur (lview th) in
  match lat th with
  | Idle | Spin => True
  | Check => sp = Some t /\ (stored m -> knows v) /\ (b = true -> stored m)
  | Construct => sp = Some t /\ ~ stored m /\ b = false
  | Publish => sp = Some t /\ ~ stored m /\ b = true /\ 1 <= v body
  | Unspin => sp = Some t /\ stored m /\ knows v
  | Enter => stored m /\ knows v
  | Inside => h = Some t /\ stored m /\ knows v /\ v data = latest m data
  end.
Definition spinning (p : lpc) : Prop := match p with Check | Construct | Publish | Unspin => True | _ => False end.

Record linv (s : lstate) (b : bool) (h : option nat) (n : Z) (sp : option nat) : Prop := mklinv {
  L_wf : wfm (lmem s);
  L_mle : mle (lmem s);
  L_flag : flag_ok (lmem s);
  L_body : body_ok (lmem s) b;
  L_holder : holder s = h;
  L_mv : vle (mutex_view s) (lmem s);
  L_th : forall t th, nth_error (lths s) t = Some th -> tok (lmem s) b sp h t th;
  L_built : stored (lmem s) -> b = true;
  L_sp : match sp with
         | None => exists x, last_msg (lmem s) spin = Some x /\ val x = 0%Z /\ (stored (lmem s) -> knows (mview x)) /\ (b = true -> stored (lmem s))
         | Some t => (exists x, last_msg (lmem s) spin = Some x /\ val x = 1%Z) /\ exists th, nth_error (lths s) t = Some th /\ spinning (lat th)
         end;
  L_h : match h with
        | None => mutex_view s data = latest (lmem s) data
        | Some t => b = true /\ exists th, nth_error (lths s) t = Some th /\ lat th = Inside
        end;
  L_n : exists x, last_msg (lmem s) data = Some x /\ val x = n }.

Lemma linv_init n : linv (linit n) false None 0 None.
Proof.
  split; cbn [linit lmem lths holder mutex_view].
  - exact wfm0.
  - exact mle0.
  - left. exists (mkmsg 0 vzero). split; reflexivity.
  - exists (mkmsg 0 vzero). split; reflexivity.
  - reflexivity.
  - apply vle_zero.
  - intros t th E. apply nth_error_In, repeat_spec in E. subst th. split; [apply tle0|exact I].
  - intros H. discriminate H.
  - exists (mkmsg 0 vzero). split; [reflexivity|]. split; [reflexivity|]. split; [intros H; discriminate H|discriminate].
  - reflexivity.
  - exists (mkmsg 0 vzero). split; reflexivity.
Qed.

Lemma stored_dec m : flag_ok m -> stored m \/ length (m flag) = 1.
Proof. intros [(x & -> & _)|(x & y & E & _)]; [right; reflexivity|left; unfold stored; rewrite E; reflexivity]. Qed.
Lemma not_stored m : flag_ok m -> ~ stored m -> exists x, m flag = [x] /\ val x = 0%Z.
Proof. intros [H|(x & y & E & _)] N; [exact H|]. destruct N. unfold stored. rewrite E. reflexivity. Qed.
Lemma flag_read m ts x : flag_ok m -> nth_error (m flag) ts = Some x -> 1 <= ts -> stored m /\ ts = 1 /\ val x = 1%Z /\ 1 <= mview x body.
Proof.
  intros [(y & E & _)|(y & z & E & V1 & V2 & B)] Hn Ht; rewrite E in Hn.
  - destruct ts as [|[|ts]]; [lia|discriminate|discriminate].
  - destruct ts as [|[|[|ts]]]; [lia| |discriminate|discriminate]. injection Hn as <-. split; [unfold stored; rewrite E; reflexivity|auto].
Qed.
Lemma flag_zero m ts x : flag_ok m -> nth_error (m flag) ts = Some x -> ts = 0 -> val x = 0%Z.
Proof. intros [(y & E & V)|(y & z & E & V1 & _)] Hn ->; rewrite E in Hn; injection Hn as <-; assumption. Qed.
Lemma latest_flag m : flag_ok m -> latest m flag = if Nat.eqb (length (m flag)) 2 then 1 else 0.
Proof. intros [(y & E & V)|(y & z & E & V1 & _)]; unfold latest; rewrite E; reflexivity. Qed.

(** Other threads are not disturbed. *)
Lemma tok_other m m' b b' sp sp' h h' t th : tok m b sp h t th -> (forall l, latest m l <= latest m' l) ->
  (spinning (lat th) -> sp' = sp /\ b' = b /\ length (m' flag) = length (m flag)) ->
  (stored m -> stored m') ->
  (lat th = Inside -> h' = h /\ latest m' data = latest m data) -> tok m' b' sp' h' t th.
Proof.
  intros (T & R) L HS HT HI. split.
  - destruct T as (A & B & C). split; [|split]; intros l; specialize (A l); specialize (B l); specialize (C l); specialize (L l); lia.
  - destruct (lat th); cbn in *; auto.
    + destruct (HS I) as (-> & -> & E). unfold stored in *. rewrite E. exact R.
    + destruct (HS I) as (-> & -> & E). unfold stored in *. rewrite E. exact R.
    + destruct (HS I) as (-> & -> & E). unfold stored in *. rewrite E. exact R.
    + destruct (HS I) as (-> & -> & E). unfold stored in *. rewrite E. exact R.
    + destruct R. auto.
    + destruct (HI eq_refl) as (-> & ->). destruct R as (R1 & R2 & R3 & R4). auto.
Qed.

Lemma knows_le v w : knows v -> (forall l, v l <= w l) -> knows w.
Proof. intros (A & B) H. pose proof (H flag). pose proof (H body). split; lia. Qed.

Definition next_events (b : bool) (h : option nat) (n : Z) (e : list event) (b' : bool) (h' : option nat) (n' : Z) : Prop :=
  forall es, lazy_events b' h' n' es -> lazy_events b h n (e ++ es).

(** A step in which only the thread itself moves (memory unchanged). *)
Lemma linv_local s b h n sp t v p v' p' : linv s b h n sp -> nth_error (lths s) t = Some (mklt v p) ->
  tok (lmem s) b sp h t (mklt v' p') -> (spinning p -> spinning p') -> (p = Inside -> p' = Inside) ->
  linv (goto s t (lmem s) v' p') b h n sp.
Proof.
  intros H E T HS HI. pose proof (nth_lt _ _ _ E) as Lt. destruct H. split; cbn [goto lmem lths holder mutex_view]; auto.
  - intros t' th. rewrite nth_upd. destruct (Nat.eqb_spec t t') as [<-|N]; [|apply L_th0].
    rewrite (proj2 (Nat.ltb_lt _ _) Lt). intros Q. injection Q as <-. exact T.
  - destruct sp as [u|]; [|exact L_sp0]. destruct L_sp0 as (A & th & B & C). split; [exact A|]. rewrite nth_upd.
    destruct (Nat.eqb_spec t u) as [<-|N]; [|eauto]. rewrite (proj2 (Nat.ltb_lt _ _) Lt). exists (mklt v' p'). split; [reflexivity|].
    cbn [lat]. apply HS. rewrite E in B. injection B as <-. exact C.
  - destruct h as [u|]; [|exact L_h0]. destruct L_h0 as (A & th & B & C). split; [exact A|]. rewrite nth_upd.
    destruct (Nat.eqb_spec t u) as [<-|N]; [|eauto]. rewrite (proj2 (Nat.ltb_lt _ _) Lt). exists (mklt v' p'). split; [reflexivity|].
    cbn [lat]. apply HI. rewrite E in B. injection B as <-. exact C.
Qed.

Lemma flag_ok_other m l x : l <> flag -> flag_ok m -> flag_ok (madd m l x).
Proof. intros N. unfold flag_ok. rewrite madd_other by congruence. auto. Qed.
Lemma body_ok_other m l x b : l <> body -> body_ok m b -> body_ok (madd m l x) b.
Proof. intros N. unfold body_ok. rewrite madd_other by congruence. auto. Qed.
Lemma stored_other m l x : l <> flag -> stored (madd m l x) <-> stored m.
Proof. intros N. unfold stored. rewrite madd_other by congruence. tauto. Qed.

Lemma lstep_ok s b h n sp t mv : linv s b h n sp ->
  match lstep s t mv with
  | Bad => False
  | Stuck => True
  | Moved s' e => exists b' h' n' sp', next_events b h n e b' h' n' /\ linv s' b' h' n' sp'
  end.
Proof.
  intros H. unfold lstep. destruct (nth_error (lths s) t) as [[v p]|] eqn:E; [|exact I].
  pose proof (nth_lt _ _ _ E) as Lt. pose proof (L_th _ _ _ _ _ H t _ E) as (T & R). cbn [lview lat] in T, R.
  pose proof (L_wf _ _ _ _ _ H) as W. pose proof (L_mle _ _ _ _ _ H) as M. pose proof (L_flag _ _ _ _ _ H) as F.
  assert (NE : next_events b h n [] b h n) by (intros es X; exact X).
  destruct p, mv; try exact I; cbn in R.
  - (* Idle *)
    destruct (load Acquire (lmem s) v flag ts) as [[x v']|] eqn:EL; [|exact I].
    destruct (load_inv _ _ _ _ _ _ _ EL T M) as (y & En & -> & -> & Hv & T' & G).
    exists b, h, n, sp. split; [exact NE|]. apply (linv_local s b h n sp t v Idle); auto; [|intros []|discriminate].
    split; [exact T'|]. cbn [lview lat]. destruct (Z.eqb_spec (val y) 0) as [Z0|Z0]; [exact I|].
    destruct (Nat.eq_dec ts 0) as [->|Nts]; [destruct Z0; apply (flag_zero _ 0 y F En eq_refl)|].
    destruct (flag_read _ ts y F En ltac:(lia)) as (St & -> & _ & B). split; [exact St|]. split.
    + apply seen_at.
    + eapply Nat.le_trans; [exact B|apply seen_msg].
  - (* Spin, Go *)
    destruct (rmw Acquire (lmem s) v spin (fun _ => 1%Z)) as [[[x m'] v']|] eqn:ER; [|exact I].
    destruct (Z.eqb_spec x 0) as [Zx|]; [|exact I].
    destruct (rmw_inv _ _ _ _ _ _ _ _ ER W T M) as (y & Ey & -> & -> & W' & M' & T' & G & GA & _). specialize (GA eq_refl).
    pose proof (L_sp _ _ _ _ _ H) as S. destruct sp as [u|]; [destruct S as ((y' & Ey' & V') & _); rewrite Ey in Ey'; injection Ey' as <-; congruence|].
    destruct S as (y' & Ey' & V' & K & BS). rewrite Ey in Ey'. injection Ey' as <-.
    set (x := mkmsg _ _) in *. exists b, h, n, (Some t). split; [exact NE|]. destruct H. split; cbn [goto lmem lths holder mutex_view]; auto.
    + apply vle_madd. assumption.
    + intros t' th. rewrite nth_upd. destruct (Nat.eqb_spec t t') as [<-|N].
      * rewrite (proj2 (Nat.ltb_lt _ _) Lt). intros Q. injection Q as <-. split; [exact T'|]. cbn. split; [reflexivity|].
        split; [|intros Hb; apply stored_other; [discriminate|exact (BS Hb)]]. intros St. apply (knows_le (mview y)); [|exact GA]. apply K. apply stored_other in St; [exact St|discriminate].
      * intros Et. apply (tok_other (lmem s) _ b b None _ h h t' th (L_th0 _ _ Et)).
        -- intros l. apply latest_madd.
        -- intros Sp. exfalso. destruct (L_th0 _ _ Et) as (_ & Q). destruct (lat th); cbn in Sp, Q; try contradiction; destruct Q as (Q & _); discriminate.
        -- intros St. apply stored_other; [discriminate|exact St].
        -- intros _. split; [reflexivity|]. apply latest_other. discriminate.
    + split; [exists x; split; [apply last_same; exact W|reflexivity]|]. exists (mklt v' Check). split; [apply nth_upd_eq; exact Lt|exact I].
    + rewrite latest_other by discriminate. destruct h as [u|]; [|exact L_h0]. destruct L_h0 as (A & th & B & C). split; [exact A|]. exists th.
      split; [|exact C]. rewrite nth_upd_ne; [exact B|]. intros ->. rewrite E in B. injection B as <-. discriminate C.
  - (* Spin, At *)
    destruct (load Acquire (lmem s) v spin ts) as [[x v']|] eqn:EL; [|exact I].
    destruct (load_inv _ _ _ _ _ _ _ EL T M) as (y & En & -> & -> & Hv & T' & G). destruct (_ =? 0)%Z; [exact I|].
    exists b, h, n, sp. split; [exact NE|]. apply (linv_local s b h n sp t v Spin); auto. split; [exact T'|exact I].
  - (* Check *)
    destruct (load Relaxed (lmem s) v flag ts) as [[x v']|] eqn:EL; [|exact I].
    destruct (load_inv _ _ _ _ _ _ _ EL T M) as (y & En & -> & -> & Hv & T' & G).
    exists b, h, n, sp. split; [exact NE|]. destruct R as (R1 & R2 & R3).
    assert (D : (stored (lmem s) /\ val y = 1%Z) \/ (~ stored (lmem s) /\ val y = 0%Z)).
    { destruct (stored_dec _ F) as [St|Ns].
      - left. split; [exact St|]. destruct (R2 St) as (K1 & _). apply (flag_read _ ts y F En). lia.
      - right. assert (N : ~ stored (lmem s)) by (unfold stored; lia). split; [exact N|]. apply (flag_zero _ ts y F En).
        assert (ts < length (lmem s flag)) by (apply nth_error_Some; congruence). lia. }
    destruct D as [(St & ->)|(Ns & ->)]; cbn [Z.eqb].
    + apply (linv_local s b h n sp t v Check); auto; [|discriminate]. split; [exact T'|]. cbn. split; [exact R1|]. split; [exact St|].
      apply (knows_le (vcur v)); auto.
    + apply (linv_local s b h n sp t v Check); auto; [|discriminate]. split; [exact T'|]. cbn. split; [exact R1|]. split; [exact Ns|].
      destruct b; [|reflexivity]. destruct (Ns (R3 eq_refl)).
  - (* Construct *)
    destruct R as (-> & Ns & ->). pose proof (L_body _ _ _ _ _ H) as B. destruct B as (x0 & B & V0).
    assert (Lb : latest (lmem s) body = 0) by (unfold latest; rewrite B; reflexivity).
    assert (Ec : vcur v body = latest (lmem s) body) by (destruct T as (T1 & _); specialize (T1 body); lia).
    destruct (touch_some (lmem s) v body (fun _ => 1%Z) W Ec) as (x & m' & v' & ET). rewrite ET.
    destruct (touch_inv _ _ _ _ _ _ _ ET W T M) as (y & Ey & -> & _ & -> & W' & M' & T' & G & GL).
    assert (y = x0) as -> by (unfold last_msg in Ey; rewrite Lb, B in Ey; injection Ey as <-; reflexivity). rewrite V0. cbn [Z.eqb].
    assert (h = None) as -> by (pose proof (L_h _ _ _ _ _ H) as Q; destruct h; [destruct Q; discriminate|reflexivity]).
    exists true, None, n, (Some t). split; [intros es X; constructor; exact X|]. destruct H. split; cbn [goto lmem lths holder mutex_view]; auto.
    + exists x0, (mkmsg 1 vzero). rewrite madd_same, B. split; reflexivity.
    + apply vle_madd. assumption.
    + intros t' th. rewrite nth_upd. destruct (Nat.eqb_spec t t') as [<-|N].
      * rewrite (proj2 (Nat.ltb_lt _ _) Lt). intros Q. injection Q as <-. split; [exact T'|]. cbn. split; [reflexivity|].
        split; [rewrite stored_other by discriminate; exact Ns|]. split; [reflexivity|]. rewrite GL, latest_same by assumption. lia.
      * intros Et. apply (tok_other (lmem s) _ false true (Some t) _ None None t' th (L_th0 _ _ Et)).
        -- intros l. apply latest_madd.
        -- intros Sp. exfalso. destruct (L_th0 _ _ Et) as (_ & Q). destruct (lat th); cbn in Sp, Q; try contradiction; destruct Q as (Q & _); congruence.
        -- intros St. apply stored_other; [discriminate|exact St].
        -- intros _. split; [reflexivity|]. apply latest_other. discriminate.
    + rewrite last_other by discriminate. split; [apply L_sp0|]. eexists. split; [apply nth_upd_eq; exact Lt|exact I].
  - (* Publish *)
    destruct R as (-> & Ns & -> & Kb). destruct (store Release (lmem s) v flag 1) as [m' v'] eqn:ES.
    destruct (store_inv _ _ _ _ _ _ _ ES W T M) as (-> & _ & W' & M' & T' & G & GL).
    destruct (not_stored _ F Ns) as (x0 & EF & V0).
    set (x := mkmsg _ _) in *. assert (St : stored (madd (lmem s) flag x)) by (unfold stored; rewrite madd_same, EF; reflexivity).
    exists true, h, n, (Some t). split; [exact NE|]. destruct H. split; cbn [goto lmem lths holder mutex_view]; auto.
    + right. exists x0, x. rewrite madd_same, EF. split; [reflexivity|]. split; [exact V0|]. split; [reflexivity|].
      eapply Nat.le_trans; [exact Kb|]. unfold x. cbn [mview]. apply publish_release.
    + apply vle_madd. assumption.
    + intros t' th. rewrite nth_upd. destruct (Nat.eqb_spec t t') as [<-|N].
      * rewrite (proj2 (Nat.ltb_lt _ _) Lt). intros Q. injection Q as <-. split; [exact T'|]. cbn. split; [reflexivity|].
        split; [exact St|]. split; [rewrite GL, latest_same by assumption; lia|]. specialize (G body). lia.
      * intros Et. apply (tok_other (lmem s) _ true true (Some t) _ h h t' th (L_th0 _ _ Et)).
        -- intros l. apply latest_madd.
        -- intros Sp. exfalso. destruct (L_th0 _ _ Et) as (_ & Q). destruct (lat th); cbn in Sp, Q; try contradiction; destruct Q as (Q & _); congruence.
        -- intros _. exact St.
        -- intros _. split; [reflexivity|]. apply latest_other. discriminate.
    + rewrite last_other by discriminate. split; [apply L_sp0|]. eexists. split; [apply nth_upd_eq; exact Lt|exact I].
    + rewrite latest_other by discriminate. destruct h as [u|]; [|exact L_h0]. destruct L_h0 as (A & th & B & C). split; [exact A|]. exists th.
      split; [|exact C]. rewrite nth_upd_ne; [exact B|]. intros ->. rewrite E in B. injection B as <-. discriminate C.
  - (* Unspin *)
    destruct R as (-> & St & K). destruct (store Release (lmem s) v spin 0) as [m' v'] eqn:ES.
    destruct (store_inv _ _ _ _ _ _ _ ES W T M) as (-> & _ & W' & M' & T' & G & GL).
    set (x := mkmsg _ _) in *. exists b, h, n, None. split; [exact NE|]. destruct H. split; cbn [goto lmem lths holder mutex_view]; auto.
    + apply vle_madd. assumption.
    + intros t' th. rewrite nth_upd. destruct (Nat.eqb_spec t t') as [<-|N].
      * rewrite (proj2 (Nat.ltb_lt _ _) Lt). intros Q. injection Q as <-. split; [exact T'|]. cbn.
        split; [apply stored_other; [discriminate|exact St]|]. apply (knows_le (vcur v)); auto.
      * intros Et. apply (tok_other (lmem s) _ b b (Some t) _ h h t' th (L_th0 _ _ Et)).
        -- intros l. apply latest_madd.
        -- intros Sp. exfalso. destruct (L_th0 _ _ Et) as (_ & Q). destruct (lat th); cbn in Sp, Q; try contradiction; destruct Q as (Q & _); congruence.
        -- intros _. apply stored_other; [discriminate|exact St].
        -- intros _. split; [reflexivity|]. apply latest_other. discriminate.
    + exists x. split; [apply last_same; exact W|]. split; [reflexivity|]. split; [intros _|intros _; apply stored_other; [discriminate|exact St]].
      unfold x. cbn [mview]. apply (knows_le (vcur v)); [exact K|]. intros l. apply publish_release.
    + rewrite latest_other by discriminate. destruct h as [u|]; [|exact L_h0]. destruct L_h0 as (A & th & B & C). split; [exact A|]. exists th.
      split; [|exact C]. rewrite nth_upd_ne; [exact B|]. intros ->. rewrite E in B. injection B as <-. discriminate C.
  - (* Enter *)
    destruct R as (St & K1 & K2). pose proof (L_built _ _ _ _ _ H St) as ->. pose proof (L_body _ _ _ _ _ H) as (x0 & x1 & B & V1).
    assert (Lb : latest (lmem s) body = 1) by (unfold latest; rewrite B; reflexivity).
    assert (Ec : vcur v body = latest (lmem s) body) by (destruct T as (T1 & _); specialize (T1 body); lia).
    unfold peek. rewrite Ec, Nat.eqb_refl, Lb, B. cbn [nth_error option_map]. rewrite V1. cbn [Z.eqb].
    rewrite (L_holder _ _ _ _ _ H). destruct h as [u|]; [exact I|].
    exists true, (Some t), n, sp. split; [intros es X; constructor; exact X|].
    assert (T' : tle (mktv (vjoin (vcur v) (mutex_view s)) (vrel v) (vjoin (vacq v) (mutex_view s))) (lmem s)).
    { pose proof (L_mv _ _ _ _ _ H) as Q. destruct T as (T1 & T2 & T3). split; [|split]; cbn [vcur vrel vacq]; [apply vle_join| |apply vle_join]; assumption. }
    destruct H. split; cbn [lmem lths holder mutex_view]; auto.
    + intros t' th. rewrite nth_upd. destruct (Nat.eqb_spec t t') as [<-|N].
      * rewrite (proj2 (Nat.ltb_lt _ _) Lt). intros Q. injection Q as <-. split; [exact T'|]. cbn. split; [reflexivity|]. split; [exact St|].
        split; [split; unfold vjoin; lia|]. destruct T' as (T1 & _). specialize (T1 data). cbn [vcur] in T1. unfold vjoin in *. rewrite L_h0 in *. lia.
      * intros Et. apply (tok_other (lmem s) _ true true sp _ None (Some t) t' th (L_th0 _ _ Et)); auto.
        intros Q. exfalso. destruct (L_th0 _ _ Et) as (_ & Q'). rewrite Q in Q'. destruct Q' as (Q' & _). discriminate.
    + destruct sp as [u|]; [|exact L_sp0]. destruct L_sp0 as (A & th & B' & C). split; [exact A|]. exists th. split; [|exact C].
      rewrite nth_upd_ne; [exact B'|]. intros ->. rewrite E in B'. injection B' as <-. contradiction.
    + split; [reflexivity|]. eexists. split; [apply nth_upd_eq; exact Lt|reflexivity].
  - (* Inside, At *)
    destruct R as (-> & St & (K1 & K2) & Ed). destruct (load Relaxed (lmem s) v flag ts) as [[x v']|] eqn:EL; [|exact I].
    destruct (load_inv _ _ _ _ _ _ _ EL T M) as (y & En & -> & -> & Hv & T' & G).
    destruct (flag_read _ ts y F En ltac:(lia)) as (_ & _ & -> & _). cbn [Z.eqb].
    exists true, None, n, sp. pose proof (L_built _ _ _ _ _ H St) as ->. split; [intros es X; constructor; exact X|].
    destruct H. split; cbn [lmem lths holder mutex_view]; auto.
    + apply T'.
    + intros t' th. rewrite nth_upd. destruct (Nat.eqb_spec t t') as [<-|N].
      * rewrite (proj2 (Nat.ltb_lt _ _) Lt). intros Q. injection Q as <-. split; [exact T'|exact I].
      * intros Et. apply (tok_other (lmem s) _ true true sp _ (Some t) None t' th (L_th0 _ _ Et)); auto.
        intros Q. exfalso. destruct (L_th0 _ _ Et) as (_ & Q'). rewrite Q in Q'. destruct Q' as (Q' & _). congruence.
    + destruct sp as [u|]; [|exact L_sp0]. destruct L_sp0 as (A & th & B' & C). split; [exact A|]. exists th. split; [|exact C].
      rewrite nth_upd_ne; [exact B'|]. intros ->. rewrite E in B'. injection B' as <-. contradiction.
  - (* Inside, Use *)
    destruct R as (-> & St & K & Ed). destruct (touch_some (lmem s) v data (fun x => x + 1)%Z W Ed) as (x & m' & v' & ET). rewrite ET.
    destruct (touch_inv _ _ _ _ _ _ _ ET W T M) as (y & Ey & -> & _ & -> & W' & M' & T' & G & GL).
    pose proof (L_n _ _ _ _ _ H) as (y' & Ey' & V). rewrite Ey in Ey'. injection Ey' as <-. rewrite V in *.
    pose proof (L_built _ _ _ _ _ H St) as ->.
    exists true, (Some t), (n + 1)%Z, sp. split; [intros es X; constructor; exact X|]. destruct H. split; cbn [goto lmem lths holder mutex_view]; auto.
    + apply vle_madd. assumption.
    + intros t' th. rewrite nth_upd. destruct (Nat.eqb_spec t t') as [<-|N].
      * rewrite (proj2 (Nat.ltb_lt _ _) Lt). intros Q. injection Q as <-. split; [exact T'|]. cbn. split; [reflexivity|].
        split; [apply stored_other; [discriminate|exact St]|]. split; [apply (knows_le (vcur v)); auto|exact GL].
      * intros Et. apply (tok_other (lmem s) _ true true sp _ (Some t) (Some t) t' th (L_th0 _ _ Et)).
        -- intros l. apply latest_madd.
        -- intros _. rewrite madd_other by discriminate. auto.
        -- intros Q. apply stored_other; [discriminate|exact Q].
        -- intros Q. exfalso. destruct (L_th0 _ _ Et) as (_ & Q'). rewrite Q in Q'. destruct Q' as (Q' & _). congruence.
    + destruct sp as [u|].
      * destruct L_sp0 as (A & th & B' & C). rewrite last_other by discriminate. split; [exact A|]. exists th. split; [|exact C].
        rewrite nth_upd_ne; [exact B'|]. intros ->. rewrite E in B'. injection B' as <-. contradiction.
      * rewrite last_other by discriminate. destruct L_sp0 as (z & Z1 & Z2 & Z3 & Z4). exists z. rewrite stored_other by discriminate. auto.
    + split; [reflexivity|]. eexists. split; [apply nth_upd_eq; exact Lt|reflexivity].
    + exists (mkmsg (n + 1) vzero). split; [apply last_same; exact W|reflexivity].
Qed.

Lemma lrun_ok sched : forall s b h n sp, linv s b h n sp ->
  exists s' es b' h' n' sp', srun lstep s sched = Some (s', es) /\ next_events b h n es b' h' n' /\ linv s' b' h' n' sp'.
Proof.
  induction sched as [|[t mv] sched IH]; intros s b h n sp H; cbn [srun].
  - exists s, [], b, h, n, sp. split; [reflexivity|]. split; [intros es X; exact X|exact H].
  - pose proof (lstep_ok s b h n sp t mv H) as G. destruct (lstep s t mv) as [s1 e| |]; [| |contradiction].
    + destruct G as (b1 & h1 & n1 & sp1 & N1 & H1). destruct (IH _ _ _ _ _ H1) as (s' & es & b' & h' & n' & sp' & E & N2 & H2).
      rewrite E. exists s', (e ++ es), b', h', n', sp'. split; [reflexivity|]. split; [|exact H2].
      intros es' X. rewrite <- app_assoc. apply N1, N2, X.
    + apply (IH _ _ _ _ _ H).
Qed.
Theorem lazy_lock n sched : exists s es, lrun n sched = Some (s, es) /\ lazy_events false None 0 es.
Proof.
  destruct (lrun_ok sched _ _ _ _ _ (linv_init n)) as (s' & es & b' & h' & n' & sp' & E & N & _). exists s', es. split; [exact E|].
  specialize (N [] (lz_nil _ _ _)). rewrite app_nil_r in N. exact N.
Qed.

(* ---- nobody is locked out ---- *)
Lemma srun_app {S} (step : S -> nat -> move -> outcome S) a b : forall s, srun step s (a ++ b) =
  match srun step s a with None => None | Some (s', es) => option_map (fun r => (fst r, es ++ snd r)) (srun step s' b) end.
Proof.
  induction a as [|[t mv] a IH]; intros s; cbn [app srun].
  - destruct (srun step s b) as [[s' es]|]; reflexivity.
  - destruct (step s t mv) as [s1 e| |]; [|apply IH|reflexivity]. rewrite IH. destruct (srun step s1 a) as [[s2 es]|]; [|reflexivity].
    cbn [option_map fst snd]. destruct (srun step s2 b) as [[s3 es']|]; [|reflexivity]. cbn [option_map fst snd]. rewrite app_assoc. reflexivity.
Qed.
Lemma srun_one {S} (step : S -> nat -> move -> outcome S) s t mv s1 e : step s t mv = Moved s1 e -> srun step s [(t, mv)] = Some (s1, e).
Proof. intros H. cbn [srun]. rewrite H. cbn [option_map fst snd]. rewrite app_nil_r. reflexivity. Qed.

Lemma load_latest o m t l : wfm m -> tle t m -> exists x, load o m t l (latest m l) = Some (val x, seen o t l (latest m l) x) /\ last_msg m l = Some x.
Proof.
  intros W T. destruct (last_some m l W) as (x & E & _). exists x. split; [|exact E]. unfold load.
  destruct T as (T & _). specialize (T l). destruct (Nat.ltb_spec (latest m l) (vcur t l)); [lia|]. unfold last_msg in E. rewrite E. reflexivity.
Qed.

Definition spin_free (s : lstate) : Prop := exists x, last_msg (lmem s) spin = Some x /\ val x = 0%Z.
Definition rank (p : lpc) : nat := match p with Idle => 7 | Spin => 6 | Check => 5 | Construct => 4 | Publish => 3 | Unspin => 2 | Enter => 1 | Inside => 0 end.

(** A thread before the lock can always make its next step, unless it waits for the spin lock. *)
Lemma advance s b h n sp t v p : linv s b h n sp -> nth_error (lths s) t = Some (mklt v p) -> 2 <= rank p ->
  (p = Spin -> spin_free s) ->
  exists mv s' e v' p', lstep s t mv = Moved s' e /\ lths s' = upd (lths s) t (mklt v' p') /\ holder s' = holder s /\ 1 <= rank p' < rank p /\
    (p = Idle -> lmem s' = lmem s) /\ (p = Unspin -> spin_free s') /\ (spinning p -> p' = Enter \/ spinning p').
Proof.
  intros H E Hr Hs. pose proof (L_th _ _ _ _ _ H t _ E) as (T & R). cbn [lview lat] in T, R.
  pose proof (L_wf _ _ _ _ _ H) as W. pose proof (L_mle _ _ _ _ _ H) as M.
  destruct p; cbn in Hr; try lia; cbn in R.
  - destruct (load_latest Acquire (lmem s) v flag W T) as (x & EL & _). exists (At (latest (lmem s) flag)). unfold lstep. rewrite E, EL.
    do 4 eexists. split; [reflexivity|]. split; [reflexivity|]. split; [reflexivity|]. split; [destruct (_ =? 0)%Z; cbn; lia|].
    split; [reflexivity|]. split; [discriminate|intros []].
  - destruct (Hs eq_refl) as (x & Ex & Vx). exists Go. unfold lstep. rewrite E. unfold rmw. unfold last_msg in Ex. rewrite Ex. cbv zeta. rewrite Vx. cbn [Z.eqb].
    do 4 eexists. split; [reflexivity|]. split; [reflexivity|]. split; [reflexivity|]. split; [cbn; lia|]. split; [discriminate|]. split; [discriminate|intros []].
  - destruct (load_latest Relaxed (lmem s) v flag W T) as (x & EL & _). exists (At (latest (lmem s) flag)). unfold lstep. rewrite E, EL.
    do 4 eexists. split; [reflexivity|]. split; [reflexivity|]. split; [reflexivity|]. split; [destruct (_ =? 0)%Z; cbn; lia|].
    split; [discriminate|]. split; [discriminate|]. intros _. right. destruct (_ =? 0)%Z; exact I.
  - pose proof (lstep_ok s b h n sp t Go H) as G. exists Go. unfold lstep in *. rewrite E in *.
    destruct (touch (lmem s) v body (fun _ => 1%Z)) as [[[x m] v']|]; [|contradiction]. destruct (x =? 0)%Z; [|contradiction].
    do 4 eexists. split; [reflexivity|]. split; [reflexivity|]. split; [reflexivity|]. split; [cbn; lia|]. split; [discriminate|]. split; [discriminate|].
    intros _. right. exact I.
  - exists Go. unfold lstep. rewrite E. unfold store. cbv zeta.
    do 4 eexists. split; [reflexivity|]. split; [reflexivity|]. split; [reflexivity|]. split; [cbn; lia|]. split; [discriminate|]. split; [discriminate|].
    intros _. right. exact I.
  - exists Go. unfold lstep. rewrite E. unfold store. cbv zeta.
    do 4 eexists. split; [reflexivity|]. split; [reflexivity|]. split; [reflexivity|]. split; [cbn; lia|]. split; [discriminate|].
    split; [|intros _; left; reflexivity]. intros _. eexists. cbn [goto lmem]. split; [apply last_same; exact W|reflexivity].
Qed.
Lemma linv_step s b h n sp t mv s' e : linv s b h n sp -> lstep s t mv = Moved s' e -> exists b' h' n' sp', linv s' b' h' n' sp'.
Proof. intros H E. pose proof (lstep_ok s b h n sp t mv H) as G. rewrite E in G. destruct G as (b' & h' & n' & sp' & _ & H'). eauto. Qed.

Lemma climb k : forall s b h n sp t v p, linv s b h n sp -> nth_error (lths s) t = Some (mklt v p) -> rank p = k -> 1 <= k -> holder s = None ->
  (6 <= k -> spin_free s) -> exists sched s' es, srun lstep s sched = Some (s', es) /\ In (Acquired t) es.
Proof.
  induction k as [k IH] using lt_wf_ind. intros s b h n sp t v p H E Hr Hk Hh Hf.
  destruct (Nat.eq_dec k 1) as [->|N1].
  - assert (p = Enter) as -> by (destruct p; cbn in Hr; congruence).
    pose proof (lstep_ok s b h n sp t Go H) as G. unfold lstep in G. rewrite E, Hh in G.
    destruct (peek (lmem s) v body) as [x|] eqn:EP; [|contradiction]. destruct (x =? 0)%Z eqn:Ex; [contradiction|].
    exists [(t, Go)]. eexists. eexists. split; [apply srun_one; unfold lstep; rewrite E, EP, Ex, Hh; reflexivity|left; reflexivity].
  - assert (Hs : p = Spin -> spin_free s) by (intros ->; apply Hf; cbn in Hr; lia).
    destruct (advance s b h n sp t v p H E ltac:(lia) Hs) as (mv & s1 & e & v' & p' & E1 & ET & EH & Hp & Hm & _ & Hsp).
    destruct (linv_step _ _ _ _ _ _ _ _ _ H E1) as (b1 & h1 & n1 & sp1 & H1).
    destruct (IH (rank p') ltac:(lia) s1 b1 h1 n1 sp1 t v' p' H1) as (sched & s2 & es & E2 & I2).
    + rewrite ET. apply nth_upd_eq. exact (nth_lt _ _ _ E).
    + reflexivity.
    + lia.
    + congruence.
    + intros H6. assert (p = Idle) as -> by (destruct p; cbn [rank] in Hp; [reflexivity|exfalso; lia ..]).
      unfold spin_free. rewrite (Hm eq_refl). apply Hf. cbn in Hr. lia.
    + exists ((t, mv) :: sched), s2, (e ++ es). split; [|apply in_app_iff; auto].
      cbn [srun]. rewrite E1, E2. reflexivity.
Qed.

(** The thread that holds the spin lock gets out of it. *)
Lemma settle k : forall s b h n sp t v p, linv s b h n sp -> nth_error (lths s) t = Some (mklt v p) -> rank p = k -> spinning p -> holder s = None ->
  exists sched s' es b' h' n' sp', srun lstep s sched = Some (s', es) /\ linv s' b' h' n' sp' /\ holder s' = None /\ spin_free s' /\
    forall u, u <> t -> nth_error (lths s') u = nth_error (lths s) u.
Proof.
  induction k as [k IH] using lt_wf_ind. intros s b h n sp t v p H E Hr Hp Hh.
  destruct (advance s b h n sp t v p H E) as (mv & s1 & e & v' & p' & E1 & ET & EH & Hp' & _ & Hu & Hsp).
  { destruct p; cbn in *; try contradiction; lia. }
  { intros ->. contradiction. }
  destruct (linv_step _ _ _ _ _ _ _ _ _ H E1) as (b1 & h1 & n1 & sp1 & H1).
  assert (D : p = Unspin \/ spinning p').
  { destruct (Hsp Hp) as [->|]; [|auto]. destruct p; try contradiction; auto; exfalso.
    - (* Check never goes to Enter *) unfold lstep in E1. rewrite E in E1. destruct mv; try discriminate. destruct (load _ _ _ _ _) as [[x v1]|]; [|discriminate].
      injection E1 as <- _. cbn [goto lths] in ET. apply (f_equal (fun l => nth_error l t)) in ET. rewrite !nth_upd_eq in ET by exact (nth_lt _ _ _ E).
      injection ET as _ ET. destruct (x =? 0)%Z; discriminate.
    - unfold lstep in E1. rewrite E in E1. destruct mv; try discriminate. destruct (touch _ _ _ _) as [[[x m] v1]|]; [|discriminate]. destruct (x =? 0)%Z; [|discriminate].
      injection E1 as <- _. cbn [goto lths] in ET. apply (f_equal (fun l => nth_error l t)) in ET. rewrite !nth_upd_eq in ET by exact (nth_lt _ _ _ E). discriminate.
    - unfold lstep in E1. rewrite E in E1. destruct mv; try discriminate. destruct (store _ _ _ _ _) as [m v1].
      injection E1 as <- _. cbn [goto lths] in ET. apply (f_equal (fun l => nth_error l t)) in ET. rewrite !nth_upd_eq in ET by exact (nth_lt _ _ _ E). discriminate. }
  destruct D as [->|D].
  - exists [(t, mv)], s1, e, b1, h1, n1, sp1. split; [apply srun_one; exact E1|]. split; [exact H1|]. split; [congruence|]. split; [auto|].
    intros u Nu. rewrite ET. apply nth_upd_ne. congruence.
  - destruct (IH (rank p') ltac:(lia) s1 b1 h1 n1 sp1 t v' p' H1) as (sched & s2 & es & b2 & h2 & n2 & sp2 & E2 & H2 & Hh2 & Hf2 & O2); auto.
    + rewrite ET. apply nth_upd_eq. exact (nth_lt _ _ _ E).
    + congruence.
    + exists ((t, mv) :: sched), s2, (e ++ es), b2, h2, n2, sp2. split; [cbn [srun]; rewrite E1, E2; reflexivity|].
      split; [exact H2|]. split; [exact Hh2|]. split; [exact Hf2|]. intros u Nu. rewrite (O2 u Nu), ET. apply nth_upd_ne. congruence.
Qed.

Lemma lstep_len s t mv s' e : lstep s t mv = Moved s' e -> length (lths s') = length (lths s).
Proof.
  unfold lstep. destruct (nth_error (lths s) t) as [[v p]|]; [|discriminate].
  destruct p, mv; try discriminate;
  repeat match goal with
  | |- (match ?x with _ => _ end) = _ -> _ => destruct x
  | |- (let '(_, _) := ?x in _) = _ -> _ => destruct x
  | |- (if ?x then _ else _) = _ -> _ => destruct x
  end; try discriminate; intros Q; injection Q as <- _; cbn [goto lths]; apply upd_length.
Qed.
Lemma lrun_len sched : forall s s' es, srun lstep s sched = Some (s', es) -> length (lths s') = length (lths s).
Proof.
  induction sched as [|[t mv] sched IH]; intros s s' es; cbn [srun]; [intros Q; injection Q as <- _; reflexivity|].
  destruct (lstep s t mv) as [s1 e| |] eqn:E1; [|apply IH|discriminate].
  destruct (srun lstep s1 sched) as [[s2 es2]|] eqn:E2; [|discriminate]. intros Q. injection Q as <- _. cbn [fst].
  rewrite (IH _ _ _ E2). apply (lstep_len _ _ _ _ _ E1).
Qed.

Lemma get_in s b h n sp t : linv s b h n sp -> t < length (lths s) -> holder s = None ->
  exists sched s' es, srun lstep s sched = Some (s', es) /\ In (Acquired t) es.
Proof.
  intros H Ht Hh. apply nth_error_Some in Ht. destruct (nth_error (lths s) t) as [[v p]|] eqn:E; [clear Ht|congruence].
  pose proof (L_th _ _ _ _ _ H t _ E) as (_ & R). pose proof (L_h _ _ _ _ _ H) as Lh. rewrite <- (L_holder _ _ _ _ _ H), Hh in Lh.
  assert (Np : 1 <= rank p) by (destruct p; cbn; try lia; cbn in R; destruct R as (R & _); rewrite <- (L_holder _ _ _ _ _ H), Hh in R; discriminate).
  pose proof (L_sp _ _ _ _ _ H) as S. destruct sp as [u|].
  - destruct S as (_ & [vu pu] & Eu & Su). cbn [lat] in Su. destruct (Nat.eq_dec u t) as [->|N].
    + rewrite E in Eu. injection Eu as <- <-. apply (climb (rank p) s b h n (Some t) t v p); auto. destruct p; cbn in *; try contradiction; lia.
    + destruct (settle (rank pu) s b h n (Some u) u vu pu H Eu eq_refl Su Hh) as (sched & s1 & es & b1 & h1 & n1 & sp1 & E1 & H1 & Hh1 & Hf1 & O1).
      destruct (climb (rank p) s1 b1 h1 n1 sp1 t v p) as (sched2 & s2 & es2 & E2 & I2); auto; [rewrite O1 by congruence; exact E|].
      exists (sched ++ sched2), s2, (es ++ es2). split; [rewrite srun_app, E1, E2; reflexivity|apply in_app_iff; auto].
  - destruct S as (x & Ex & Vx & _). apply (climb (rank p) s b h n None t v p); auto. intros _. exists x. auto.
Qed.

Theorem lazy_available n sched s es t : lrun n sched = Some (s, es) -> t < n ->
  exists more s' es', srun lstep s more = Some (s', es') /\ In (Acquired t) es'.
Proof.
  intros E Ht. destruct (lrun_ok sched _ _ _ _ _ (linv_init n)) as (s0 & es0 & b & h & m & sp & E0 & _ & H).
  unfold lrun in E. rewrite E0 in E. injection E as -> ->.
  assert (Lt : t < length (lths s)) by (rewrite (lrun_len _ _ _ _ E0); cbn [linit lths]; rewrite repeat_length; exact Ht).
  destruct (holder s) as [u|] eqn:Hh; [|apply (get_in s b h m sp); assumption].
  pose proof (L_h _ _ _ _ _ H) as Lh. rewrite <- (L_holder _ _ _ _ _ H), Hh in Lh. destruct Lh as (_ & [v p] & Eu & Pu). cbn [lat] in Pu. subst p.
  pose proof (L_th _ _ _ _ _ H u _ Eu) as (T & R). cbn [lview lat] in T.
  destruct (load_latest Relaxed (lmem s) v flag (L_wf _ _ _ _ _ H) T) as (x & EL & _).
  pose proof (lstep_ok s b h m sp u (At (latest (lmem s) flag)) H) as G.
  destruct (lstep s u (At (latest (lmem s) flag))) as [s1 e| |] eqn:E1; [| |contradiction].
  - destruct G as (b1 & h1 & n1 & sp1 & _ & H1).
    assert (Hh1 : holder s1 = None).
    { unfold lstep in E1. rewrite Eu, EL in E1. destruct (val x =? 0)%Z; [discriminate|]. injection E1 as <- _. reflexivity. }
    destruct (get_in s1 b1 h1 n1 sp1 t H1) as (sched1 & s2 & es2 & E2 & I2); [rewrite (lstep_len _ _ _ _ _ E1); exact Lt|exact Hh1|].
    exists ((u, At (latest (lmem s) flag)) :: sched1), s2, (e ++ es2). split; [cbn [srun]; rewrite E1, E2; reflexivity|apply in_app_iff; auto].
  - exfalso. unfold lstep in E1. rewrite Eu, EL in E1. destruct (val x =? 0)%Z; discriminate.
Qed.

(* ---- Mutex_SpinLock ---- *)
Record pinv (s : pstate) (h : option nat) (n : Z) : Prop := mkpinv {
  P_wf : wfm (pmem s);
  P_mle : mle (pmem s);
  P_th : forall t th, nth_error (pths s) t = Some th -> tle (pview th) (pmem s) /\ (inside th = true -> h = Some t /\ vcur (pview th) data = latest (pmem s) data);
  P_sp : exists x, last_msg (pmem s) spin = Some x /\
    match h with
    | None => val x = 0%Z /\ mview x data = latest (pmem s) data
    | Some t => val x = 1%Z /\ exists th, nth_error (pths s) t = Some th /\ inside th = true
    end;
  P_n : exists x, last_msg (pmem s) data = Some x /\ val x = n }.
Lemma pinv_init n : pinv (pinit n) None 0.
Proof.
  split; cbn [pinit pmem pths].
  - exact wfm0.
  - exact mle0.
  - intros t th E. apply nth_error_In, repeat_spec in E. subst th. split; [apply tle0|discriminate].
  - exists (mkmsg 0 vzero). split; [reflexivity|]. split; reflexivity.
  - exists (mkmsg 0 vzero). split; reflexivity.
Qed.
Lemma pstep_ok s h n t mv : pinv s h n ->
  match pstep s t mv with
  | Bad => False
  | Stuck => True
  | Moved s' e => exists h' n', (forall es, lock_events h' n' es -> lock_events h n (e ++ es)) /\ pinv s' h' n'
  end.
Proof.
  intros H. unfold pstep. destruct (nth_error (pths s) t) as [[v i]|] eqn:E; [|exact I].
  pose proof (nth_lt _ _ _ E) as Lt. destruct (P_th _ _ _ H t _ E) as (T & R). cbn [pview inside] in T, R.
  pose proof (P_wf _ _ _ H) as W. pose proof (P_mle _ _ _ H) as M.
  destruct i, mv; try exact I.
  - (* Use *)
    destruct (R eq_refl) as (-> & Ed). destruct (touch_some (pmem s) v data (fun x => x + 1)%Z W Ed) as (x & m' & v' & ET). rewrite ET.
    destruct (touch_inv _ _ _ _ _ _ _ ET W T M) as (y & Ey & -> & _ & -> & W' & M' & T' & G & GL).
    pose proof (P_n _ _ _ H) as (y' & Ey' & V). rewrite Ey in Ey'. injection Ey' as <-. rewrite V in *.
    exists (Some t), (n + 1)%Z. split; [intros es X; constructor; exact X|]. destruct H. split; cbn [pmem pths]; auto.
    + intros t' th. rewrite nth_upd. destruct (Nat.eqb_spec t t') as [<-|N].
      * rewrite (proj2 (Nat.ltb_lt _ _) Lt). intros Q. injection Q as <-. split; [exact T'|]. intros _. split; [reflexivity|exact GL].
      * intros Et. destruct (P_th0 _ _ Et) as (A & B). split; [apply tle_madd; exact A|]. intros Q. destruct (B Q) as (Q1 & _). congruence.
    + destruct P_sp0 as (z & Z1 & Z2 & _). exists z. rewrite last_other by discriminate. split; [exact Z1|]. split; [exact Z2|].
      eexists. split; [apply nth_upd_eq; exact Lt|reflexivity].
    + exists (mkmsg (n + 1) vzero). split; [apply last_same; exact W|reflexivity].
  - (* Leave *)
    destruct (R eq_refl) as (-> & Ed). destruct (store Release (pmem s) v spin 0) as [m' v'] eqn:ES.
    destruct (store_inv _ _ _ _ _ _ _ ES W T M) as (-> & _ & W' & M' & T' & G & GL).
    exists None, n. split; [intros es X; constructor; exact X|]. destruct H. split; cbn [pmem pths]; auto.
    + intros t' th. rewrite nth_upd. destruct (Nat.eqb_spec t t') as [<-|N].
      * rewrite (proj2 (Nat.ltb_lt _ _) Lt). intros Q. injection Q as <-. split; [exact T'|discriminate].
      * intros Et. destruct (P_th0 _ _ Et) as (A & B). split; [apply tle_madd; exact A|]. intros Q. destruct (B Q) as (Q1 & _). congruence.
    + eexists. split; [apply last_same; exact W|]. split; [reflexivity|]. cbn [mview]. rewrite latest_other by discriminate.
      apply Nat.le_antisymm.
      * pose proof (publish_le Release v (pmem s) spin (mkmsg 0 vzero) W T data) as Q. rewrite latest_other in Q by discriminate. exact Q.
      * rewrite <- Ed. apply publish_release.
  - (* Go *)
    destruct (rmw Acquire (pmem s) v spin (fun _ => 1%Z)) as [[[x m'] v']|] eqn:ER; [|exact I].
    destruct (Z.eqb_spec x 0) as [Zx|]; [|exact I].
    destruct (rmw_inv _ _ _ _ _ _ _ _ ER W T M) as (y & Ey & -> & -> & W' & M' & T' & G & GA & _). specialize (GA eq_refl).
    destruct (P_sp _ _ _ H) as (y' & Ey' & S). rewrite Ey in Ey'. injection Ey' as <-. destruct h as [u|]; [destruct S; congruence|]. destruct S as (_ & Sd).
    exists (Some t), n. split; [intros es X; constructor; exact X|]. destruct H. split; cbn [pmem pths]; auto.
    + intros t' th. rewrite nth_upd. destruct (Nat.eqb_spec t t') as [<-|N].
      * rewrite (proj2 (Nat.ltb_lt _ _) Lt). intros Q. injection Q as <-. split; [exact T'|]. intros _. split; [reflexivity|]. cbn [pview].
        destruct T' as (T1 & _). specialize (T1 data). specialize (GA data). rewrite latest_other in * by discriminate. lia.
      * intros Et. destruct (P_th0 _ _ Et) as (A & B). split; [apply tle_madd; exact A|]. intros Q. destruct (B Q) as (Q1 & _). congruence.
    + eexists. split; [apply last_same; exact W|]. split; [reflexivity|]. eexists. split; [apply nth_upd_eq; exact Lt|reflexivity].
  - (* At *)
    destruct (load Acquire (pmem s) v spin ts) as [[x v']|] eqn:EL; [|exact I].
    destruct (load_inv _ _ _ _ _ _ _ EL T M) as (y & En & -> & -> & Hv & T' & G). destruct (_ =? 0)%Z; [exact I|].
    exists h, n. split; [intros es X; exact X|]. destruct H. split; cbn [pmem pths]; auto.
    + intros t' th. rewrite nth_upd. destruct (Nat.eqb_spec t t') as [<-|N]; [|apply P_th0].
      rewrite (proj2 (Nat.ltb_lt _ _) Lt). intros Q. injection Q as <-. split; [exact T'|discriminate].
    + destruct P_sp0 as (z & Z1 & Z2). exists z. split; [exact Z1|]. destruct h as [u|]; [|exact Z2]. destruct Z2 as (Z2 & th & Et & Ei). split; [exact Z2|].
      exists th. split; [|exact Ei]. rewrite nth_upd_ne; [exact Et|]. intros ->. rewrite E in Et. injection Et as <-. discriminate Ei.
Qed.
Lemma prun_ok sched : forall s h n, pinv s h n ->
  exists s' es h' n', srun pstep s sched = Some (s', es) /\ (forall es', lock_events h' n' es' -> lock_events h n (es ++ es')) /\ pinv s' h' n'.
Proof.
  induction sched as [|[t mv] sched IH]; intros s h n H; cbn [srun].
  - exists s, [], h, n. split; [reflexivity|]. split; [intros es X; exact X|exact H].
  - pose proof (pstep_ok s h n t mv H) as G. destruct (pstep s t mv) as [s1 e| |]; [| |contradiction].
    + destruct G as (h1 & n1 & N1 & H1). destruct (IH _ _ _ H1) as (s' & es & h' & n' & E & N2 & H2).
      rewrite E. exists s', (e ++ es), h', n'. split; [reflexivity|]. split; [|exact H2].
      intros es' X. rewrite <- app_assoc. apply N1, N2, X.
    + apply (IH _ _ _ H).
Qed.
Theorem spin_lock n sched : exists s es, prun n sched = Some (s, es) /\ lock_events None 0 es.
Proof.
  destruct (prun_ok sched _ _ _ (pinv_init n)) as (s' & es & h' & n' & E & N & _). exists s', es. split; [exact E|].
  specialize (N [] (le_nil _ _)). rewrite app_nil_r in N. exact N.
Qed.

Lemma pstep_len s t mv s' e : pstep s t mv = Moved s' e -> length (pths s') = length (pths s).
Proof.
  unfold pstep. destruct (nth_error (pths s) t) as [[v p]|]; [|discriminate].
  destruct p, mv; try discriminate;
  repeat match goal with
  | |- (match ?x with _ => _ end) = _ -> _ => destruct x
  | |- (let '(_, _) := ?x in _) = _ -> _ => destruct x
  | |- (if ?x then _ else _) = _ -> _ => destruct x
  end; try discriminate; intros Q; injection Q as <- _; cbn [pths]; apply upd_length.
Qed.
Lemma prun_len sched : forall s s' es, srun pstep s sched = Some (s', es) -> length (pths s') = length (pths s).
Proof.
  induction sched as [|[t mv] sched IH]; intros s s' es; cbn [srun]; [intros Q; injection Q as <- _; reflexivity|].
  destruct (pstep s t mv) as [s1 e| |] eqn:E1; [|apply IH|discriminate].
  destruct (srun pstep s1 sched) as [[s2 es2]|] eqn:E2; [|discriminate]. intros Q. injection Q as <- _. cbn [fst].
  rewrite (IH _ _ _ E2). apply (pstep_len _ _ _ _ _ E1).
Qed.
Lemma spin_get_in s n t : pinv s None n -> t < length (pths s) -> exists s' es, srun pstep s [(t, Go)] = Some (s', es) /\ In (Acquired t) es.
Proof.
  intros H Lt. apply nth_error_Some in Lt. destruct (nth_error (pths s) t) as [[v i]|] eqn:E; [clear Lt|congruence].
  destruct i; [destruct (P_th _ _ _ H t _ E) as (_ & Q); destruct (Q eq_refl); discriminate|].
  destruct (P_sp _ _ _ H) as (x & Ex & Vx & _). unfold last_msg in Ex.
  eexists. eexists. split; [apply srun_one; unfold pstep; rewrite E; unfold rmw; rewrite Ex; cbv zeta; rewrite Vx; cbn [Z.eqb]; reflexivity|left; reflexivity].
Qed.
Theorem spin_available n sched s es t : prun n sched = Some (s, es) -> t < n ->
  exists more s' es', srun pstep s more = Some (s', es') /\ In (Acquired t) es'.
Proof.
  intros E Ht. destruct (prun_ok sched _ _ _ (pinv_init n)) as (s0 & es0 & h & m & E0 & _ & H).
  unfold prun in E. rewrite E0 in E. injection E as -> ->.
  assert (Lt : t < length (pths s)) by (rewrite (prun_len _ _ _ _ E0); cbn [pinit pths]; rewrite repeat_length; exact Ht).
  destruct h as [u|].
  - destruct (P_sp _ _ _ H) as (x & Ex & Vx & [v i] & Eu & Iu). cbn [inside] in Iu. subst i.
    pose proof (pstep_ok s _ _ u Leave H) as G. destruct (pstep s u Leave) as [s1 e| |] eqn:E1; [| |contradiction].
    + destruct G as (h1 & n1 & N1 & H1). assert (E1' := E1). unfold pstep in E1'. rewrite Eu in E1'. unfold store in E1'. cbv zeta in E1'.
      injection E1' as E1' <-. assert (h1 = None) as ->.
      { destruct h1 as [w|]; [|reflexivity]. destruct (P_sp _ _ _ H1) as (y & Ey & Vy & _). rewrite <- E1' in Ey. cbn [pmem] in Ey.
        rewrite last_same in Ey by exact (P_wf _ _ _ H). injection Ey as <-. discriminate Vy. }
      destruct (spin_get_in s1 n1 t H1) as (s2 & es2 & E2 & I2); [rewrite (pstep_len _ _ _ _ _ E1); exact Lt|].
      exists [(u, Leave); (t, Go)], s2, ([Released u] ++ es2). split; [|apply in_app_iff; auto].
      change [(u, Leave); (t, Go)] with ([(u, Leave)] ++ [(t, Go)]). rewrite srun_app, (srun_one _ _ _ _ _ _ E1), E2. reflexivity.
    + unfold pstep in E1. rewrite Eu in E1. unfold store in E1. cbv zeta in E1. discriminate.
  - destruct (spin_get_in s m t H Lt) as (s2 & es2 & E2 & I2). eauto.
Qed.
