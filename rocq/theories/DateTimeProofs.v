From Verif Require Import DateTimeSpec DateTimeModel.
From Coq Require Import ZifyBool ZifyNat.
Ltac Zify.zify_post_hook ::= Z.div_mod_to_equations.

Lemma fits_in lo hi v : lo <= v <= hi -> fits lo hi v = Some v.
Proof. intros H. unfold fits. replace ((lo <=? v) && (v <=? hi)) with true by lia. reflexivity. Qed.
Lemma fits_inv lo hi v w : fits lo hi v = Some w -> w = v /\ lo <= v <= hi.
Proof. unfold fits. destruct ((lo <=? v) && (v <=? hi)) eqn:E; [intros [= <-]; lia|discriminate]. Qed.

(** ** One era: 400 years of 365 or 366 days, the months by evaluation over the days of one year *)
Definition zseq (n : nat) : list Z := map Z.of_nat (seq 0 n).
Lemma zseq_in n z : 0 <= z < Z.of_nat n -> In z (zseq n).
Proof.
  intros H. unfold zseq. apply in_map_iff. exists (Z.to_nat z). split; [lia|]. apply in_seq. lia.
Qed.

(* Calendar year of a month in the March-based year [yoe]. *)
Definition calyear (yoe m : Z) : Z := yoe + (if m <=? 2 then 1 else 0).

Definition start (y : Z) : Z := 365 * y + y / 4 - y / 100.
Definition stop (y : Z) : Z := if y =? 399 then 146097 else start (y + 1).
Definition yr (doe : Z) : Z := (doe - doe / 1460 + doe / 36524 - doe / 146096) / 365.
Definition lp (y : Z) : Z := if leap (y + 1) then 1 else 0.
Definition dim (l m : Z) : Z :=
  if m =? 2 then 28 + l else if (m =? 4) || (m =? 6) || (m =? 9) || (m =? 11) then 30 else 31.
Definition md (doy : Z) : Z * Z :=
  let mp := u32 (5 * doy + 2) / 153 in
  (u32 (mp + (if mp <? 10 then 3 else -9)), u32 (doy - u32 (153 * mp + 2) / 5 + 1)).
Definition dd (m d : Z) : Z := u32 (Z.quot (153 * (if 2 <? m then m - 3 else m + 9) + 2) 5 + d - 1).

Lemma yr_mono a b : 0 <= a <= b -> b < 146096 -> yr a <= yr b.
Proof. intros H1 H2. unfold yr. apply Z.div_le_mono; lia. Qed.
Lemma years_all : forallb (fun y =>
  (yr (start y) =? y) && (yr (Z.min (stop y - 1) 146095) =? y) && (stop y - start y =? 365 + lp y)) (zseq 400) = true.
Proof. vm_compute. reflexivity. Qed.
Lemma years y : 0 <= y < 400 -> yr (start y) = y /\ yr (Z.min (stop y - 1) 146095) = y /\ stop y - start y = 365 + lp y.
Proof.
  intros H. pose proof years_all as E. rewrite forallb_forall in E. specialize (E y (zseq_in 400 y ltac:(lia))). cbv beta in E. lia.
Qed.
Lemma yr_last : yr 146096 = 399.
Proof. reflexivity. Qed.
Lemma yr_is doe y : 0 <= y < 400 -> start y <= doe < stop y -> yr doe = y.
Proof.
  intros Hy Hd. destruct (years y Hy) as (E1 & E2 & E3).
  assert (0 <= start y) by (unfold start; lia).
  destruct (Z.eq_dec doe 146096) as [->|Hne].
  - rewrite yr_last. unfold stop in Hd. destruct (Z.eqb_spec y 399); [lia|]. unfold start in *. lia.
  - assert (doe < 146096) by (unfold stop in Hd; destruct (Z.eqb_spec y 399); [lia|]; unfold start in *; lia).
    pose proof (yr_mono (start y) doe ltac:(lia) ltac:(lia)). 
    pose proof (yr_mono doe (Z.min (stop y - 1) 146095) ltac:(lia) ltac:(lia)). lia.
Qed.
Lemma yr_exists doe : 0 <= doe < 146097 -> exists y, 0 <= y < 400 /\ start y <= doe < stop y.
Proof.
  intros H. destruct (Z.leb_spec (start 399) doe) as [H1|H1].
  - exists 399. split; [lia|]. change (stop 399) with 146097. lia.
  - assert (W : forall n : nat, (n <= 399)%nat -> doe < start (Z.of_nat n) -> exists y, 0 <= y < 400 /\ start y <= doe < stop y).
    { induction n as [|n IH]; intros Hn Hlt; [change (start (Z.of_nat 0)) with 0 in Hlt; lia|].
      destruct (Z.leb_spec (start (Z.of_nat n)) doe) as [H2|H2]; [|apply IH; lia].
      exists (Z.of_nat n). split; [lia|]. split; [lia|]. unfold stop. replace (Z.of_nat n =? 399) with false by lia.
      replace (Z.of_nat n + 1) with (Z.of_nat (S n)) by lia. exact Hlt. }
    apply (W 399%nat); [lia|]. exact H1.
Qed.
Lemma u32_sm v : 0 <= v < 4294967296 -> u32 v = v.
Proof. intros H. unfold u32. change (2 ^ 32) with 4294967296. apply Z.mod_small. exact H. Qed.
Lemma lp_01 y : 0 <= lp y <= 1.
Proof. unfold lp. destruct (leap (y + 1)); lia. Qed.
Lemma doe_split doe y : 0 <= doe < 146097 -> 0 <= y < 400 -> start y <= doe < stop y ->
  doe_to_ymd doe = (let '(m, d) := md (doe - start y) in (y, m, d)) /\ 0 <= doe - start y < 365 + lp y.
Proof.
  intros Hd Hy Hs. destruct (years y Hy) as (_ & _ & E3). split; [|lia].
  unfold doe_to_ymd. rewrite (u32_sm (doe - doe / 1460 + doe / 36524 - doe / 146096)) by lia.
  fold (yr doe). rewrite (yr_is doe y Hy Hs). rewrite (u32_sm (365 * y + y / 4 - y / 100)) by lia.
  fold (start y). pose proof (lp_01 y). rewrite (u32_sm (doe - start y)) by lia. reflexivity.
Qed.
Lemma dim_eq y m : days_in_month (calyear y m) m = dim (lp y) m.
Proof.
  unfold days_in_month, dim, calyear, lp. destruct (Z.eqb_spec m 2) as [->|]; [|reflexivity].
  change (2 <=? 2) with true. cbv iota. destruct (leap (y + 1)); reflexivity.
Qed.
Definition check_doy (l doy : Z) : bool :=
  if doy <? 365 + l then
    let '(m, d) := md doy in
    (1 <=? m) && (m <=? 12) && (1 <=? d) && (d <=? dim l m) && (dd m d =? doy) &&
    (if doy + 1 <? 365 + l then
       let '(m2, d2) := md (doy + 1) in
       if d <? dim l m then (m2 =? m) && (d2 =? d + 1)
       else negb (m =? 2) && (d2 =? 1) && (m2 =? (if m <? 12 then m + 1 else 1))
     else (m =? 2) && (d =? dim l 2))
  else true.
Lemma doy_all : forallb (fun l => forallb (check_doy l) (zseq 366)) [0; 1] = true.
Proof. vm_compute. reflexivity. Qed.
Lemma doy_ok l doy : 0 <= l <= 1 -> 0 <= doy < 365 + l -> check_doy l doy = true.
Proof.
  intros Hl Hd. pose proof doy_all as E. rewrite forallb_forall in E.
  specialize (E l ltac:(assert (l = 0 \/ l = 1) as [->| ->] by lia; cbn; auto)). cbv beta in E. rewrite forallb_forall in E.
  exact (E doy (zseq_in 366 doy ltac:(lia))).
Qed.
Definition check_md (l m d : Z) : bool :=
  if (1 <=? m) && (m <=? 12) && (1 <=? d) && (d <=? dim l m) then
    (0 <=? dd m d) && (dd m d <? 365 + l) && (let '(a, b) := md (dd m d) in (a =? m) && (b =? d))
  else true.
Lemma md_all : forallb (fun l => forallb (fun m => forallb (check_md l m) (zseq 32)) (zseq 13)) [0; 1] = true.
Proof. vm_compute. reflexivity. Qed.
Lemma md_ok l m d : 0 <= l <= 1 -> 1 <= m <= 12 -> 1 <= d <= 31 -> check_md l m d = true.
Proof.
  intros Hl Hm Hd. pose proof md_all as E. rewrite forallb_forall in E.
  specialize (E l ltac:(assert (l = 0 \/ l = 1) as [->| ->] by lia; cbn; auto)). cbv beta in E. rewrite forallb_forall in E.
  specialize (E m (zseq_in 13 m ltac:(lia))). cbv beta in E. rewrite forallb_forall in E.
  exact (E d (zseq_in 32 d ltac:(lia))).
Qed.
Lemma ymd_split y m d : 0 <= y < 400 -> 0 <= dd m d < 365 + lp y -> ymd_to_doe y m d = start y + dd m d.
Proof.
  intros Hy Hd. pose proof (lp_01 y). unfold ymd_to_doe. fold (dd m d). rewrite u32_sm; unfold start; lia.
Qed.

Definition check_doe (doe : Z) : bool :=
  let '(yoe, m, d) := doe_to_ymd doe in
  (0 <=? yoe) && (yoe <? 400) && (1 <=? m) && (m <=? 12) && (1 <=? d) && (d <=? days_in_month (calyear yoe m) m) &&
  (ymd_to_doe yoe m d =? doe) &&
  (if doe <? 146096 then
     let '(yoe2, m2, d2) := doe_to_ymd (doe + 1) in
     let '(y3, m3, d3) := next_date (calyear yoe m) m d in
     (calyear yoe2 m2 =? y3) && (m2 =? m3) && (d2 =? d3)
   else (yoe =? 399) && (m =? 2) && (d =? 29)).

Lemma check_doe_true doe : 0 <= doe < 146097 -> check_doe doe = true.
Proof.
  intros H. destruct (yr_exists doe H) as (y & Hy & Hs). destruct (doe_split doe y H Hy Hs) as [E Hdoy].
  pose proof (lp_01 y) as Hl. set (l := lp y) in *. set (doy := doe - start y) in *.
  pose proof (doy_ok l doy Hl Hdoy) as Hc. unfold check_doy in Hc. replace (doy <? 365 + l) with true in Hc by lia.
  unfold check_doe. rewrite E. destruct (md doy) as [m d] eqn:Emd. rewrite dim_eq. fold l.
  apply andb_prop in Hc. destruct Hc as [Hc Hn].
  assert (Hf : 1 <= m <= 12 /\ 1 <= d <= dim l m /\ dd m d = doy) by lia. clear Hc. destruct Hf as (Hm & Hd & Hdd).
  rewrite (ymd_split y m d Hy) by (fold l; lia). rewrite Hdd.
  assert (Hfirst : (0 <=? y) && (y <? 400) && (1 <=? m) && (m <=? 12) && (1 <=? d) && (d <=? dim l m) && (start y + doy =? doe) = true) by (unfold doy; lia).
  rewrite Hfirst. cbn [andb]. destruct (years y Hy) as (_ & _ & E3). fold l in E3.
  destruct (Z.ltb_spec doe 146096) as [Hlt|Hge].
  - unfold next_date. rewrite dim_eq. fold l.
    destruct (Z.ltb_spec (doy + 1) (365 + l)) as [Hin|Hout].
    + destruct (doe_split (doe + 1) y ltac:(lia) Hy ltac:(unfold doy in *; lia)) as [E' _].
      rewrite E'. replace (doe + 1 - start y) with (doy + 1) by (unfold doy; lia).
      destruct (md (doy + 1)) as [m2 d2]. destruct (d <? dim l m).
      * assert (m2 = m /\ d2 = d + 1) as [-> ->] by lia. lia.
      * unfold calyear. destruct (Z.ltb_spec m 12).
        -- assert (m2 = m + 1 /\ d2 = 1 /\ m <> 2) as (-> & -> & Hm2) by lia.
           destruct (Z.leb_spec (m + 1) 2), (Z.leb_spec m 2); lia.
        -- assert (m2 = 1 /\ d2 = 1) as (-> & ->) by lia. change (1 <=? 2) with true. cbv iota. destruct (Z.leb_spec m 2); lia.
    + assert (Hy9 : y <> 399). { intros ->. change (stop 399) with 146097 in *. unfold doy in *. lia. }
      assert (Est : stop y = start (y + 1)) by (unfold stop; replace (y =? 399) with false by lia; reflexivity).
      assert (Hd1 : doe + 1 = start (y + 1)) by (unfold doy in *; lia).
      assert (Hs' : start (y + 1) <= doe + 1 < stop (y + 1)).
      { destruct (years (y + 1) ltac:(lia)) as (_ & _ & E4). pose proof (lp_01 (y + 1)). lia. }
      destruct (doe_split (doe + 1) (y + 1) ltac:(lia) ltac:(lia) Hs') as [E' _].
      rewrite E'. replace (doe + 1 - start (y + 1)) with 0 by lia. change (md 0) with (3, 1).
      assert (m = 2 /\ d = dim l 2) as [-> ->] by lia. replace (dim l 2 <? dim l 2) with false by lia.
      change (2 <? 12) with true. cbv iota. unfold calyear. change (3 <=? 2) with false. change (2 <=? 2) with true. cbv iota. lia.
  - assert (doe = 146096) by lia. subst doe. 
    assert (y = 399). { unfold stop in Hs. destruct (Z.eqb_spec y 399); [assumption|]. unfold start in Hs. lia. }
    subst y. change (stop 399) with 146097 in E3. replace (doy + 1 <? 365 + l) with false in Hn by (unfold doy; lia).
    change (dim l 2) with 29 in Hn. lia.
Qed.

Definition check_ymd (yoe m d : Z) : bool :=
  if (1 <=? m) && (m <=? 12) && (1 <=? d) && (d <=? days_in_month (calyear yoe m) m) then
    let doe := ymd_to_doe yoe m d in
    (0 <=? doe) && (doe <? 146097) &&
    (let '(a, b, c) := doe_to_ymd doe in (a =? yoe) && (b =? m) && (c =? d))
  else true.

Lemma days_in_month_le y m : days_in_month y m <= 31.
Proof. unfold days_in_month. repeat match goal with |- context [if ?b then _ else _] => destruct b end; lia. Qed.

Lemma check_ymd_true yoe m d : 0 <= yoe < 400 -> valid_date (calyear yoe m) m d -> check_ymd yoe m d = true.
Proof.
  intros Hy [Hm Hd]. pose proof (days_in_month_le (calyear yoe m) m) as Hl. pose proof (lp_01 yoe) as Hp.
  pose proof (md_ok (lp yoe) m d Hp Hm ltac:(lia)) as E. unfold check_md in E. unfold check_ymd. rewrite dim_eq in *.
  replace ((1 <=? m) && (m <=? 12) && (1 <=? d) && (d <=? dim (lp yoe) m)) with true in * by lia.
  apply andb_prop in E. destruct E as [E1 E2]. assert (Hdd : 0 <= dd m d < 365 + lp yoe) by lia.
  rewrite (ymd_split yoe m d Hy Hdd). cbv zeta. destruct (years yoe Hy) as (_ & _ & E3).
  assert (Hst : 0 <= start yoe) by (unfold start; lia).
  assert (Hsp : stop yoe <= 146097) by (unfold stop; destruct (Z.eqb_spec yoe 399); [lia|unfold start; lia]).
  destruct (doe_split (start yoe + dd m d) yoe ltac:(lia) Hy ltac:(lia)) as [E' _]. rewrite E'.
  replace (start yoe + dd m d - start yoe) with (dd m d) by lia. destruct (md (dd m d)) as [a b]. lia.
Qed.

Global Opaque doe_to_ymd ymd_to_doe.

Lemma leap_period y k : leap (y + k * 400) = leap y.
Proof.
  unfold leap.
  replace ((y + k * 400) mod 4) with (y mod 4) by (replace (y + k * 400) with (y + (k * 100) * 4) by lia; rewrite Z_mod_plus_full; reflexivity).
  replace ((y + k * 400) mod 100) with (y mod 100) by (replace (y + k * 400) with (y + (k * 4) * 100) by lia; rewrite Z_mod_plus_full; reflexivity).
  rewrite Z_mod_plus_full. reflexivity.
Qed.
Lemma days_in_month_period y k m : days_in_month (y + k * 400) m = days_in_month y m.
Proof. unfold days_in_month. rewrite leap_period. reflexivity. Qed.
Lemma next_date_period y k m d : next_date (y + k * 400) m d =
  let '(y', m', d') := next_date y m d in (y' + k * 400, m', d').
Proof.
  unfold next_date. rewrite days_in_month_period.
  destruct (d <? days_in_month y m); [reflexivity|]. destruct (m <? 12); [reflexivity|]. f_equal. f_equal. lia.
Qed.

(** ** Whole-range arithmetic *)
Lemma era_floor days : Z.quot (if 0 <=? days then days else days - 146096) 146097 = days / 146097.
Proof.
  destruct (Z.leb_spec 0 days) as [H|H]; [apply Z.quot_div_nonneg; lia|].
  replace (days - 146096) with (- (146096 - days)) by lia.
  rewrite Z.quot_opp_l by lia. rewrite Z.quot_div_nonneg by lia. lia.
Qed.
Lemma year_floor y : Z.quot (if 0 <=? y then y else y - 399) 400 = y / 400.
Proof.
  destruct (Z.leb_spec 0 y) as [H|H]; [apply Z.quot_div_nonneg; lia|].
  replace (y - 399) with (- (399 - y)) by lia.
  rewrite Z.quot_opp_l by lia. rewrite Z.quot_div_nonneg by lia. lia.
Qed.
Lemma rem7 days : (if -4 <=? days then Z.rem (days + 4) 7 else Z.rem (days + 5) 7 + 6) = (days + 4) mod 7.
Proof.
  destruct (Z.leb_spec (-4) days) as [H|H]; [rewrite Z.rem_mod_nonneg by lia; reflexivity|].
  replace (days + 5) with (- (- days - 5)) by lia.
  rewrite Z.rem_opp_l by lia. rewrite Z.rem_mod_nonneg by lia. lia.
Qed.

(* The calendar fields, without machine arithmetic. *)
Definition civil (days : Z) : Z * Z * Z :=
  let '(yoe, m, d) := doe_to_ymd ((days + 719468) mod 146097) in
  (calyear yoe m + (days + 719468) / 146097 * 400, m, d).

Definition day_range (days : Z) : Prop := - 2 ^ 31 <= days /\ days + 719468 < 2 ^ 31.

Lemma set_date_eq days : day_range days ->
  setDateFromEpochDays days = let '(y, m, d) := civil days in Some (y, m, d, (days + 5) mod 7).
Proof.
  intros [Hlo Hhi]. unfold setDateFromEpochDays, civil.
  change (2 ^ 31) with 2147483648 in *. unfold fits_s32, fits_u8. change (2 ^ 31) with 2147483648.
  rewrite fits_in by lia. cbn [bind]. cbv zeta. rewrite era_floor, rem7.
  set (n := days + 719468) in *. 
  assert (En : n - n / 146097 * 146097 = n mod 146097) by lia. rewrite En.
  assert (Hdoe : 0 <= n mod 146097 < 146097) by (apply Z.mod_pos_bound; lia).
  replace (u32 (n mod 146097)) with (n mod 146097) by (unfold u32; change (2 ^ 32) with 4294967296; rewrite (Z.mod_small (n mod 146097) 4294967296); lia).
  pose proof (check_doe_true (n mod 146097) Hdoe) as Ec. unfold check_doe in Ec.
  destruct (doe_to_ymd (n mod 146097)) as [[yoe m] d].
  apply andb_prop in Ec. destruct Ec as [Ec _]. 
  assert (Hy : 0 <= yoe < 400 /\ 1 <= m <= 12 /\ 1 <= d <= days_in_month (calyear yoe m) m) by lia. clear Ec.
  destruct Hy as (Hy & Hm & Hd). pose proof (days_in_month_le (calyear yoe m) m).
  replace (s32 yoe) with yoe.
  2:{ unfold s32, to_signed. change (2 ^ 32) with 4294967296. change (2 ^ (32 - 1)) with 2147483648. rewrite (Z.mod_small yoe) by lia.
      destruct (Z.ltb_spec yoe 2147483648); lia. }
  assert (Hera : -15000 <= n / 146097 <= 15000) by lia.
  assert (Hc : 0 <= (if m <=? 2 then 1 else 0) <= 1) by (destruct (m <=? 2); lia).
  rewrite (fits_in _ _ (yoe + n / 146097 * 400)) by lia. cbn [bind].
  rewrite (fits_in _ _ (yoe + n / 146097 * 400 + _)) by lia. cbn [bind].
  rewrite (fits_in _ _ m) by lia. cbn [bind]. rewrite (fits_in _ _ d) by lia. cbn [bind].
  rewrite (fits_in _ _ ((n + 4) mod 7)) by lia. cbn [bind]. unfold calyear.
  f_equal. f_equal; [f_equal; f_equal; lia|]. unfold n. lia.
Qed.

Lemma check_facts doe : 0 <= doe < 146097 ->
  let '(yoe, m, d) := doe_to_ymd doe in
  0 <= yoe < 400 /\ valid_date (calyear yoe m) m d /\ ymd_to_doe yoe m d = doe.
Proof.
  intros H. pose proof (check_doe_true doe H) as E. unfold check_doe in E.
  destruct (doe_to_ymd doe) as [[yoe m] d]. apply andb_prop in E. destruct E as [E _]. unfold valid_date. lia.
Qed.

Lemma check_next doe : 0 <= doe < 146096 ->
  let '(yoe, m, d) := doe_to_ymd doe in let '(yoe2, m2, d2) := doe_to_ymd (doe + 1) in
  next_date (calyear yoe m) m d = (calyear yoe2 m2, m2, d2).
Proof.
  intros H. pose proof (check_doe_true doe ltac:(lia)) as E. unfold check_doe in E.
  destruct (doe_to_ymd doe) as [[yoe m] d]. apply andb_prop in E. destruct E as [_ E].
  replace (doe <? 146096) with true in E by lia.
  destruct (doe_to_ymd (doe + 1)) as [[yoe2 m2] d2].
  destruct (next_date (calyear yoe m) m d) as [[y3 m3] d3]. f_equal; [f_equal|]; lia.
Qed.

Lemma doe_first : doe_to_ymd 0 = (0, 3, 1).
Proof. reflexivity. Qed.
Lemma doe_last : doe_to_ymd 146096 = (399, 2, 29).
Proof. reflexivity. Qed.

Lemma civil_valid days : let '(y, m, d) := civil days in valid_date y m d.
Proof.
  unfold civil. pose proof (check_facts ((days + 719468) mod 146097) ltac:(apply Z.mod_pos_bound; lia)) as H.
  destruct (doe_to_ymd _) as [[yoe m] d]. destruct H as (_ & [Hm Hd] & _).
  split; [exact Hm|]. rewrite days_in_month_period. exact Hd.
Qed.

Lemma civil_next days : let '(y, m, d) := civil days in civil (days + 1) = next_date y m d.
Proof.
  unfold civil. set (n := days + 719468). replace (days + 1 + 719468) with (n + 1) by (unfold n; lia).
  assert (Hn : 0 <= n mod 146097 < 146097) by (apply Z.mod_pos_bound; lia).
  destruct (Z.eq_dec (n mod 146097) 146096) as [E|E].
  - replace ((n + 1) mod 146097) with 0 by lia. replace ((n + 1) / 146097) with (n / 146097 + 1) by lia.
    rewrite E, doe_first, doe_last. rewrite next_date_period. 
    change (next_date (calyear 399 2) 2 29) with (400, 3, 1). unfold calyear. cbn [Z.leb Z.compare Pos.compare Pos.compare_cont]. f_equal. f_equal. lia.
  - replace ((n + 1) mod 146097) with (n mod 146097 + 1) by lia. replace ((n + 1) / 146097) with (n / 146097) by lia.
    pose proof (check_next (n mod 146097) ltac:(lia)) as H.
    destruct (doe_to_ymd (n mod 146097)) as [[yoe m] d]. destruct (doe_to_ymd (n mod 146097 + 1)) as [[yoe2 m2] d2].
    rewrite next_date_period, H. reflexivity.
Qed.

(** Signed/unsigned conversions that do not wrap. *)
Lemma s32_u32_id v : - 2 ^ 31 <= v < 2 ^ 31 -> s32 (u32 v) = v.
Proof.
  intros H. unfold s32, to_signed, u32. change (2 ^ 31) with 2147483648 in H.
  change (2 ^ 32) with 4294967296. change (2 ^ (32 - 1)) with 2147483648. rewrite Z.mod_mod by lia.
  destruct (Z.ltb_spec (v mod 4294967296) 2147483648); lia.
Qed.

Lemma get_days_eq y m d : let y' := y - (if m <=? 2 then 1 else 0) in
  - 5800000 <= y <= 5800000 -> valid_date y m d ->
  getEpochDaysFromDate y m d = Some (y' / 400 * 146097 + ymd_to_doe (y' mod 400) m d - 719468).
Proof.
  intros y' Hy Hv. unfold getEpochDaysFromDate. fold y'.
  assert (Hy' : -5800001 <= y' <= 5800000) by (unfold y'; destruct (m <=? 2); lia).
  unfold fits_s32. change (2 ^ 31) with 2147483648. rewrite (fits_in _ _ y') by lia. cbn [bind].
  rewrite fits_in by (destruct (0 <=? y'); lia). cbn [bind]. cbv zeta. rewrite year_floor.
  rewrite fits_in by lia. cbn [bind]. 
  replace (y' - y' / 400 * 400) with (y' mod 400) by lia.
  replace (u32 (y' mod 400)) with (y' mod 400) by (unfold u32; change (2 ^ 32) with 4294967296; rewrite (Z.mod_small (y' mod 400) 4294967296); lia).
  pose proof (check_ymd_true (y' mod 400) m d ltac:(apply Z.mod_pos_bound; lia)) as E.
  assert (Hv' : valid_date (calyear (y' mod 400) m) m d).
  { destruct Hv as [Hm Hd]. split; [exact Hm|]. rewrite <- (days_in_month_period _ (y' / 400)).
    unfold calyear. replace (y' mod 400 + (if m <=? 2 then 1 else 0) + y' / 400 * 400) with y; [exact Hd|].
    unfold y' in *. lia. }
  specialize (E Hv'). unfold check_ymd in E. destruct Hv' as [Hm Hd].
  replace ((1 <=? m) && (m <=? 12) && (1 <=? d) && (d <=? days_in_month (calyear (y' mod 400) m) m)) with true in E by lia.
  apply andb_prop in E. destruct E as [E _].
  rewrite s32_u32_id; [reflexivity|]. change (2 ^ 31) with 2147483648. lia.
Qed.

Lemma civil_of_date y m d : let y' := y - (if m <=? 2 then 1 else 0) in valid_date y m d ->
  civil (y' / 400 * 146097 + ymd_to_doe (y' mod 400) m d - 719468) = (y, m, d).
Proof.
  intros y' Hv. unfold civil.
  assert (Hv' : valid_date (calyear (y' mod 400) m) m d).
  { destruct Hv as [Hm Hd]. split; [exact Hm|]. rewrite <- (days_in_month_period _ (y' / 400)).
    unfold calyear. replace (y' mod 400 + (if m <=? 2 then 1 else 0) + y' / 400 * 400) with y; [exact Hd|].
    unfold y' in *. lia. }
  pose proof (check_ymd_true (y' mod 400) m d ltac:(apply Z.mod_pos_bound; lia) Hv') as E. unfold check_ymd in E.
  destruct Hv' as [Hm Hd].
  replace ((1 <=? m) && (m <=? 12) && (1 <=? d) && (d <=? days_in_month (calyear (y' mod 400) m) m)) with true in E by lia.
  set (doe := ymd_to_doe (y' mod 400) m d) in *. apply andb_prop in E. destruct E as [Er E].
  assert (Hr : 0 <= doe < 146097) by lia.
  replace (y' / 400 * 146097 + doe - 719468 + 719468) with (doe + (y' / 400) * 146097) by lia.
  rewrite Z_mod_plus_full, (Z.mod_small doe) by lia. rewrite Z_div_plus_full by lia. rewrite (Z.div_small doe) by lia.
  destruct (doe_to_ymd doe) as [[a b] c]. assert (a = y' mod 400 /\ b = m /\ c = d) as (-> & -> & ->) by lia.
  unfold calyear. f_equal. f_equal. unfold y'. lia.
Qed.

Lemma date_of_civil days : let '(y, m, d) := civil days in
  let y' := y - (if m <=? 2 then 1 else 0) in
  y' / 400 * 146097 + ymd_to_doe (y' mod 400) m d - 719468 = days.
Proof.
  unfold civil. set (n := days + 719468).
  assert (Hn : 0 <= n mod 146097 < 146097) by (apply Z.mod_pos_bound; lia).
  pose proof (check_facts (n mod 146097) Hn) as H. destruct (doe_to_ymd (n mod 146097)) as [[yoe m] d].
  destruct H as (Hy & _ & Hd). cbv zeta. unfold calyear.
  replace (yoe + (if m <=? 2 then 1 else 0) + n / 146097 * 400 - (if m <=? 2 then 1 else 0)) with (yoe + n / 146097 * 400) by lia.
  rewrite Z_mod_plus_full, (Z.mod_small yoe) by lia. rewrite Z_div_plus_full, (Z.div_small yoe) by lia. rewrite Hd.
  unfold n in *. lia.
Qed.

Lemma civil_year_bound days : day_range days -> let '(y, m, d) := civil days in - 5890000 <= y <= 5890000.
Proof.
  intros [H1 H2]. change (2 ^ 31) with 2147483648 in *. unfold civil.
  pose proof (check_facts ((days + 719468) mod 146097) ltac:(apply Z.mod_pos_bound; lia)) as H.
  destruct (doe_to_ymd _) as [[yoe m] d]. unfold calyear. destruct (m <=? 2); lia.
Qed.

(** ** Theorems *)
Theorem days_total days : day_range days -> exists y m d w,
  setDateFromEpochDays days = Some (y, m, d, w) /\ valid_date y m d.
Proof.
  intros H. rewrite set_date_eq by exact H. pose proof (civil_valid days) as Hv.
  destruct (civil days) as [[y m] d]. eauto 6.
Qed.

Theorem days_roundtrip days y m d w : - 2000000000 <= days <= 2000000000 ->
  setDateFromEpochDays days = Some (y, m, d, w) -> getEpochDaysFromDate y m d = Some days.
Proof.
  intros Hd. assert (Hr : day_range days) by (unfold day_range; change (2 ^ 31) with 2147483648; lia).
  rewrite set_date_eq by exact Hr.
  pose proof (civil_valid days) as Hv. pose proof (date_of_civil days) as Hb.
  assert (Hyb : let '(y, _, _) := civil days in - 5800000 <= y <= 5800000).
  { unfold civil. pose proof (check_facts ((days + 719468) mod 146097) ltac:(apply Z.mod_pos_bound; lia)) as H.
    destruct (doe_to_ymd _) as [[yoe mm] dd]. unfold calyear. destruct (mm <=? 2); lia. }
  destruct (civil days) as [[y0 m0] d0]. intros [= <- <- <- _].
  rewrite get_days_eq by assumption. rewrite Hb. reflexivity.
Qed.

Theorem date_roundtrip y m d n : - 5800000 <= y <= 5800000 -> valid_date y m d ->
  getEpochDaysFromDate y m d = Some n -> exists w, setDateFromEpochDays n = Some (y, m, d, w).
Proof.
  intros Hy Hv. rewrite get_days_eq by assumption. intros [= <-].
  pose proof (civil_of_date y m d Hv) as Hc.
  pose proof (check_ymd_true ((y - (if m <=? 2 then 1 else 0)) mod 400) m d ltac:(apply Z.mod_pos_bound; lia)) as E.
  set (y' := y - (if m <=? 2 then 1 else 0)) in *.
  assert (Hv' : valid_date (calyear (y' mod 400) m) m d).
  { destruct Hv as [Hm Hd]. split; [exact Hm|]. rewrite <- (days_in_month_period _ (y' / 400)).
    unfold calyear. replace (y' mod 400 + (if m <=? 2 then 1 else 0) + y' / 400 * 400) with y; [exact Hd|].
    unfold y' in *. lia. }
  specialize (E Hv'). unfold check_ymd in E. destruct Hv' as [Hm Hd].
  replace ((1 <=? m) && (m <=? 12) && (1 <=? d) && (d <=? days_in_month (calyear (y' mod 400) m) m)) with true in E by lia.
  apply andb_prop in E. destruct E as [E _].
  assert (Hr : 0 <= ymd_to_doe (y' mod 400) m d < 146097) by lia.
  assert (Hy' : -5800001 <= y' <= 5800000) by (unfold y'; destruct (m <=? 2); lia).
  rewrite set_date_eq.
  - rewrite Hc. eauto.
  - unfold day_range. change (2 ^ 31) with 2147483648. lia.
Qed.

Theorem date_total y m d : - 5800000 <= y <= 5800000 -> valid_date y m d ->
  exists n, getEpochDaysFromDate y m d = Some n.
Proof. intros Hy Hv. rewrite get_days_eq by assumption. eauto. Qed.

Theorem days_next days y m d w : day_range days -> day_range (days + 1) ->
  setDateFromEpochDays days = Some (y, m, d, w) ->
  exists w', setDateFromEpochDays (days + 1) = let '(y', m', d') := next_date y m d in Some (y', m', d', w').
Proof.
  intros H H'. rewrite !set_date_eq by assumption. pose proof (civil_next days) as Hn.
  destruct (civil days) as [[y0 m0] d0]. intros [= <- <- <- _]. rewrite Hn.
  destruct (next_date y0 m0 d0) as [[a b] c]. eauto.
Qed.

Lemma civil_epoch : civil 0 = (1970, 1, 1).
Proof. reflexivity. Qed.

(* The date of day n is the n-th successor of 1970-01-01. *)
Theorem days_date_after n : day_range (Z.of_nat n) -> exists w,
  setDateFromEpochDays (Z.of_nat n) = let '(y, m, d) := date_after n in Some (y, m, d, w).
Proof.
  intros H. rewrite set_date_eq by exact H.
  assert (E : civil (Z.of_nat n) = date_after n).
  { clear H. induction n as [|n IH]; [exact civil_epoch|].
    pose proof (civil_next (Z.of_nat n)) as Hn. rewrite IH in Hn.
    replace (Z.of_nat (S n)) with (Z.of_nat n + 1) by lia. unfold date_after in *. cbn [Nat.iter nat_rect].
    change (nat_rect _ ?a _ n) with (Nat.iter n (fun '(y, m, d) => next_date y m d) (1970, 1, 1)).
    destruct (Nat.iter n _ _) as [[y m] d]. exact Hn. }
  rewrite E. destruct (date_after n) as [[y m] d]. eauto.
Qed.

Theorem weekday_value days y m d w : day_range days ->
  setDateFromEpochDays days = Some (y, m, d, w) -> w = (days + 5) mod 7.
Proof.
  intros H. rewrite set_date_eq by exact H. destruct (civil days) as [[a b] c]. intros [= _ _ _ <-]. reflexivity.
Qed.

Lemma floorDiv_nonneg us : 0 <= us -> floorDiv us usPerDay = us / usPerDay.
Proof.
  intros H. unfold floorDiv. replace (us <? 0) with false by lia. apply Z.quot_div_nonneg; [lia|reflexivity].
Qed.

Lemma u32_id v : 0 <= v < 4294967296 -> u32 v = v.
Proof. intros H. unfold u32. apply Z.mod_small. exact H. Qed.
Lemma u64_id v : 0 <= v < 18446744073709551616 -> u64 v = v.
Proof. intros H. unfold u64. apply Z.mod_small. exact H. Qed.

Lemma from_us_eq us : 0 <= us < 2 ^ 63 ->
  fromEpochMicroseconds us =
  let days := us / 86400000000 in let r := us mod 86400000000 in
  let '(y, m, d) := civil days in
  Some {| year := y; month := m; day := d; weekday := (days + 5) mod 7;
          hour := r / 3600000000; minute := r / 60000000 mod 60; second := r / 1000000 mod 60; micros := r mod 1000000 |}.
Proof.
  intros H. change (2 ^ 63) with 9223372036854775808 in H. unfold fromEpochMicroseconds.
  rewrite floorDiv_nonneg by lia. unfold usPerDay. set (days := us / 86400000000).
  assert (Hd : 0 <= days <= 106751992) by (unfold days; lia).
  unfold fits_s32. change (2 ^ 31) with 2147483648. rewrite fits_in by lia. cbn [bind].
  replace (us - days * 86400000000) with (us mod 86400000000) by (unfold days; lia).
  cbv zeta. set (r := us mod 86400000000). assert (Hr : 0 <= r < 86400000000) by (apply Z.mod_pos_bound; lia).
  unfold fits_u64. change (2 ^ 64) with 18446744073709551616. rewrite fits_in by lia. cbn [bind].
  rewrite set_date_eq by (unfold day_range; change (2 ^ 31) with 2147483648; lia).
  destruct (civil days) as [[y m] d].
  unfold fits_u32. change (2 ^ 32) with 4294967296. rewrite (fits_in _ _ (r / 1000000)) by lia. cbn [bind].
  unfold fits_u8.
  rewrite (fits_in _ _ (r / 1000000 / 60 / 60)) by lia. cbn [bind].
  rewrite u32_id by lia. rewrite fits_in by lia. cbn [bind].
  rewrite u32_id by lia. rewrite fits_in by lia. cbn [bind].
  rewrite u64_id by lia. rewrite fits_in by lia. cbn [bind].
  f_equal. f_equal; lia.
Qed.

Definition fields_in_range (t : datetime) : Prop :=
  valid_date (year t) (month t) (day t) /\ 0 <= weekday t <= 6 /\ 0 <= hour t <= 23 /\ 0 <= minute t <= 59 /\
  0 <= second t <= 59 /\ 0 <= micros t <= 999999.

Theorem us_roundtrip us : 0 <= us < 2 ^ 63 -> exists t,
  fromEpochMicroseconds us = Some t /\ fields_in_range t /\ toEpochMicroseconds t = Some us.
Proof.
  intros H. rewrite from_us_eq by exact H. cbv zeta. change (2 ^ 63) with 9223372036854775808 in H.
  set (days := us / 86400000000). set (r := us mod 86400000000).
  pose proof (civil_valid days) as Hv.
  assert (Hd : 0 <= days <= 106751992) by (unfold days; lia).
  assert (Hr : 0 <= r < 86400000000) by (apply Z.mod_pos_bound; lia).
  pose proof (days_roundtrip days) as Hrt.
  assert (Hrange : day_range days) by (unfold day_range; change (2 ^ 31) with 2147483648; lia).
  rewrite set_date_eq in Hrt by exact Hrange.
  destruct (civil days) as [[y m] d]. specialize (Hrt y m d _ ltac:(lia) eq_refl).
  eexists. split; [reflexivity|]. split.
  - unfold fields_in_range. cbn. split; [exact Hv|]. lia.
  - unfold toEpochMicroseconds. cbn [year month day hour minute second micros]. rewrite Hrt. cbn [bind]. cbv zeta.
    f_equal. unfold usPerDay. unfold days, r. lia.
Qed.

Theorem us_negative_fails us : - 2 ^ 63 <= us < 0 -> fromEpochMicroseconds us = None.
Proof.
  intros H. unfold fromEpochMicroseconds. destruct (fits_s32 (floorDiv us usPerDay)) as [days|] eqn:E; [|reflexivity].
  apply fits_inv in E. destruct E as [-> _]. cbn [bind].
  assert (Hneg : us - floorDiv us usPerDay * usPerDay < 0).
  { unfold floorDiv. replace (us <? 0) with true by lia. unfold usPerDay.
    set (x := us + (86400000000 - 1)). destruct (Z.leb_spec 0 x) as [Hx|Hx].
    - rewrite Z.quot_div_nonneg by lia. unfold x in *. lia.
    - replace x with (- (- x)) by lia. rewrite Z.quot_opp_l by lia. rewrite Z.quot_div_nonneg by lia. unfold x in *. lia. }
  unfold fits_u64, fits. replace (0 <=? us - floorDiv us usPerDay * usPerDay) with false by lia. reflexivity.
Qed.

Lemma before_year : forallb (fun k => 2 <? fst (md k)) (zseq 306) = true.
Proof. vm_compute. reflexivity. Qed.
Lemma before_epoch n : - 135080 <= n < 0 -> fst (fst (civil n)) <= 1969.
Proof.
  intros H. unfold civil. replace ((n + 719468) / 146097) with 4 by lia.
  assert (Hd : 0 <= (n + 719468) mod 146097 < 135080) by lia. set (doe := (n + 719468) mod 146097) in *.
  destruct (yr_exists doe ltac:(lia)) as (y & Hy & Hs). destruct (doe_split doe y ltac:(lia) Hy Hs) as [-> Hdoy].
  destruct (md (doe - start y)) as [m d] eqn:Em. cbn [fst]. unfold calyear.
  assert (y <= 369) by (unfold start in Hs; lia).
  destruct (Z.eq_dec y 369) as [->|]; [|destruct (m <=? 2); lia].
  pose proof before_year as E. rewrite forallb_forall in E. change (start 369) with 134774 in *.
  specialize (E (doe - 134774) (zseq_in 306 (doe - 134774) ltac:(lia))). cbv beta in E. rewrite Em in E. cbn [fst] in E.
  replace (m <=? 2) with false by lia. lia.
Qed.

(* Calendar time to timestamp and back, from 1970 on. *)
Theorem datetime_roundtrip t : 1970 <= year t <= 292000 -> fields_in_range t ->
  exists us, toEpochMicroseconds t = Some us /\ 0 <= us < 2 ^ 63 /\
  exists t', fromEpochMicroseconds us = Some t' /\ (year t', month t', day t') = (year t, month t, day t) /\
    (hour t', minute t', second t', micros t') = (hour t, minute t, second t, micros t).
Proof.
  intros Hy (Hv & _ & Hh & Hm & Hs & Hu).
  destruct (date_total (year t) (month t) (day t) ltac:(lia) Hv) as [n Hn].
  unfold toEpochMicroseconds. rewrite Hn. cbn [bind]. cbv zeta.
  pose proof Hn as Hn2. rewrite get_days_eq in Hn2 by (lia || assumption). injection Hn2 as En.
  pose proof (civil_of_date (year t) (month t) (day t) Hv) as Hc. cbv zeta in Hc. rewrite En in Hc.
  set (y' := year t - (if month t <=? 2 then 1 else 0)) in *.
  assert (Hv' : valid_date (calyear (y' mod 400) (month t)) (month t) (day t)).
  { destruct Hv as [Hm' Hd']. split; [exact Hm'|]. rewrite <- (days_in_month_period _ (y' / 400)).
    unfold calyear. replace (y' mod 400 + (if month t <=? 2 then 1 else 0) + y' / 400 * 400) with (year t); [exact Hd'|].
    unfold y' in *. lia. }
  pose proof (check_ymd_true (y' mod 400) (month t) (day t) ltac:(apply Z.mod_pos_bound; lia) Hv') as E.
  unfold check_ymd in E. destruct Hv' as [Hm1 Hd1].
  replace ((1 <=? month t) && (month t <=? 12) && (1 <=? day t) && (day t <=? days_in_month (calyear (y' mod 400) (month t)) (month t))) with true in E by lia.
  apply andb_prop in E. destruct E as [E _].
  assert (Hr : 0 <= ymd_to_doe (y' mod 400) (month t) (day t) < 146097) by lia.
  assert (Hy' : 1969 <= y' <= 292000) by (unfold y'; destruct (month t <=? 2); lia).
  (* days are not negative: dates are monotone *)
  assert (Hn0 : 0 <= n <= 106700000).
  { split; [|lia]. destruct (Z.leb_spec 0 n) as [H0|H0]; [exact H0|exfalso].
    pose proof (before_epoch n ltac:(lia)) as Hb.
    rewrite Hc in Hb. cbn in Hb. lia. }
  eexists. split; [reflexivity|]. unfold usPerDay.
  set (r := (((hour t * 60 + minute t) * 60 + second t) * 1000000) + micros t).
  assert (Hrr : 0 <= r < 86400000000) by (unfold r; lia).
  replace (n * 86400000000 + ((hour t * 60 + minute t) * 60 + second t) * 1000000 + micros t) with (r + n * 86400000000) by (unfold r; lia).
  split; [change (2 ^ 63) with 9223372036854775808; lia|].
  rewrite from_us_eq by (change (2 ^ 63) with 9223372036854775808; lia). cbv zeta.
  rewrite Z_div_plus_full by lia. rewrite Z_mod_plus_full. rewrite (Z.div_small r), (Z.mod_small r) by lia.
  rewrite Z.add_0_l, Hc. eexists. split; [reflexivity|]. cbn. split; [reflexivity|]. unfold r. 
  f_equal; [f_equal; [f_equal|]|]; lia.
Qed.
