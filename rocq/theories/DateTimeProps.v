(* Properties C11 (calendar), C12 (timestamps), C13 (weekday). *)
From Verif Require Import DateTimeSpec DateTimeModel DateTimeProofs.

(** C11. Every day number for which the shifted value fits an s32 converts to a valid date. *)
Theorem C11_days_total : forall days, - 2 ^ 31 <= days /\ days + 719468 < 2 ^ 31 -> exists y m d w,
  setDateFromEpochDays days = Some (y, m, d, w) /\ valid_date y m d.
Proof. exact days_total. Qed.
Print Assumptions C11_days_total.
Theorem C11_days_roundtrip : forall days y m d w, - 2000000000 <= days <= 2000000000 ->
  setDateFromEpochDays days = Some (y, m, d, w) -> getEpochDaysFromDate y m d = Some days.
Proof. exact days_roundtrip. Qed.
Print Assumptions C11_days_roundtrip.
Theorem C11_date_total : forall y m d, - 5800000 <= y <= 5800000 -> valid_date y m d ->
  exists n, getEpochDaysFromDate y m d = Some n.
Proof. exact date_total. Qed.
Print Assumptions C11_date_total.
Theorem C11_date_roundtrip : forall y m d n, - 5800000 <= y <= 5800000 -> valid_date y m d ->
  getEpochDaysFromDate y m d = Some n -> exists w, setDateFromEpochDays n = Some (y, m, d, w).
Proof. exact date_roundtrip. Qed.
Print Assumptions C11_date_roundtrip.
Theorem C11_days_consecutive : forall days y m d w,
  - 2 ^ 31 <= days /\ days + 719468 < 2 ^ 31 -> - 2 ^ 31 <= days + 1 /\ days + 1 + 719468 < 2 ^ 31 ->
  setDateFromEpochDays days = Some (y, m, d, w) ->
  exists w', setDateFromEpochDays (days + 1) = let '(y', m', d') := next_date y m d in Some (y', m', d', w').
Proof. exact days_next. Qed.
Print Assumptions C11_days_consecutive.
(** Anchored at the epoch: day [n] is the [n]-th successor of 1970-01-01. *)
Theorem C11_days_after_epoch : forall n, - 2 ^ 31 <= Z.of_nat n /\ Z.of_nat n + 719468 < 2 ^ 31 -> exists w,
  setDateFromEpochDays (Z.of_nat n) = let '(y, m, d) := date_after n in Some (y, m, d, w).
Proof. exact days_date_after. Qed.
Print Assumptions C11_days_after_epoch.
Example C11_ex : setDateFromEpochDays (-1) = Some (1969, 12, 31, 4) /\
  setDateFromEpochDays 11016 = Some (2000, 2, 29, 3) /\ getEpochDaysFromDate 2000 2 29 = Some 11016 /\
  setDateFromEpochDays (-719529) = Some (-1, 12, 31, 6) /\ valid_date 2000 2 29.
Proof. repeat split; vm_compute; congruence. Qed.

(** C12, full statement: for timestamps before as well as after 1970. Proved from 1970 on; every earlier
    timestamp fails an assertion. *)
Theorem C12_us_roundtrip_partial : forall us, 0 <= us < 2 ^ 63 -> exists t,
  fromEpochMicroseconds us = Some t /\ fields_in_range t /\ toEpochMicroseconds t = Some us.
Proof. exact us_roundtrip. Qed.
Print Assumptions C12_us_roundtrip_partial.
Theorem C12_datetime_roundtrip_partial : forall t, 1970 <= year t <= 292000 -> fields_in_range t ->
  exists us, toEpochMicroseconds t = Some us /\ 0 <= us < 2 ^ 63 /\
  exists t', fromEpochMicroseconds us = Some t' /\ (year t', month t', day t') = (year t, month t, day t) /\
    (hour t', minute t', second t', micros t') = (hour t, minute t, second t, micros t).
Proof. exact datetime_roundtrip. Qed.
Print Assumptions C12_datetime_roundtrip_partial.
Example C12_ex : fromEpochMicroseconds 951782400000001 =
  Some {| year := 2000; month := 2; day := 29; weekday := 3; hour := 0; minute := 0; second := 0; micros := 1 |}.
Proof. vm_compute. reflexivity. Qed.
Theorem C12_before_1970_refuted : forall us, - 2 ^ 63 <= us < 0 -> fromEpochMicroseconds us = None.
Proof. exact us_negative_fails. Qed.
Print Assumptions C12_before_1970_refuted.

(** C13, full statement: the weekday is ((days + 4) mod 7). Proved: it is always one too far; it does
    advance by one modulo seven each day. *)
Theorem C13_weekday_value_partial : forall days y m d w, - 2 ^ 31 <= days /\ days + 719468 < 2 ^ 31 ->
  setDateFromEpochDays days = Some (y, m, d, w) -> w = (days + 5) mod 7.
Proof. exact weekday_value. Qed.
Print Assumptions C13_weekday_value_partial.
(** 1970-01-01, a Thursday (4), is reported as Friday (5). *)
Theorem C13_epoch_weekday_refuted : setDateFromEpochDays 0 = Some (1970, 1, 1, 5).
Proof. vm_compute. reflexivity. Qed.
Print Assumptions C13_epoch_weekday_refuted.
