(* Properties C35 (scanning to a terminator) and C36 (identifiers). *)
From Verif Require Import ScanSpec ScanModel ScanProofs.

(** C35, full statement: for every input and every legal terminator, the consumed text is the shortest
    prefix ending in the terminator. False as stated; see [C35_restart_missed_refuted]. Proved whenever
    no partial match of the terminator is directly followed by its first byte. *)
Theorem C35_scan_first_occurrence_partial : forall ins special b rest,
  no_restart special ins -> scanSpecial ins special = Some (b, rest) ->
  if b then exists p, ins = p ++ rest /\ first_occurrence special ins p
  else rest = [] /\ ~ occurs special ins.
Proof. exact scanSpecial_spec. Qed.
Print Assumptions C35_scan_first_occurrence_partial.
(* "/* a */b" with terminator "*/" *)
Example C35_ex : scanSpecial [47;42;32;97;32;42;47;98] [42;47] = Some (true, [98]).
Proof. reflexivity. Qed.
Example C35_ex_guard : no_restart [42;47] [97;42;47;98].
Proof.
  intros a k b Hk. cbn in Hk. assert (k = 1%nat) by lia. subst k. cbn. intros E.
  destruct a as [|? [|? [|? [|? ?]]]]; cbn in E; try congruence.
  injection E. intros. destruct l; discriminate.
Qed.

(** Without the guard: success always means the terminator was just consumed. *)
Theorem C35_scan_sound : forall ins special b rest,
  scanSpecial ins special = Some (b, rest) ->
  if b then exists a, ins = a ++ special ++ rest else rest = [].
Proof. exact scanSpecial_sound. Qed.
Print Assumptions C35_scan_sound.

(** The assertions hold exactly for nonempty terminators whose first byte does not reoccur. *)
Theorem C35_scan_defined : forall ins special,
  scanSpecial ins special <> None <-> exists c0 tl, special = c0 :: tl /\ ~ In c0 tl.
Proof. exact scanSpecial_defined. Qed.
Print Assumptions C35_scan_defined.

(** "**/" contains the legal terminator "*/", yet the scan reports failure. *)
Theorem C35_restart_missed_refuted :
  occurs [42;47] [42;42;47;97] /\ scanSpecial [42;42;47;97] [42;47] = Some (false, []).
Proof. split; [exists [42], [97]; reflexivity|reflexivity]. Qed.
Print Assumptions C35_restart_missed_refuted.

(** Line reading uses a one-byte terminator, so it is exact on every input. *)
Theorem C35_line_exact : forall ins, exists b rest, parse_line ins = Some (b, rest) /\
  (b = true <-> In 10 ins) /\
  (b = true -> exists p, ins = p ++ 10 :: rest /\ ~ In 10 p) /\ (b = false -> rest = []).
Proof. exact parse_line_spec. Qed.
Print Assumptions C35_line_exact.

Theorem C35_skip_whitespace : forall ins, bytes_ok ins -> exists p,
  ins = p ++ scanUsingMask ins WhitespaceMask false /\
  Forall (fun c => c = 32 \/ c = 9 \/ c = 10 \/ c = 13) p /\
  match scanUsingMask ins WhitespaceMask false with
  | [] => True | c :: _ => c <> 32 /\ c <> 9 /\ c <> 10 /\ c <> 13 end.
Proof. exact skip_whitespace_spec. Qed.
Print Assumptions C35_skip_whitespace.
Example C35_ws_ex : scanUsingMask [32;9;13;10;97;32] WhitespaceMask false = [97;32].
Proof. reflexivity. Qed.

(** C36, full statement: success iff the consumed prefix is a (nonempty) identifier. Proved: what is
    consumed is always the longest identifier prefix; the success flag is right when no flag is given,
    and with a flag it is [true] even if nothing was consumed ([C36_empty_accepted_refuted]). *)
Theorem C36_identifier_partial : forall ins flags, bytes_ok ins ->
  let '(ok, rest) := parse_identifier ins flags in
  exists w, ins = w ++ rest /\
  ((ident flags w /\ ok = true /\ match rest with [] => True | c :: _ => ~ id_continue flags c end) \/
   (w = [] /\ match rest with [] => True | c :: _ => ~ id_start flags c end /\
    (ok = true <-> Z.testbit flags 0 = true \/ Z.testbit flags 1 = true))).
Proof. exact identifier_spec. Qed.
Print Assumptions C36_identifier_partial.
(* "a-1$ x" *)
Example C36_ex1 : parse_identifier [97;45;49;36;32;120] 3 = (true, [32;120]).
Proof. reflexivity. Qed.
Example C36_ex2 : parse_identifier [49;97] 0 = (false, [49;97]).
Proof. reflexivity. Qed.

(** With the dash flag, the digit "1" is accepted as an empty identifier. *)
Theorem C36_empty_accepted_refuted :
  parse_identifier [49] WithDash = (true, [49]) /\ ~ ident WithDash [] /\ ~ id_start WithDash 49.
Proof.
  split; [reflexivity|]. split; [intros []|]. intros H. unfold id_start in H. lia.
Qed.
Print Assumptions C36_empty_accepted_refuted.
