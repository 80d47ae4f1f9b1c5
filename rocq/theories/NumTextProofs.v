From Verif Require Import NumTextSpec NumTextModel StringViewProofs.
From Coq Require Import ZifyBool ZifyNat.
Ltac Zify.zify_post_hook ::= Z.div_mod_to_equations.

(** ** Digits *)
Lemma digitValue_char c d : char_digit c d -> digitValue c = d.
Proof.
  unfold char_digit, digitValue. intros H.
  destruct ((48 <=? c) && (c <=? 57)) eqn:E1; [lia|].
  destruct ((65 <=? c) && (c <=? 90)) eqn:E2; [lia|].
  destruct ((97 <=? c) && (c <=? 122)) eqn:E3; lia.
Qed.

Lemma char_digitValue c : digitValue c < 36 -> char_digit c (digitValue c).
Proof.
  unfold char_digit, digitValue.
  destruct ((48 <=? c) && (c <=? 57)) eqn:E1; [lia|].
  destruct ((65 <=? c) && (c <=? 90)) eqn:E2; [lia|].
  destruct ((97 <=? c) && (c <=? 122)) eqn:E3; lia.
Qed.

Lemma digitValue_nonneg c : 0 <= digitValue c.
Proof.
  unfold digitValue.
  destruct ((48 <=? c) && (c <=? 57)) eqn:E1; [lia|].
  destruct ((65 <=? c) && (c <=? 90)) eqn:E2; [lia|].
  destruct ((97 <=? c) && (c <=? 122)) eqn:E3; lia.
Qed.

Lemma toDigit_char d cap : 0 <= d < 36 -> char_digit (toDigit d cap) d.
Proof.
  intros Hd. unfold toDigit, char_digit. replace (d <=? 35) with true by lia.
  destruct (Z.ltb_spec d 10); [lia|]. destruct cap; lia.
Qed.

Lemma toDigit_nonzero d cap : 0 < d < 36 -> toDigit d cap <> 48.
Proof.
  intros Hd. unfold toDigit. replace (d <=? 35) with true by lia.
  destruct (Z.ltb_spec d 10); [lia|]. destruct cap; lia.
Qed.

Lemma stops_digitValue radix c : 1 <= radix <= 36 -> not_digit radix c -> radix <= digitValue c.
Proof.
  intros Hr H. destruct (Z.lt_ge_cases (digitValue c) 36) as [Hc|Hc]; [|lia].
  apply H, char_digitValue, Hc.
Qed.

Lemma digitValue_stops radix c : radix <= digitValue c -> not_digit radix c.
Proof. intros H d Hd. apply digitValue_char in Hd. lia. Qed.

(** ** Printing *)
Lemma digit_loop_spec fuel v radix cap buf : 2 <= radix <= 36 -> 0 <= v < 2 ^ Z.of_nat fuel -> v < 2 ^ 64 ->
  exists l, digit_loop fuel v radix cap buf = Some (l ++ buf) /\ denotes radix l v /\
    (v = 0 -> l = []) /\ (v <> 0 -> exists c r, l = c :: r /\ c <> 48).
Proof.
  intros Hr. revert v buf. induction fuel as [|f IH]; intros v buf Hv H64; cbn [digit_loop].
  - replace v with 0 by (cbn in Hv; lia). cbn. exists []. repeat split; [constructor|lia].
  - destruct (Z.eqb_spec v 0) as [->|Hne].
    + exists []. repeat split; [constructor|lia].
    + assert (Hq : 0 <= v / radix) by (apply Z.div_pos; lia).
      assert (Hq2 : v / radix < 2 ^ Z.of_nat f).
      { apply Z.div_lt_upper_bound; [lia|]. rewrite Nat2Z.inj_succ, Z.pow_succ_r in Hv by lia.
        pose proof (Z.pow_pos_nonneg 2 (Z.of_nat f) ltac:(lia) ltac:(lia)). nia. }
      assert (Hqv : v / radix <= v) by (apply Z.div_le_upper_bound; nia).
      assert (Hd : u32 (u64 (v - u64 (v / radix * radix))) = v mod radix).
      { pose proof (Z.mul_div_le v radix ltac:(lia)).
        unfold u32, u64. rewrite (Z.mod_small (v / radix * radix)) by nia.
        rewrite (Z.mod_small (v - _)) by nia.
        replace (v - v / radix * radix) with (v mod radix) by (rewrite Z.mod_eq by lia; lia).
        pose proof (Z.mod_pos_bound v radix ltac:(lia)). apply Z.mod_small. lia. }
      rewrite Hd. pose proof (Z.mod_pos_bound v radix ltac:(lia)) as Hm.
      destruct (IH (v / radix) (toDigit (v mod radix) cap :: buf)) as (l & E & D & H0 & H1); [lia|lia|].
      exists (l ++ [toDigit (v mod radix) cap]). split.
      { rewrite E, <- app_assoc. reflexivity. }
      split.
      { replace v with (v / radix * radix + v mod radix) at 2 by (pose proof (Z.div_mod v radix ltac:(lia)); lia).
        apply den_snoc; [exact D|apply toDigit_char; lia|lia]. }
      split; [lia|]. intros _. destruct (Z.eq_dec (v / radix) 0) as [Hz|Hnz].
      * rewrite (H0 Hz). cbn. eexists _, []. split; [reflexivity|]. apply toDigit_nonzero.
        assert (v mod radix = v); [|lia]. pose proof (Z.div_mod v radix ltac:(lia)). lia.
      * destruct (H1 Hnz) as (c & r & -> & Hc). cbn. eexists _, _. split; [reflexivity|exact Hc].
Qed.

Lemma print_u64_canonical v radix cap : 0 <= v < 2 ^ 64 -> 2 <= radix <= 36 ->
  exists l, print_u64 v radix cap = Some l /\ canonical radix l v.
Proof.
  intros Hv Hr. unfold print_u64. replace (2 <=? radix) with true by lia.
  destruct (Z.eqb_spec v 0) as [->|Hne].
  - exists [48]. split; [reflexivity|]. split; [|split; [auto|lia]].
    change 0 with (0 * radix + 0). apply (den_snoc radix [] 0 48 0); [constructor| |lia].
    left. lia.
  - destruct (digit_loop_spec 64 v radix cap []) as (l & E & D & H0 & H1); [lia|exact Hv|lia|].
    rewrite app_nil_r in E. exists l. split; [exact E|]. split; [exact D|]. split; [lia|exact H1].
Qed.

Lemma print_s64_canonical v radix cap : - 2 ^ 63 < v < 2 ^ 63 -> 2 <= radix <= 36 ->
  exists l, canonical radix l (Z.abs v) /\
    print_s64 v radix cap = Some (if v <? 0 then 45 :: l else l).
Proof.
  intros Hv Hr. unfold print_s64.
  destruct (Z.leb_spec 0 v).
  - destruct (print_u64_canonical (u64 v) radix cap) as (l & E & C); [unfold u64; lia|exact Hr|].
    unfold u64 in *. rewrite Z.mod_small in * by lia.
    exists l. replace (Z.abs v) with v by lia. replace (v <? 0) with false by lia. auto.
  - replace (v =? - 2 ^ 63) with false by lia.
    destruct (print_u64_canonical (u64 (- v)) radix cap) as (l & E & C); [unfold u64; lia|exact Hr|].
    unfold u64 in *. rewrite Z.mod_small in * by lia. rewrite E.
    exists l. replace (Z.abs v) with (- v) by lia. replace (v <? 0) with true by lia. auto.
Qed.

(** ** Parsing *)
Lemma denotes_nonneg radix l n : 1 <= radix -> denotes radix l n -> 0 <= n.
Proof.
  intros Hr. induction 1 as [|l n c d D IH Hc Hd]; [lia|].
  assert (0 <= d) by (unfold char_digit in Hc; lia). nia.
Qed.

Lemma u64_loop_app ins rest radix r any ov l : ins = l ++ rest ->
  Forall (fun c => digitValue c < radix) l ->
  u64_loop ins radix r any ov =
  let '(r', _, any', ov') := u64_loop l radix r any ov in u64_loop rest radix r' any' ov'.
Proof.
  intros -> HF. revert r any ov. induction HF as [|c l Hc HF IH]; intros r any ov.
  - reflexivity.
  - cbn [app u64_loop]. destruct (Z.leb_spec radix (digitValue c)); [lia|]. apply IH.
Qed.

Lemma denotes_digits radix l n : denotes radix l n -> Forall (fun c => digitValue c < radix) l.
Proof.
  induction 1 as [|l n c d D IH Hc Hd]; [constructor|].
  apply Forall_app. split; [exact IH|]. constructor; [|constructor].
  rewrite (digitValue_char c d Hc). exact Hd.
Qed.

Lemma u64_loop_denotes radix l n : 1 <= radix <= 36 -> denotes radix l n ->
  exists r, u64_loop l radix 0 false false =
    (r, [], match l with [] => false | _ => true end, 2 ^ 64 <=? n) /\ (n < 2 ^ 64 -> r = n) /\ 0 <= r < 2 ^ 64.
Proof.
  intros Hr. induction 1 as [|l n c d D IH Hc Hd].
  - exists 0. repeat split; reflexivity.
  - destruct IH as (r & E & Hrn & Hr64).
    pose proof (denotes_nonneg radix l n ltac:(lia) D) as Hn.
    rewrite (u64_loop_app (l ++ [c]) [c] radix 0 false false l eq_refl (denotes_digits radix l n D)), E.
    cbn [u64_loop]. rewrite (digitValue_char c d Hc).
    assert (Hd0 : 0 <= d) by (unfold char_digit in Hc; lia).
    destruct (Z.leb_spec radix d); [lia|].
    eexists. split; [|split; [|unfold u64; apply Z.mod_pos_bound; lia]].
    + f_equal; [f_equal; destruct l; reflexivity|].
      destruct (Z.leb_spec (2 ^ 64) n) as [Hge|Hlt]; cbn [orb].
      * symmetry. apply Z.leb_le. nia.
      * rewrite (Hrn Hlt).
        destruct (Z.ltb_spec 0x71c71c71c71c71b n) as [Ht|Ht]; cbn [andb].
        -- apply eq_true_iff_eq. rewrite Z.ltb_lt, Z.leb_le.
           change (2 ^ 64 - 1) with 18446744073709551615. change (2 ^ 64) with 18446744073709551616.
           split; intros HH.
           ++ pose proof (Z.mul_succ_div_gt (18446744073709551615 - d) radix ltac:(lia)). nia.
           ++ apply Z.div_lt_upper_bound; [lia|]. nia.
        -- symmetry. apply Z.leb_gt. change (2 ^ 64) with 18446744073709551616. nia.
    + intros Hb. assert (Hlt : n < 2 ^ 64) by nia. rewrite (Hrn Hlt). unfold u64.
      apply Z.mod_small. nia.
Qed.

Lemma parse_u64_digits radix l n rest : 1 <= radix <= 36 -> denotes radix l n -> l <> [] -> stops radix rest ->
  parse_u64 (l ++ rest) radix =
  Some (if n <? 2 ^ 64 then {| pval := n; prest := rest; perr := false |}
        else {| pval := 0; prest := rest; perr := true |}).
Proof.
  intros Hr D Hl Hs. unfold parse_u64. replace ((0 <? radix) && (radix <=? 36)) with true by lia.
  rewrite (u64_loop_app (l ++ rest) rest radix 0 false false l eq_refl (denotes_digits radix l n D)).
  destruct (u64_loop_denotes radix l n Hr D) as (r & E & Hrn & Hr64). rewrite E.
  assert (Es : forall any ov, u64_loop rest radix r any ov = (r, rest, any, ov)).
  { intros any ov. destruct rest as [|c rest]; [reflexivity|]. cbn [u64_loop].
    cbn in Hs. apply stops_digitValue in Hs; [|exact Hr]. destruct (Z.leb_spec radix (digitValue c)); [reflexivity|lia]. }
  rewrite Es. destruct l as [|c l]; [congruence|]. cbn [negb orb].
  destruct (Z.leb_spec (2 ^ 64) n); destruct (Z.ltb_spec n (2 ^ 64)); try lia; [reflexivity|].
  rewrite Hrn by assumption. reflexivity.
Qed.

Lemma parse_u64_nodigits radix ins : 1 <= radix <= 36 -> stops radix ins ->
  parse_u64 ins radix = Some {| pval := 0; prest := ins; perr := true |}.
Proof.
  intros Hr Hs. unfold parse_u64. replace ((0 <? radix) && (radix <=? 36)) with true by lia.
  destruct ins as [|c ins]; [reflexivity|]. cbn [u64_loop].
  cbn in Hs. apply stops_digitValue in Hs; [|exact Hr]. destruct (Z.leb_spec radix (digitValue c)); [reflexivity|lia].
Qed.

Lemma split_digits radix ins : 1 <= radix <= 36 ->
  exists l rest n, ins = l ++ rest /\ denotes radix l n /\ stops radix rest.
Proof.
  intros Hr.
  assert (H : forall ins pre n, denotes radix pre n ->
    exists l rest m, ins = l ++ rest /\ denotes radix (pre ++ l) m /\ stops radix rest).
  { clear ins. induction ins as [|c ins IH]; intros pre n D.
    - exists [], [], n. split; [reflexivity|split; [rewrite app_nil_r; exact D|exact I]].
    - destruct (Z.lt_ge_cases (digitValue c) radix) as [Hc|Hc].
      + destruct (IH (pre ++ [c]) (n * radix + digitValue c)) as (l & rest & m & -> & D' & Hs).
        { apply den_snoc; [exact D| |exact Hc]. apply char_digitValue. lia. }
        exists (c :: l), rest, m. rewrite <- app_assoc in D'. split; [reflexivity|split; assumption].
      + exists [], (c :: ins), n. split; [reflexivity|split; [rewrite app_nil_r; exact D|]].
        apply digitValue_stops. lia. }
  destruct (H ins [] 0 (den_nil radix)) as (l & rest & m & E & D & Hs). exists l, rest, m. auto.
Qed.

(** ** Signed *)
Lemma s64_small x : 0 <= x < 2 ^ 64 -> s64 x = if x <? 2 ^ 63 then x else x - 2 ^ 64.
Proof. intros H. unfold s64, to_signed. cbv zeta. change (64 - 1) with 63. rewrite Z.mod_small by lia. reflexivity. Qed.

Definition strip_minus (neg : bool) (l : list Z) : list Z := if neg then 45 :: l else l.

Lemma parse_s64_digits radix (neg : bool) l n rest : 1 <= radix <= 36 -> denotes radix l n -> l <> [] ->
  stops radix rest -> ~ (neg = true /\ n = 2 ^ 63) ->
  exists p, parse_s64 ((if neg then [45] else []) ++ l ++ rest) radix = Some p /\ prest p = rest /\
    (perr p = false <-> - 2 ^ 63 <= (if neg then - n else n) < 2 ^ 63) /\
    (perr p = false -> pval p = if neg then - n else n).
Proof.
  intros Hr D Hl Hs Hub. pose proof (denotes_nonneg radix l n ltac:(lia) D) as Hn.
  pose proof (parse_u64_digits radix l n rest Hr D Hl Hs) as P.
  destruct neg; cbn [app].
  - unfold parse_s64. rewrite Z.eqb_refl. rewrite P.
    destruct (Z.ltb_spec n (2 ^ 64)) as [H|H]; cbn [pval prest perr orb].
    + rewrite s64_small by lia. destruct (Z.ltb_spec n (2 ^ 63)).
      * replace (n =? - 2 ^ 63) with false by lia.
        eexists. split; [reflexivity|]. cbn [prest perr pval].
        replace (0 <? - n) with false by lia. repeat split; lia.
      * replace (n - 2 ^ 64 =? - 2 ^ 63) with false by lia.
        eexists. split; [reflexivity|]. cbn [prest perr pval].
        replace (0 <? - (n - 2 ^ 64)) with true by lia. repeat split; try lia; discriminate.
    + eexists. split; [reflexivity|]. cbn [prest perr pval]. repeat split; try lia; discriminate.
  - unfold parse_s64.
    assert (Hm : match l ++ rest with [] => (false, []) | c :: r => if c =? 45 then (true, r) else (false, l ++ rest) end
                 = (false, l ++ rest)).
    { destruct l as [|c l]; [congruence|]. cbn [app].
      assert (Hc : c <> 45).
      { apply denotes_digits in D. inversion D as [|? ? Hd _]; subst. intros ->.
        change (digitValue 45) with 255 in Hd. lia. }
      destruct (Z.eqb_spec c 45); [contradiction|reflexivity]. }
    rewrite Hm, P.
    destruct (Z.ltb_spec n (2 ^ 64)) as [H|H]; cbn [pval prest perr orb].
    + rewrite s64_small by lia. destruct (Z.ltb_spec n (2 ^ 63)).
      * eexists. split; [reflexivity|]. cbn [prest perr pval].
        replace (n <? 0) with false by lia. repeat split; lia.
      * eexists. split; [reflexivity|]. cbn [prest perr pval].
        replace (n - 2 ^ 64 <? 0) with true by lia. repeat split; try lia; discriminate.
    + eexists. split; [reflexivity|]. cbn [prest perr pval]. repeat split; try lia; discriminate.
Qed.

(** ** Narrow types *)
Definition fits (lo hi : Z) (conv : Z -> Z) := forall x, conv x = x <-> lo <= x <= hi.
Lemma fits_u n : 0 < n -> fits 0 (2 ^ n - 1) (fun x => x mod 2 ^ n).
Proof.
  intros Hn x. pose proof (Z.pow_pos_nonneg 2 n ltac:(lia) ltac:(lia)). split.
  - intros H1. pose proof (Z.mod_pos_bound x (2 ^ n) ltac:(lia)). lia.
  - intros H1. apply Z.mod_small. lia.
Qed.
Lemma fits_s n : 0 < n -> fits (- 2 ^ (n - 1)) (2 ^ (n - 1) - 1) (to_signed n).
Proof.
  intros Hn x. pose proof (Z.pow_pos_nonneg 2 (n - 1) ltac:(lia) ltac:(lia)).
  assert (E : 2 ^ n = 2 * 2 ^ (n - 1)) by (rewrite <- Z.pow_succ_r by lia; f_equal; lia).
  unfold to_signed. cbv zeta. rewrite E. set (h := 2 ^ (n - 1)) in *. split.
  - intros H1. pose proof (Z.mod_pos_bound x (2 * h) ltac:(lia)).
    destruct (Z.ltb_spec (x mod (2 * h)) h); lia.
  - intros H1. destruct (Z.lt_ge_cases x 0).
    + replace (x mod (2 * h)) with (x + 2 * h).
      * destruct (Z.ltb_spec (x + 2 * h) h); lia.
      * apply Z.mod_unique with (-1); lia.
    + rewrite Z.mod_small by lia. destruct (Z.ltb_spec x h); lia.
Qed.

Lemma narrow_unsigned conv hi radix l n rest : fits 0 hi conv -> hi < 2 ^ 64 ->
  1 <= radix <= 36 -> denotes radix l n -> l <> [] -> stops radix rest ->
  narrow conv (parse_u64 (l ++ rest) radix) =
  Some (if n <=? hi then {| pval := n; prest := rest; perr := false |}
        else {| pval := 0; prest := rest; perr := true |}).
Proof.
  intros Hf Hhi Hr D Hl Hs. rewrite (parse_u64_digits radix l n rest Hr D Hl Hs).
  pose proof (denotes_nonneg radix l n ltac:(lia) D) as Hn.
  cbn [narrow]. destruct (Z.ltb_spec n (2 ^ 64)); cbn [pval prest perr].
  - destruct (Z.eqb_spec (conv n) n) as [E|E].
    + pose proof (proj1 (Hf n) E). replace (n <=? hi) with true by lia. rewrite E. reflexivity.
    + replace (n <=? hi) with false; [reflexivity|]. symmetry. apply Z.leb_gt.
      destruct (Z.lt_ge_cases hi n) as [|Hle]; [assumption|]. destruct E. apply (proj2 (Hf n)). lia.
  - replace (n <=? hi) with false by lia.
    destruct (Z.eqb_spec (conv 0) 0) as [E|E]; [rewrite E|]; reflexivity.
Qed.

Lemma narrow_signed conv lo hi radix (neg : bool) l n rest : fits lo hi conv ->
  - 2 ^ 63 <= lo -> hi < 2 ^ 63 -> 1 <= radix <= 36 -> denotes radix l n -> l <> [] -> stops radix rest ->
  ~ (neg = true /\ n = 2 ^ 63) ->
  exists p, narrow conv (parse_s64 ((if neg then [45] else []) ++ l ++ rest) radix) = Some p /\ prest p = rest /\
    (perr p = false <-> lo <= (if neg then - n else n) <= hi) /\
    (perr p = false -> pval p = if neg then - n else n).
Proof.
  intros Hf Hlo Hhi Hr D Hl Hs Hub.
  destruct (parse_s64_digits radix neg l n rest Hr D Hl Hs Hub) as (p & E & H1 & H2 & H3).
  rewrite E. cbn [narrow]. set (v := if neg then - n else n) in *.
  destruct (Z.eqb_spec (conv (pval p)) (pval p)) as [Ec|Ec].
  - eexists. split; [reflexivity|]. cbn [prest perr pval]. split; [exact H1|].
    pose proof (proj1 (Hf _) Ec) as Hv. split.
    + split; [intros Hp; rewrite (H3 Hp) in Hv; exact Hv|]. intros Hv'. apply H2. lia.
    + intros Hp. rewrite Ec. apply H3, Hp.
  - eexists. split; [reflexivity|]. cbn [prest perr pval]. split; [exact H1|].
    split; [|discriminate]. split; [discriminate|]. intros Hv. exfalso. apply Ec.
    rewrite H3 by (apply H2; lia). apply (proj2 (Hf v)). exact Hv.
Qed.

(** ** Round trips *)
Lemma canonical_nonempty radix l n : canonical radix l n -> l <> [].
Proof.
  intros (D & H0 & H1) ->. destruct (Z.eq_dec n 0) as [->|Hn]; [discriminate (H0 eq_refl)|].
  destruct (H1 Hn) as (c & r & E & _). discriminate E.
Qed.

Lemma u64_roundtrip v radix cap rest : 0 <= v < 2 ^ 64 -> 2 <= radix <= 36 -> stops radix rest ->
  exists l, print_u64 v radix cap = Some l /\
    parse_u64 (l ++ rest) radix = Some {| pval := v; prest := rest; perr := false |}.
Proof.
  intros Hv Hr Hs. destruct (print_u64_canonical v radix cap Hv Hr) as (l & E & C).
  exists l. split; [exact E|]. rewrite (parse_u64_digits radix l v rest ltac:(lia) (proj1 C) (canonical_nonempty _ _ _ C) Hs).
  replace (v <? 2 ^ 64) with true by lia. reflexivity.
Qed.

Lemma s64_roundtrip v radix cap rest : - 2 ^ 63 < v < 2 ^ 63 -> 2 <= radix <= 36 -> stops radix rest ->
  exists l, print_s64 v radix cap = Some l /\
    parse_s64 (l ++ rest) radix = Some {| pval := v; prest := rest; perr := false |}.
Proof.
  intros Hv Hr Hs. destruct (print_s64_canonical v radix cap Hv Hr) as (l & C & E).
  exists (if v <? 0 then 45 :: l else l). split; [exact E|].
  destruct (parse_s64_digits radix (v <? 0) l (Z.abs v) rest ltac:(lia) (proj1 C) (canonical_nonempty _ _ _ C) Hs)
    as (p & Ep & H1 & H2 & H3); [lia|].
  replace ((if v <? 0 then 45 :: l else l) ++ rest) with ((if v <? 0 then [45] else []) ++ l ++ rest)
    by (destruct (v <? 0); reflexivity).
  rewrite Ep. assert (He : perr p = false) by (apply H2; destruct (Z.ltb_spec v 0); lia).
  specialize (H3 He). destruct p as [pv pr pe]. cbn in *. subst. f_equal. f_equal.
  destruct (Z.ltb_spec v 0); lia.
Qed.

(** ** [StringView::to] *)
Lemma digit_not_white radix c : digitValue c < radix -> radix <= 36 -> isWhite c = false.
Proof.
  intros H Hr. unfold isWhite. unfold digitValue in H.
  destruct ((48 <=? c) && (c <=? 57)) eqn:E1; [lia|].
  destruct ((65 <=? c) && (c <=? 90)) eqn:E2; [lia|].
  destruct ((97 <=? c) && (c <=? 122)) eqn:E3; lia.
Qed.

Lemma trim_left_white ws s : Forall (fun c => isWhite c = true) ws ->
  trim_left isWhite (ws ++ s) = trim_left isWhite s.
Proof. induction 1 as [|c ws Hc H IH]; [reflexivity|]. cbn [app trim_left]. rewrite Hc. exact IH. Qed.

Lemma trim_left_solid s : Forall (fun c => isWhite c = false) s -> trim_left isWhite s = s.
Proof. destruct 1 as [|c s Hc H]; [reflexivity|]. cbn [trim_left]. rewrite Hc. reflexivity. Qed.

Lemma trim_padded ws1 s ws2 : Forall (fun c => isWhite c = true) ws1 ->
  Forall (fun c => isWhite c = false) s -> Forall (fun c => isWhite c = true) ws2 -> s <> [] ->
  sv_trim isWhite true true (ws1 ++ s ++ ws2) = s.
Proof.
  intros H1 H2 H3 Hne. unfold sv_trim. rewrite trim_left_white by exact H1.
  assert (E : trim_left isWhite (s ++ ws2) = s ++ ws2).
  { destruct H2 as [|c s Hc H]; [congruence|]. cbn [app trim_left]. rewrite Hc. reflexivity. }
  rewrite E, rev_app_distr, trim_left_white by (apply Forall_rev; exact H3).
  rewrite trim_left_solid by (apply Forall_rev; exact H2). apply rev_involutive.
Qed.

Lemma to_u64_spec ws1 l n ws2 default :
  Forall (fun c => isWhite c = true) ws1 -> Forall (fun c => isWhite c = true) ws2 ->
  denotes 10 l n -> l <> [] ->
  sv_to parse_u64 (ws1 ++ l ++ ws2) default = Some (if n <? 2 ^ 64 then n else default).
Proof.
  intros H1 H2 D Hl. unfold sv_to. rewrite trim_padded; try assumption.
  - rewrite <- (app_nil_r l). rewrite (parse_u64_digits 10 l n [] ltac:(lia) D Hl I).
    destruct (n <? 2 ^ 64); reflexivity.
  - eapply Forall_impl; [|apply (denotes_digits 10 l n D)]. intros c Hc.
    apply (digit_not_white 10); [exact Hc|lia].
Qed.

Lemma to_u64_reject s default : (forall ws1 l n ws2, s = ws1 ++ l ++ ws2 ->
    Forall (fun c => isWhite c = true) ws1 -> Forall (fun c => isWhite c = true) ws2 ->
    l <> [] -> denotes 10 l n -> 2 ^ 64 <= n) ->
  sv_to parse_u64 s default = Some default.
Proof.
  intros H. unfold sv_to. destruct (sv_trim_spec isWhite s) as (a & b & Es & Ha & Hb & _ & _).
  destruct (split_digits 10 (sv_trim isWhite true true s) ltac:(lia)) as (l & rest & n & El & D & Hs).
  rewrite El. destruct l as [|c l].
  - cbn [app]. rewrite (parse_u64_nodigits 10 rest ltac:(lia) Hs). cbn [prest perr]. destruct rest; reflexivity.
  - rewrite (parse_u64_digits 10 (c :: l) n rest ltac:(lia) D ltac:(discriminate) Hs).
    destruct rest as [|c' rest]; [|destruct (n <? 2 ^ 64); reflexivity].
    rewrite app_nil_r in El. rewrite El in Es.
    specialize (H a (c :: l) n b Es Ha Hb ltac:(discriminate) D).
    replace (n <? 2 ^ 64) with false by lia. reflexivity.
Qed.

Lemma to_s64_roundtrip v default : - 2 ^ 63 < v < 2 ^ 63 ->
  exists l, print_s64 v 10 false = Some l /\ sv_to parse_s64 l default = Some v.
Proof.
  intros Hv. destruct (print_s64_canonical v 10 false Hv ltac:(lia)) as (l & C & E).
  destruct (s64_roundtrip v 10 false [] Hv ltac:(lia) I) as (l' & E' & P).
  rewrite E in E'. injection E' as <-. eexists. split; [exact E|].
  unfold sv_to. rewrite app_nil_r in P.
  assert (T : sv_trim isWhite true true (if v <? 0 then 45 :: l else l) = if v <? 0 then 45 :: l else l).
  { pose proof (trim_padded [] (if v <? 0 then 45 :: l else l) []) as T. cbn [app] in T.
    rewrite app_nil_r in T. apply T; [constructor| |constructor|].
    - assert (HF : Forall (fun c => isWhite c = false) l).
      { eapply Forall_impl; [|apply (denotes_digits 10 l _ (proj1 C))]. intros c Hc.
        apply (digit_not_white 10); [exact Hc|lia]. }
      destruct (v <? 0); [constructor; [reflexivity|exact HF]|exact HF].
    - pose proof (canonical_nonempty _ _ _ C). destruct (v <? 0); [discriminate|assumption]. }
  rewrite T, P. reflexivity.
Qed.
