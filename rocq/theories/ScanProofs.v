From Verif Require Import ScanSpec ScanModel.
From Coq Require Import ZifyBool ZifyNat.
Ltac Zify.zify_post_hook ::= Z.div_mod_to_equations.

(** ** Terminator *)
Lemma nth_prefix (s : list Z) k d : (k < length s)%nat -> firstn (S k) s = firstn k s ++ [nth k s d].
Proof.
  revert k. induction s as [|c s IH]; intros [|k] H; cbn in H; try lia; [reflexivity|].
  cbn [firstn nth app]. f_equal. apply IH. lia.
Qed.

(* Soundness: what is consumed ends in the terminator. *)
Lemma special_loop_sound special ins matched rest : (matched < length special)%nat ->
  special_loop ins special matched = (true, rest) ->
  exists a, firstn matched special ++ ins = a ++ special ++ rest.
Proof.
  revert matched. induction ins as [|c ins IH]; intros m Hm; cbn [special_loop]; [discriminate|].
  destruct (Z.eqb_spec c (nth m special (-1))) as [Ec|Ec].
  - destruct (Nat.leb_spec (length special) (S m)) as [Hl|Hl].
    + intros [= <-]. exists []. cbn. change (c :: ins) with ([c] ++ ins). rewrite app_assoc.
      f_equal. rewrite Ec, <- nth_prefix by lia. apply firstn_all2. lia.
    + intros E. destruct (IH (S m)) as [a Ha]; [lia|exact E|]. exists a. rewrite <- Ha.
      rewrite (nth_prefix special m (-1)) by lia. rewrite <- app_assoc, Ec. reflexivity.
  - intros E. destruct (IH 0%nat) as [a Ha]; [lia|exact E|]. cbn in Ha.
    exists (firstn m special ++ c :: a). rewrite <- app_assoc. cbn. f_equal. f_equal. exact Ha.
Qed.

Lemma special_loop_fail special ins matched rest :
  special_loop ins special matched = (false, rest) -> rest = [].
Proof.
  revert matched. induction ins as [|c ins IH]; intros m; cbn [special_loop]; [congruence|].
  destruct (c =? nth m special (-1)); [|apply IH].
  destruct (length special <=? S m)%nat; [discriminate|apply IH].
Qed.

Lemma special_loop_suffix special ins matched b rest :
  special_loop ins special matched = (b, rest) -> exists p, ins = p ++ rest.
Proof.
  revert matched. induction ins as [|c ins IH]; intros m; cbn [special_loop].
  - intros [= <- <-]. exists []. reflexivity.
  - destruct (c =? nth m special (-1)).
    + destruct (length special <=? S m)%nat.
      * intros [= <- <-]. exists [c]. reflexivity.
      * intros E. destruct (IH _ E) as [p ->]. exists (c :: p). reflexivity.
    + intros E. destruct (IH _ E) as [p ->]. exists (c :: p). reflexivity.
Qed.


Lemma existsb_notin c l : existsb (Z.eqb c) l = false -> ~ In c l.
Proof.
  induction l as [|x l IH]; cbn; [auto|]. intros E. apply orb_false_iff in E. destruct E as [E1 E2].
  intros [->|H]; [rewrite Z.eqb_refl in E1; discriminate|apply IH; assumption].
Qed.

Lemma app_cases (x y u v : list Z) : x ++ y = u ++ v ->
  (exists w, u = x ++ w /\ y = w ++ v) \/ (exists w, x = u ++ w /\ v = w ++ y).
Proof.
  revert u. induction x as [|a x IH]; intros u E.
  - left. exists u. auto.
  - destruct u as [|b u]; [right; exists (a :: x); auto|].
    cbn in E. injection E as -> E. destruct (IH u E) as [(w & -> & ->)|(w & -> & ->)].
    + left. exists w. auto.
    + right. exists w. auto.
Qed.


Definition suffix_of (t h : list Z) : Prop := exists a, h = a ++ t.

Lemma suffix_snoc t c h d : suffix_of (t ++ [d]) (h ++ [c]) <-> suffix_of t h /\ c = d.
Proof.
  split.
  - intros [a E]. rewrite app_assoc in E. apply app_inj_tail in E. destruct E as [-> ->].
    split; [exists a; reflexivity|reflexivity].
  - intros [[a ->] ->]. exists a. rewrite app_assoc. reflexivity.
Qed.

Section Special.
Variable c0 : Z.
Variable tl : list Z.
Hypothesis Hc0 : ~ In c0 tl.
Let special := c0 :: tl.

(* The scanner's counter is the only nonzero length of a terminator prefix ending at this point. *)
Definition scan_inv (h : list Z) (m : nat) : Prop :=
  forall k, (0 < k <= length special)%nat -> (suffix_of (firstn k special) h <-> k = m).

Lemma scan_inv_nil : scan_inv [] 0.
Proof.
  intros k Hk. split; [|lia]. intros [a E].
  apply (f_equal (@length Z)) in E. rewrite app_length, firstn_length in E.
  change (@length Z []) with 0%nat in E. lia.
Qed.

Lemma scan_inv_match h m c : (m < length special)%nat -> scan_inv h m ->
  c = nth m special (-1) -> (m = 0%nat \/ c <> c0) -> scan_inv (h ++ [c]) (S m).
Proof.
  intros Hm Hi Ec Hr k Hk. destruct k as [|k]; [lia|].
  rewrite (nth_prefix special k (-1)) by lia. rewrite suffix_snoc.
  destruct k as [|k].
  - split.
    + intros [_ E]. change (nth 0 special (-1)) with c0 in E. destruct Hr as [->|Hr]; [reflexivity|congruence].
    + intros E. assert (m = 0%nat) by lia. subst m. split; [exists h; cbn; rewrite app_nil_r; reflexivity|exact Ec].
  - rewrite (Hi (S k)) by lia. split; [lia|]. intros E. assert (m = S k) by lia. subst m. auto.
Qed.

Lemma scan_inv_miss h m c : (m < length special)%nat -> scan_inv h m ->
  c <> nth m special (-1) -> c <> c0 -> scan_inv (h ++ [c]) 0.
Proof.
  intros Hm Hi Ec Hn k Hk. split; [|lia]. destruct k as [|k]; [lia|].
  rewrite (nth_prefix special k (-1)) by lia. rewrite suffix_snoc. intros [Hs E]. exfalso.
  destruct k as [|k]; [cbn in E; congruence|].
  apply Hi in Hs; [|lia]. congruence.
Qed.

Lemma nth_in_tl m : (0 < m < length special)%nat -> nth m special (-1) <> c0.
Proof.
  intros Hm E. apply Hc0. rewrite <- E. unfold special. destruct m as [|m]; [lia|].
  cbn [nth]. apply nth_In. unfold special in Hm. cbn in Hm. lia.
Qed.

Lemma special_loop_spec ins h m : (m < length special)%nat -> scan_inv h m ->
  no_restart special (h ++ ins) ->
  match special_loop ins special m with
  | (true, rest) => exists q, ins = q ++ rest /\ suffix_of special (h ++ q) /\
      forall q' r', ins = q' ++ r' -> q' <> [] -> suffix_of special (h ++ q') -> (length q <= length q')%nat
  | (false, rest) => rest = [] /\
      forall q' r', ins = q' ++ r' -> q' <> [] -> ~ suffix_of special (h ++ q')
  end.
Proof.
  revert h m. induction ins as [|c ins IH]; intros h m Hm Hi Hnr.
  { cbn [special_loop]. split; [reflexivity|]. intros q' r' E Hq. destruct q'; [congruence|discriminate]. }
  cbn [special_loop].
  assert (Hnr' : no_restart special ((h ++ [c]) ++ ins)) by (rewrite <- app_assoc; exact Hnr).
  assert (Hstep : forall q' r', c :: ins = q' ++ r' -> q' <> [] ->
            exists q2, q' = c :: q2 /\ ins = q2 ++ r' /\ h ++ q' = (h ++ [c]) ++ q2).
  { intros q' r' E Hq. destruct q' as [|x q2]; [congruence|]. cbn in E. injection E as <- ->.
    exists q2. rewrite <- app_assoc. auto. }
  destruct (Z.eqb_spec c (nth m special (-1))) as [Ec|Ec].
  - assert (Hi' : scan_inv (h ++ [c]) (S m)).
    { apply scan_inv_match; auto. destruct m; [left; reflexivity|right].
      rewrite Ec. apply nth_in_tl. lia. }
    destruct (Nat.leb_spec (length special) (S m)) as [Hl|Hl].
    + exists [c]. split; [reflexivity|]. split.
      * pose proof (proj2 (Hi' (S m) ltac:(lia)) eq_refl) as H. rewrite firstn_all2 in H by lia. exact H.
      * intros q' r' E Hq _. destruct q'; [congruence|cbn; lia].
    + assert (Hno : ~ suffix_of special (h ++ [c])).
      { intros H. assert (length special = S m); [|lia]. apply Hi'; [lia|]. rewrite firstn_all. exact H. }
      specialize (IH (h ++ [c]) (S m) ltac:(lia) Hi' Hnr').
      destruct (special_loop ins special (S m)) as [[|] rest].
      * destruct IH as (q & -> & Hs & Hmin). exists (c :: q). split; [reflexivity|].
        split; [rewrite <- app_assoc in Hs; exact Hs|].
        intros q' r' E Hq Hs'. destruct (Hstep q' r' E Hq) as (q2 & -> & E2 & E3).
        rewrite E3 in Hs'. destruct q2 as [|x q2].
        { rewrite app_nil_r in Hs'. contradiction. }
        pose proof (Hmin (x :: q2) r' E2 ltac:(discriminate) Hs'). cbn in *. lia.
      * destruct IH as (-> & Hno'). split; [reflexivity|].
        intros q' r' E Hq Hs'. destruct (Hstep q' r' E Hq) as (q2 & -> & E2 & E3).
        rewrite E3 in Hs'. destruct q2 as [|x q2].
        { rewrite app_nil_r in Hs'. contradiction. }
        exact (Hno' (x :: q2) r' E2 ltac:(discriminate) Hs').
  - assert (Hc : c <> c0).
    { destruct m as [|m]; [exact Ec|]. intros ->.
      pose proof (proj2 (Hi (S m) ltac:(lia)) eq_refl) as [a Ha].
      apply (Hnr a (S m) ins ltac:(lia)). rewrite Ha at 1. rewrite <- app_assoc. reflexivity. }
    assert (Hi' : scan_inv (h ++ [c]) 0) by (apply (scan_inv_miss h m); auto).
    assert (Hno : ~ suffix_of special (h ++ [c])).
    { intros H. assert (length special = 0%nat); [|unfold special in *; cbn in *; lia]. apply Hi'.
      - unfold special; cbn; lia.
      - rewrite firstn_all. exact H. }
    specialize (IH (h ++ [c]) 0%nat ltac:(unfold special; cbn; lia) Hi' Hnr').
    destruct (special_loop ins special 0) as [[|] rest].
    * destruct IH as (q & -> & Hs & Hmin). exists (c :: q). split; [reflexivity|].
      split; [rewrite <- app_assoc in Hs; exact Hs|].
      intros q' r' E Hq Hs'. destruct (Hstep q' r' E Hq) as (q2 & -> & E2 & E3).
      rewrite E3 in Hs'. destruct q2 as [|x q2].
      { rewrite app_nil_r in Hs'. contradiction. }
      pose proof (Hmin (x :: q2) r' E2 ltac:(discriminate) Hs'). cbn in *. lia.
    * destruct IH as (-> & Hno'). split; [reflexivity|].
      intros q' r' E Hq Hs'. destruct (Hstep q' r' E Hq) as (q2 & -> & E2 & E3).
      rewrite E3 in Hs'. destruct q2 as [|x q2].
      { rewrite app_nil_r in Hs'. contradiction. }
      exact (Hno' (x :: q2) r' E2 ltac:(discriminate) Hs').
Qed.
End Special.

Lemma suffix_nonempty c0 tl q : suffix_of (c0 :: tl) q -> q <> [].
Proof. intros [a ->] E. apply app_eq_nil in E. destruct E; discriminate. Qed.

Theorem scanSpecial_spec ins special b rest :
  no_restart special ins -> scanSpecial ins special = Some (b, rest) ->
  if b then exists p, ins = p ++ rest /\ first_occurrence special ins p
  else rest = [] /\ ~ occurs special ins.
Proof.
  destruct special as [|c0 tl]; cbn [scanSpecial]; [discriminate|].
  destruct (existsb (Z.eqb c0) tl) eqn:Ex; [discriminate|]. intros Hnr [= E].
  apply existsb_notin in Ex.
  pose proof (special_loop_spec c0 tl Ex ins [] 0 ltac:(cbn; lia) (scan_inv_nil c0 tl) Hnr) as H.
  rewrite E in H. destruct b.
  - destruct H as (q & Eq & Hs & Hmin). exists q. split; [exact Eq|]. split; [exact Hs|].
    split; [exists rest; exact Eq|]. intros p' b' E' Hp'.
    apply (Hmin p' b' E'); [eapply suffix_nonempty; exact Hp'|exact Hp'].
  - destruct H as (-> & Hno). split; [reflexivity|]. intros (a & b & Eo).
    apply (Hno (a ++ c0 :: tl) b).
    + rewrite Eo, <- app_assoc. reflexivity.
    + intros En. apply app_eq_nil in En. destruct En; discriminate.
    + exists a. reflexivity.
Qed.

Theorem scanSpecial_sound ins special b rest :
  scanSpecial ins special = Some (b, rest) ->
  if b then exists a, ins = a ++ special ++ rest else rest = [].
Proof.
  destruct special as [|c0 tl]; cbn [scanSpecial]; [discriminate|].
  destruct (existsb (Z.eqb c0) tl); [discriminate|]. intros [= E]. destruct b.
  - destruct (special_loop_sound (c0 :: tl) ins 0 rest ltac:(cbn; lia) E) as [a Ha]. exists a. exact Ha.
  - eapply special_loop_fail, E.
Qed.

Theorem scanSpecial_defined ins special :
  scanSpecial ins special <> None <-> exists c0 tl, special = c0 :: tl /\ ~ In c0 tl.
Proof.
  destruct special as [|c0 tl]; cbn [scanSpecial].
  - split; [congruence|]. intros (c & t & E & _). discriminate.
  - destruct (existsb (Z.eqb c0) tl) eqn:Ex.
    + split; [congruence|]. intros (c & t & E & Hn). injection E as <- <-. exfalso.
      apply existsb_exists in Ex. destruct Ex as (x & Hx & E). apply Z.eqb_eq in E. subst x. contradiction.
    + split; [|discriminate]. intros _. exists c0, tl. split; [reflexivity|]. apply existsb_notin, Ex.
Qed.

Lemma no_restart_single c ins : no_restart [c] ins.
Proof. intros a k b Hk. cbn in Hk. lia. Qed.

Theorem parse_line_spec ins : exists b rest, parse_line ins = Some (b, rest) /\
  (b = true <-> In 10 ins) /\
  (b = true -> exists p, ins = p ++ 10 :: rest /\ ~ In 10 p) /\ (b = false -> rest = []).
Proof.
  unfold parse_line. destruct (scanSpecial ins [10]) as [[b rest]|] eqn:E; [|discriminate].
  exists b, rest. split; [reflexivity|].
  pose proof (scanSpecial_spec ins [10] b rest (no_restart_single 10 ins) E) as H. destruct b.
  - destruct H as (p & Ep & (a & Ha) & _ & Hmin). subst p.
    split; [|split; [|discriminate]].
    + split; [intros _|reflexivity]. rewrite Ep. apply in_or_app. left. apply in_or_app. right. left. reflexivity.
    + intros _. exists a. rewrite <- app_assoc in Ep. split; [exact Ep|]. intros Hin.
      apply in_split in Hin. destruct Hin as (u & v & ->).
      specialize (Hmin (u ++ [10]) (v ++ 10 :: rest)). rewrite !app_length in Hmin. cbn in Hmin.
      enough (length u + S (length v) + 1 <= length u + 1)%nat by lia. 
      apply Hmin; [|exists u; reflexivity]. rewrite Ep. rewrite <- !app_assoc. reflexivity.
  - destruct H as (-> & Hno). split; [|split; [discriminate|reflexivity]].
    split; [discriminate|]. intros Hin. exfalso. apply Hno.
    apply in_split in Hin. destruct Hin as (u & v & ->). exists u, v. reflexivity.
Qed.

(** ** Masks *)
Lemma white_mask c : is_byte c ->
  mask_match c WhitespaceMask = ((c =? 32) || (c =? 9) || (c =? 10) || (c =? 13)).
Proof. intros H. apply Bool.eqb_prop. revert c H. apply (byte_sweep (fun c => Bool.eqb _ _)). vm_compute. reflexivity. Qed.

Lemma scanUsingMask_spec mask invert ins : exists p,
  ins = p ++ scanUsingMask ins mask invert /\
  Forall (fun c => mask_match c mask = negb invert) p /\
  match scanUsingMask ins mask invert with [] => True | c :: _ => mask_match c mask = invert end.
Proof.
  induction ins as [|c ins (p & E & Hp & Hr)]; cbn [scanUsingMask].
  - exists []. auto.
  - destruct (Bool.eqb (mask_match c mask) invert) eqn:Em.
    + exists []. split; [reflexivity|]. split; [constructor|]. apply Bool.eqb_prop, Em.
    + exists (c :: p). split; [cbn; f_equal; exact E|]. split; [|exact Hr].
      constructor; [|exact Hp]. apply eqb_false_iff in Em. destruct (mask_match c mask), invert; cbn; congruence.
Qed.

Theorem skip_whitespace_spec ins : bytes_ok ins -> exists p,
  ins = p ++ scanUsingMask ins WhitespaceMask false /\
  Forall (fun c => c = 32 \/ c = 9 \/ c = 10 \/ c = 13) p /\
  match scanUsingMask ins WhitespaceMask false with
  | [] => True | c :: _ => c <> 32 /\ c <> 9 /\ c <> 10 /\ c <> 13 end.
Proof.
  intros Hb. destruct (scanUsingMask_spec WhitespaceMask false ins) as (p & E & Hp & Hr).
  exists p. split; [exact E|]. unfold bytes_ok in Hb. rewrite E in Hb. apply Forall_app in Hb. destruct Hb as [Hb1 Hb2]. split.
  - clear E Hr Hb2. induction Hp as [|c p Hc Hp IH]; [constructor|]. inversion Hb1; subst.
    constructor; [|auto]. rewrite white_mask in Hc by assumption. cbn in Hc. lia.
  - clear E. destruct (scanUsingMask ins WhitespaceMask false) as [|c r]; [exact I|].
    inversion Hb2; subst. rewrite white_mask in Hr by assumption. lia.
Qed.

(** ** Identifiers *)
Definition id_startb (d h : bool) (c : Z) : bool :=
  ((65 <=? c) && (c <=? 90)) || (c =? 95) || ((97 <=? c) && (c <=? 122)) || (128 <=? c) ||
  ((c =? 36) && d) || ((c =? 45) && h).
Definition id_contb (d h : bool) (c : Z) : bool := id_startb d h c || ((48 <=? c) && (c <=? 57)).
Definition word1 (d h : bool) : Z := Z.lor (if d then 0x10 else 0) (if h then 0x2000 else 0).

Lemma id_mask_start d h c : is_byte c -> mask_match c (id_mask (word1 d h)) = id_startb d h c.
Proof. intros H. apply Bool.eqb_prop. revert c H. destruct d, h.
  all: match goal with |- forall c, is_byte c -> @?P c = true => apply (byte_sweep P) end.
  all: vm_compute; reflexivity.
Qed.
Lemma id_mask_cont d h c : is_byte c ->
  mask_match c (id_mask (Z.lor (word1 d h) 0x3ff0000)) = id_contb d h c.
Proof. intros H. apply Bool.eqb_prop. revert c H. destruct d, h.
  all: match goal with |- forall c, is_byte c -> @?P c = true => apply (byte_sweep P) end.
  all: vm_compute; reflexivity.
Qed.

Lemma flag_bit flags i : 0 <= i -> (Z.land flags (2 ^ i) =? 0) = negb (Z.testbit flags i).
Proof.
  intros Hi. assert (E : Z.land flags (2 ^ i) = if Z.testbit flags i then 2 ^ i else 0).
  { apply Z.bits_inj'. intros n Hn. rewrite Z.land_spec, Z.pow2_bits_eqb by lia.
    destruct (Z.eqb_spec i n) as [->|Hne].
    - destruct (Z.testbit flags n) eqn:Et; [|rewrite Z.bits_0; reflexivity].
      rewrite Z.pow2_bits_true by lia. reflexivity.
    - rewrite andb_false_r. destruct (Z.testbit flags i); [|rewrite Z.bits_0; reflexivity].
      rewrite Z.pow2_bits_false by lia. reflexivity. }
  rewrite E. destruct (Z.testbit flags i); cbn [negb]; [|reflexivity].
  apply Z.eqb_neq. pose proof (Z.pow_pos_nonneg 2 i). lia.
Qed.

Lemma id_word1_bits flags : id_word1 flags = word1 (Z.testbit flags 0) (Z.testbit flags 1).
Proof.
  unfold id_word1, word1, WithDollarSign, WithDash.
  pose proof (flag_bit flags 0 ltac:(lia)) as E0. pose proof (flag_bit flags 1 ltac:(lia)) as E1.
  change (2 ^ 0) with 1 in E0. change (2 ^ 1) with 2 in E1. rewrite E0, E1.
  destruct (Z.testbit flags 0), (Z.testbit flags 1); reflexivity.
Qed.

Lemma id_startb_iff flags c : is_byte c ->
  id_startb (Z.testbit flags 0) (Z.testbit flags 1) c = true <-> id_start flags c.
Proof.
  unfold is_byte, id_startb, id_start. intros H.
  destruct (Z.testbit flags 0), (Z.testbit flags 1); lia.
Qed.
Lemma id_contb_iff flags c : is_byte c ->
  id_contb (Z.testbit flags 0) (Z.testbit flags 1) c = true <-> id_continue flags c.
Proof.
  intros H. unfold id_contb, id_continue. rewrite orb_true_iff, (id_startb_iff flags c H), andb_true_iff, !Z.leb_le. reflexivity.
Qed.

Lemma id_loop_tail d h ins : bytes_ok ins ->
  let w := Z.lor (word1 d h) 0x3ff0000 in
  snd (id_loop ins w false) = w /\
  exists p, ins = p ++ fst (id_loop ins w false) /\ Forall (fun c => id_contb d h c = true) p /\
  match fst (id_loop ins w false) with [] => True | c :: _ => id_contb d h c = false end.
Proof.
  intros Hb. cbv zeta. induction Hb as [|c ins Hc Hb (IH1 & p & IH2 & IH3 & IH4)]; cbn [id_loop].
  - split; [reflexivity|]. exists []. cbn. auto.
  - rewrite id_mask_cont by assumption. destruct (id_contb d h c) eqn:Ec.
    + split; [exact IH1|]. exists (c :: p). split; [cbn; f_equal; exact IH2|]. split; [constructor; auto|exact IH4].
    + cbn. split; [reflexivity|]. exists []. auto.
Qed.

Theorem identifier_spec ins flags : bytes_ok ins ->
  let '(ok, rest) := parse_identifier ins flags in
  exists w, ins = w ++ rest /\
  ((ident flags w /\ ok = true /\ match rest with [] => True | c :: _ => ~ id_continue flags c end) \/
   (w = [] /\ match rest with [] => True | c :: _ => ~ id_start flags c end /\
    (ok = true <-> Z.testbit flags 0 = true \/ Z.testbit flags 1 = true))).
Proof.
  intros Hb. unfold parse_identifier. rewrite id_word1_bits.
  set (d := Z.testbit flags 0). set (h := Z.testbit flags 1).
  assert (Hzero : negb (word1 d h =? 0) = true <-> d = true \/ h = true).
  { destruct d, h; vm_compute; intuition congruence. }
  destruct ins as [|c ins]; cbn [id_loop].
  - exists []. split; [reflexivity|]. right. auto.
  - inversion Hb as [|? ? Hc Hb']; subst. rewrite id_mask_start by assumption.
    destruct (id_startb d h c) eqn:Es.
    + destruct (id_loop_tail d h ins Hb') as (E1 & p & E2 & E3 & E4).
      destruct (id_loop ins _ false) as [rest w1]. cbn [fst snd] in *. subst w1.
      exists (c :: p). split; [cbn; f_equal; exact E2|]. left. split; [|split].
      * split; [apply id_startb_iff; assumption|].
        rewrite E2 in Hb'. apply Forall_app in Hb'. destruct Hb' as [Hp _].
        clear E2 E4. induction E3 as [|x p Hx E3 IH]; [constructor|]. inversion Hp; subst.
        constructor; [apply id_contb_iff; assumption|auto].
      * destruct d, h; reflexivity.
      * destruct rest as [|x rest]; [exact I|]. intros Hx.
        assert (Hxb : is_byte x).
        { rewrite E2 in Hb'. apply Forall_app in Hb'. destruct Hb' as [_ Hr]. inversion Hr; assumption. }
        apply (id_contb_iff flags x Hxb) in Hx. fold d h in Hx. congruence.
    + exists []. split; [reflexivity|]. right. split; [reflexivity|]. split; [|exact Hzero].
      intros Hx. apply (id_startb_iff flags c Hc) in Hx. fold d h in Hx. congruence.
Qed.
