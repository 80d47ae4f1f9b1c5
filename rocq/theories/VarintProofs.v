From Verif Require Import VarintModel.
From Coq Require Import ZifyBool ZifyNat.
Ltac Zify.zify_post_hook ::= Z.div_mod_to_equations.

Lemma enclen_spec fuel v : 0 <= v < 2 ^ (7 * Z.of_nat fuel) -> (0 < fuel)%nat ->
  (1 <= enclen_loop fuel v <= fuel)%nat /\ v < 2 ^ (7 * Z.of_nat (enclen_loop fuel v)) /\
  (forall k, (1 <= k)%nat -> v < 2 ^ (7 * Z.of_nat k) -> (enclen_loop fuel v <= k)%nat).
Proof.
  revert v. induction fuel as [|fuel IH]; intros v Hv Hf; [lia|]. cbn [enclen_loop].
  rewrite Z.shiftr_div_pow2 by lia. change (2 ^ 7) with 128.
  replace (7 * Z.of_nat (S fuel)) with (7 * Z.of_nat fuel + 7) in Hv by lia.
  rewrite Z.pow_add_r in Hv by lia. change (2 ^ 7) with 128 in Hv.
  destruct (Z.ltb_spec 0 (v / 128)) as [H|H].
  - assert (0 < fuel)%nat.
    { destruct fuel; [|lia]. cbn in Hv. lia. }
    destruct (IH (v / 128)) as (A & B & C); [lia|assumption|].
    split; [lia|]. split.
    + replace (7 * Z.of_nat (S (enclen_loop fuel (v / 128))))
        with (7 * Z.of_nat (enclen_loop fuel (v / 128)) + 7) by lia.
      rewrite Z.pow_add_r by lia. change (2 ^ 7) with 128. lia.
    + intros k Hk Hvk. destruct k as [|k]; [lia|]. destruct k as [|k].
      { change (2 ^ (7 * Z.of_nat 1)) with 128 in Hvk. lia. }
      apply le_n_S. apply C; [lia|].
      replace (7 * Z.of_nat (S (S k))) with (7 * Z.of_nat (S k) + 7) in Hvk by lia.
      rewrite Z.pow_add_r in Hvk by lia. change (2 ^ 7) with 128 in Hvk. lia.
  - split; [lia|]. split; [|lia]. change (2 ^ (7 * Z.of_nat 1)) with 128. lia.
Qed.

Lemma getEncLen_spec v : 0 <= v < 2 ^ 32 ->
  (1 <= getEncLen v <= 5)%nat /\ v < 2 ^ (7 * Z.of_nat (getEncLen v)) /\
  (forall k, (1 <= k)%nat -> v < 2 ^ (7 * Z.of_nat k) -> (getEncLen v <= k)%nat).
Proof.
  intros Hv. apply enclen_spec; [|lia]. change (2 ^ (7 * Z.of_nat 5)) with 34359738368.
  change (2 ^ 32) with 4294967296 in Hv. lia.
Qed.

(* More fuel changes nothing. *)
Lemma getEncLen_enough v fuel : 0 <= v < 2 ^ 32 -> (5 <= fuel)%nat -> enclen_loop fuel v = getEncLen v.
Proof.
  intros Hv Hf.
  assert (E : 2 ^ 32 < 2 ^ (7 * Z.of_nat fuel)) by (apply Z.pow_lt_mono_r; lia).
  destruct (enclen_spec fuel v ltac:(lia) ltac:(lia)) as (A & B & C).
  destruct (getEncLen_spec v Hv) as (A' & B' & C').
  specialize (C (getEncLen v) ltac:(lia) B'). specialize (C' (enclen_loop fuel v) ltac:(lia) B). lia.
Qed.

Lemma encode_loop_length v k : length (encode_loop v k) = S k.
Proof. induction k as [|k IH]; cbn [encode_loop length]; [reflexivity|]. rewrite IH. reflexivity. Qed.

Lemma encode_loop_bytes v k : bytes_ok (encode_loop v k).
Proof.
  induction k as [|k IH]; cbn [encode_loop]; constructor; auto; apply Z.mod_pos_bound; reflexivity.
Qed.

Lemma enc_byte v k : 0 <= v ->
  let b := u8 (Z.lor (Z.land (Z.shiftr v (7 * Z.of_nat k)) 127)
                     (Z.shiftl (if 7 * Z.of_nat k =? 0 then 0 else 1) 7)) in
  Z.land b 127 = (v / 2 ^ (7 * Z.of_nat k)) mod 128 /\ Z.shiftr b 7 = if (k =? 0)%nat then 0 else 1.
Proof.
  intros Hv. cbv zeta. rewrite Z.shiftr_div_pow2 by lia.
  change 127 with (2 ^ 7 - 1). rewrite !land_mod by lia.
  set (d := (v / 2 ^ (7 * Z.of_nat k))). change (2 ^ 7) with 128.
  rewrite Z.lor_comm. rewrite Z.shiftl_mul_pow2 by lia.
  rewrite (lor_add _ _ 7) by (try apply Z.mod_pos_bound; lia). change (2 ^ 7) with 128.
  rewrite Z.shiftr_div_pow2 by lia. change (2 ^ 7) with 128. unfold u8. change (2 ^ 8) with 256.
  destruct k as [|k].
  - change (if 7 * Z.of_nat 0 =? 0 then 0 else 1) with 0. change (0 =? 0)%nat with true. cbv iota.
        rewrite (Z.mod_small (0 * 128 + d mod 128) 256) by lia. lia.
  - replace (7 * Z.of_nat (S k) =? 0) with false by lia. cbn [Nat.eqb].
    rewrite (Z.mod_small (1 * 128 + d mod 128) 256) by lia. lia.
Qed.

Lemma decode_encode_loop v k rest : 0 <= v < 2 ^ 32 ->
  decode_loop ((v / 2 ^ (7 * Z.of_nat (S k))) * 128) (encode_loop v k ++ rest) = Some (v, rest).
Proof.
  intros Hv. revert rest. induction k as [|k IH]; intros rest.
  - cbn [encode_loop app decode_loop].
    destruct (enc_byte v 0 ltac:(lia)) as [E1 E2]. cbv zeta in E1, E2. rewrite E1, E2. cbn [Nat.eqb Z.eqb].
    change (2 ^ (7 * Z.of_nat 1)) with 128. change (2 ^ (7 * Z.of_nat 0)) with 1.
    rewrite Z.div_1_r. replace (v / 128 * 128 + v mod 128) with v by lia.
    unfold u32. rewrite Z.mod_small by lia. reflexivity.
  - remember (encode_loop v k) as tl eqn:Etl. cbn [encode_loop]. rewrite <- Etl. cbn [app decode_loop].
    destruct (enc_byte v (S k) ltac:(lia)) as [E1 E2]. cbv zeta in E1, E2. rewrite E1, E2.
    change (S k =? 0)%nat with false. change (1 =? 0) with false. cbv iota.
    replace (7 * Z.of_nat (S (S k))) with (7 * Z.of_nat (S k) + 7) by lia.
    rewrite Z.pow_add_r by lia. change (2 ^ 7) with 128.
    rewrite <- Z.div_div by lia. set (d := v / 2 ^ (7 * Z.of_nat (S k))) in *.
    assert (Hd : 0 <= d /\ d * 128 <= v).
    { unfold d. split; [apply Z.div_pos; lia|].
      replace (7 * Z.of_nat (S k)) with (7 * Z.of_nat k + 7) by lia. rewrite Z.pow_add_r by lia.
      change (2 ^ 7) with 128.
      assert (Hp : 0 < 2 ^ (7 * Z.of_nat k)) by (apply Z.pow_pos_nonneg; lia).
      rewrite <- Z.div_div by lia.
      assert (v / 2 ^ (7 * Z.of_nat k) <= v) by (apply Z.div_le_upper_bound; nia). lia. }
    replace (d / 128 * 128 + d mod 128) with d by lia.
    assert (Es : forall x, 0 <= x < 2 ^ 32 -> u32 x = x) by (intros; apply Z.mod_small; assumption).
    rewrite (Es d) by lia. rewrite Z.shiftl_mul_pow2 by lia.
    change (2 ^ 7) with 128. rewrite Es by lia. apply IH.
Qed.

Theorem varint_roundtrip v rest : 0 <= v < 2 ^ 32 ->
  decodeValue (encodeValue v ++ rest) = Some (v, rest) /\
  length (encodeValue v) = getEncLen v /\ (1 <= getEncLen v <= 5)%nat /\ bytes_ok (encodeValue v).
Proof.
  intros Hv. destruct (getEncLen_spec v Hv) as (A & B & _). unfold encodeValue, decodeValue.
  split; [|split; [|split]].
  - pose proof (decode_encode_loop v (getEncLen v - 1) rest Hv) as E.
    replace (S (getEncLen v - 1)) with (getEncLen v) in E by lia.
    rewrite Z.div_small in E by lia. exact E.
  - rewrite encode_loop_length. lia.
  - exact A.
  - apply encode_loop_bytes.
Qed.

(** The announced length is the least possible. *)
Theorem varint_shortest v k : 0 <= v < 2 ^ 32 -> (1 <= k)%nat -> v < 2 ^ (7 * Z.of_nat k) ->
  (getEncLen v <= k)%nat.
Proof. intros Hv. destruct (getEncLen_spec v Hv) as (_ & _ & C). apply C. Qed.

(** Concatenated encodings decode one after the other. *)
Fixpoint decode_many (n : nat) (bytes : list Z) : option (list Z * list Z) :=
  match n with
  | O => Some ([], bytes)
  | S n => match decodeValue bytes with
           | None => None
           | Some (v, r) => match decode_many n r with Some (vs, r') => Some (v :: vs, r') | None => None end
           end
  end.
Theorem varint_stream vs rest : Forall (fun v => 0 <= v < 2 ^ 32) vs ->
  decode_many (length vs) (concat (map encodeValue vs) ++ rest) = Some (vs, rest).
Proof.
  induction 1 as [|v vs Hv Hvs IH]; [reflexivity|].
  cbn [map concat length decode_many]. rewrite <- app_assoc.
  destruct (varint_roundtrip v (concat (map encodeValue vs) ++ rest) Hv) as [-> _]. rewrite IH. reflexivity.
Qed.

(** Injectivity, also as a prefix code. *)
Theorem varint_prefix_free v w r1 r2 : 0 <= v < 2 ^ 32 -> 0 <= w < 2 ^ 32 ->
  encodeValue v ++ r1 = encodeValue w ++ r2 -> v = w /\ r1 = r2.
Proof.
  intros Hv Hw E. destruct (varint_roundtrip v r1 Hv) as [E1 _]. destruct (varint_roundtrip w r2 Hw) as [E2 _].
  rewrite E in E1. rewrite E1 in E2. injection E2. auto.
Qed.
