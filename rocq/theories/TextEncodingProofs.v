From Verif Require Export TextEncodingModel.
From Coq Require Import ZifyBool ZifyNat.
Ltac Zify.zify_post_hook ::= Z.div_mod_to_equations.

Lemma is_cont_iff b : is_byte b -> is_cont b = ((0x80 <=? b) && (b <? 0xc0)).
Proof.
  intros Hb. apply eqb_prop.
  revert b Hb. apply byte_sweep. vm_compute. reflexivity.
Qed.

Lemma sel_spec b : is_byte b -> Z.land (Z.shiftr b 3) 0xf = (b / 8) mod 16.
Proof.
  intros Hb. apply Z.eqb_eq. revert b Hb. apply byte_sweep. vm_compute. reflexivity.
Qed.

Lemma shift_in_spec v b : shift_in v b = v * 64 + b mod 64.
Proof.
  unfold shift_in. change 0x3f with (2 ^ 6 - 1). rewrite land_mod by lia. rewrite Z.shiftl_mul_pow2 by lia.
  rewrite lor_add; [reflexivity|lia|]. apply Z.mod_pos_bound. reflexivity.
Qed.

Lemma lor_c0 x : 0 <= x < 64 -> Z.lor 0xc0 x = 0xc0 + x.
Proof. intros H. apply (lor_add 3 x 6); lia. Qed.
Lemma lor_80 x : 0 <= x < 64 -> Z.lor 0x80 x = 0x80 + x.
Proof. intros H. apply (lor_add 2 x 6); lia. Qed.
Lemma lor_e0 x : 0 <= x < 32 -> Z.lor 0xe0 x = 0xe0 + x.
Proof. intros H. apply (lor_add 7 x 5); lia. Qed.
Lemma lor_f0 x : 0 <= x < 16 -> Z.lor 0xf0 x = 0xf0 + x.
Proof. intros H. apply (lor_add 15 x 4); lia. Qed.

Lemma u8_small x : 0 <= x < 256 -> u8 x = x.
Proof. intros H. unfold u8. apply Z.mod_small. exact H. Qed.
Lemma u16_small x : 0 <= x < 65536 -> u16 x = x.
Proof. intros H. unfold u16. apply Z.mod_small. exact H. Qed.

(** Arithmetic form of the encoder. *)
Lemma utf8_encode_arith p : 0 <= p < 0x200000 ->
  utf8_encode p =
  if p <? 0x80 then [p]
  else if p <? 0x800 then [0xc0 + p / 64; 0x80 + p mod 64]
  else if p <? 0x10000 then
    [0xe0 + p / 4096; 0x80 + (p / 64) mod 64; 0x80 + p mod 64]
  else [0xf0 + p / 262144; 0x80 + (p / 4096) mod 64; 0x80 + (p / 64) mod 64; 0x80 + p mod 64].
Proof.
  intros Hp. unfold utf8_encode.
  change 0x3f with (2 ^ 6 - 1). rewrite !land_mod, !shiftr_div by lia.
  change (2 ^ 6) with 64. change (2 ^ 12) with 4096. change (2 ^ 18) with 262144.
  destruct (Z.ltb_spec p 0x80) as [H1|H1]; [rewrite u8_small by lia; reflexivity|].
  destruct (Z.ltb_spec p 0x800) as [H2|H2];
    [rewrite lor_c0, lor_80, !u8_small by lia; reflexivity|].
  destruct (Z.ltb_spec p 0x10000) as [H3|H3];
    [rewrite lor_e0, !lor_80, !u8_small by lia; reflexivity|].
  rewrite lor_f0, !lor_80, !u8_small by lia; reflexivity.
Qed.

(** Arithmetic form of the decoder. *)
Lemma land_1f b : Z.land b 0x1f = b mod 32.
Proof. apply (land_mod b 5); lia. Qed.
Lemma land_0f b : Z.land b 0xf = b mod 16.
Proof. apply (land_mod b 4); lia. Qed.
Lemma land_07 b : Z.land b 0x7 = b mod 8.
Proof. apply (land_mod b 3); lia. Qed.

Definition contb (b : Z) : bool := (0x80 <=? b) && (b <? 0xc0).

Definition utf8_decode_arith (v : list Z) : dres :=
  match v with
  | [] => dres_default
  | f :: rest =>
    if f <? 0x80 then {| point := f; stat := Valid; nbytes := 1 |}
    else if f <? 0xc0 then utf8_bad f Truncated
    else if f <? 0xe0 then
      match rest with
      | b0 :: _ => if contb b0 then {| point := (f - 0xc0) * 64 + (b0 - 0x80); stat := Valid; nbytes := 2 |}
                   else utf8_bad f Invalid
      | _ => utf8_bad f Truncated
      end
    else if f <? 0xf0 then
      match rest with
      | b0 :: b1 :: _ =>
          if contb b0 && contb b1 then
            {| point := ((f - 0xe0) * 64 + (b0 - 0x80)) * 64 + (b1 - 0x80); stat := Valid; nbytes := 3 |}
          else utf8_bad f Invalid
      | _ => utf8_bad f Truncated
      end
    else if f <? 0xf8 then
      match rest with
      | b0 :: b1 :: b2 :: _ =>
          if contb b0 && contb b1 && contb b2 then
            {| point := (((f - 0xf0) * 64 + (b0 - 0x80)) * 64 + (b1 - 0x80)) * 64 + (b2 - 0x80);
               stat := Valid; nbytes := 4 |}
          else utf8_bad f Invalid
      | _ => utf8_bad f Truncated
      end
    else utf8_bad f Truncated
  end.

Lemma utf8_decode_arith_eq v : bytes_ok v -> utf8_decode v = utf8_decode_arith v.
Proof.
  intros Hv. destruct v as [|f rest]; [reflexivity|].
  apply bytes_ok_cons in Hv. destruct Hv as [Hf Hrest]. unfold is_byte in Hf.
  unfold utf8_decode, utf8_decode_arith, utf8_decode_slow. cbv zeta.
  rewrite sel_spec by exact Hf. rewrite land_1f, land_0f, land_07.
  destruct (Z.ltb_spec f 0x80) as [H1|H1]; [reflexivity|].
  destruct (Z.ltb_spec f 0xc0) as [H2|H2].
  { replace ((8 <=? (f / 8) mod 16) && ((f / 8) mod 16 <=? 11)) with false by lia.
    replace ((12 <=? (f / 8) mod 16) && ((f / 8) mod 16 <=? 13)) with false by lia.
    replace ((f / 8) mod 16 =? 14) with false by lia. reflexivity. }
  destruct (Z.ltb_spec f 0xe0) as [H3|H3].
  { replace ((8 <=? (f / 8) mod 16) && ((f / 8) mod 16 <=? 11)) with true by lia.
    destruct rest as [|b0 rest]; [reflexivity|].
    apply bytes_ok_cons in Hrest. destruct Hrest as [Hb0 _].
    rewrite is_cont_iff by exact Hb0. fold (contb b0).
    destruct (contb b0) eqn:E0; [|reflexivity]. unfold contb in E0.
    rewrite shift_in_spec. f_equal. lia. }
  destruct (Z.ltb_spec f 0xf0) as [H4|H4].
  { replace ((8 <=? (f / 8) mod 16) && ((f / 8) mod 16 <=? 11)) with false by lia.
    replace ((12 <=? (f / 8) mod 16) && ((f / 8) mod 16 <=? 13)) with true by lia.
    destruct rest as [|b0 [|b1 rest]]; [reflexivity|reflexivity|].
    apply bytes_ok_cons in Hrest. destruct Hrest as [Hb0 Hrest].
    apply bytes_ok_cons in Hrest. destruct Hrest as [Hb1 _].
    rewrite !is_cont_iff by assumption. fold (contb b0) (contb b1).
    destruct (contb b0) eqn:E0; [|reflexivity].
    destruct (contb b1) eqn:E1; [|reflexivity]. unfold contb in E0, E1. cbn [andb].
    rewrite !shift_in_spec. f_equal. lia. }
  destruct (Z.ltb_spec f 0xf8) as [H5|H5].
  { replace ((8 <=? (f / 8) mod 16) && ((f / 8) mod 16 <=? 11)) with false by lia.
    replace ((12 <=? (f / 8) mod 16) && ((f / 8) mod 16 <=? 13)) with false by lia.
    replace ((f / 8) mod 16 =? 14) with true by lia.
    destruct rest as [|b0 [|b1 [|b2 rest]]]; [reflexivity|reflexivity|reflexivity|].
    apply bytes_ok_cons in Hrest. destruct Hrest as [Hb0 Hrest].
    apply bytes_ok_cons in Hrest. destruct Hrest as [Hb1 Hrest].
    apply bytes_ok_cons in Hrest. destruct Hrest as [Hb2 _].
    rewrite !is_cont_iff by assumption. fold (contb b0) (contb b1) (contb b2).
    destruct (contb b0) eqn:E0; [|reflexivity].
    destruct (contb b1) eqn:E1; [|reflexivity].
    destruct (contb b2) eqn:E2; [|reflexivity]. unfold contb in E0, E1, E2. cbn [andb].
    rewrite !shift_in_spec. f_equal. lia. }
  replace ((8 <=? (f / 8) mod 16) && ((f / 8) mod 16 <=? 11)) with false by lia.
  replace ((12 <=? (f / 8) mod 16) && ((f / 8) mod 16 <=? 13)) with false by lia.
  replace ((f / 8) mod 16 =? 14) with false by lia. reflexivity.
Qed.

Lemma utf8_encode_bytes p : bytes_ok (utf8_encode p).
Proof.
  unfold utf8_encode, bytes_ok, is_byte, u8.
  destruct (p <? 0x80); [|destruct (p <? 0x800); [|destruct (p <? 0x10000)]];
    repeat constructor; apply Z.mod_pos_bound; reflexivity.
Qed.

Lemma utf8_encode_length p : length (utf8_encode p) = utf8_numBytes p.
Proof.
  unfold utf8_encode, utf8_numBytes.
  destruct (p <? 0x80); [|destruct (p <? 0x800); [|destruct (p <? 0x10000)]]; reflexivity.
Qed.

Lemma utf8_numBytes_range p : (1 <= utf8_numBytes p <= 4)%nat.
Proof.
  unfold utf8_numBytes.
  destruct (p <? 0x80); [|destruct (p <? 0x800); [|destruct (p <? 0x10000)]]; lia.
Qed.

Lemma utf8_decode_app v rest : bytes_ok v -> stat (utf8_decode_arith v) <> Truncated ->
  utf8_decode_arith (v ++ rest) = utf8_decode_arith v.
Proof.
  intros Hv Hs. destruct v as [|f v]; [destruct Hs; reflexivity|].
  cbn [app utf8_decode_arith] in *.
  destruct (f <? 0x80); [reflexivity|].
  destruct (f <? 0xc0); [reflexivity|].
  destruct (f <? 0xe0).
  { destruct v; [destruct Hs; reflexivity|reflexivity]. }
  destruct (f <? 0xf0).
  { destruct v as [|? [|? ?]]; try (destruct Hs; reflexivity). reflexivity. }
  destruct (f <? 0xf8); [|reflexivity].
  destruct v as [|? [|? [|? ?]]]; try (destruct Hs; reflexivity). reflexivity.
Qed.

Lemma decode_encode_utf8_arith p rest : 0 <= p < 0x200000 ->
  utf8_decode_arith (utf8_encode p ++ rest) =
  {| point := p; stat := Valid; nbytes := utf8_numBytes p |}.
Proof.
  intros Hp. rewrite utf8_encode_arith by exact Hp. unfold utf8_numBytes.
  destruct (Z.ltb_spec p 0x80) as [H1|H1].
  { cbn [app utf8_decode_arith]. destruct (Z.ltb_spec p 0x80); [reflexivity|lia]. }
  destruct (Z.ltb_spec p 0x800) as [H2|H2].
  { cbn [app utf8_decode_arith]. unfold contb.
    replace (0xc0 + p / 64 <? 0x80) with false by lia.
    replace (0xc0 + p / 64 <? 0xc0) with false by lia.
    replace (0xc0 + p / 64 <? 0xe0) with true by lia.
    replace ((0x80 <=? 0x80 + p mod 64) && (0x80 + p mod 64 <? 0xc0)) with true by lia.
    f_equal. lia. }
  destruct (Z.ltb_spec p 0x10000) as [H3|H3].
  { cbn [app utf8_decode_arith]. unfold contb.
    replace (0xe0 + p / 4096 <? 0x80) with false by lia.
    replace (0xe0 + p / 4096 <? 0xc0) with false by lia.
    replace (0xe0 + p / 4096 <? 0xe0) with false by lia.
    replace (0xe0 + p / 4096 <? 0xf0) with true by lia.
    replace ((0x80 <=? 0x80 + p mod 64) && (0x80 + p mod 64 <? 0xc0)) with true by lia.
    replace ((0x80 <=? 0x80 + (p / 64) mod 64) && (0x80 + (p / 64) mod 64 <? 0xc0)) with true by lia.
    cbn [andb]. f_equal. lia. }
  cbn [app utf8_decode_arith]. unfold contb.
  replace (0xf0 + p / 262144 <? 0x80) with false by lia.
  replace (0xf0 + p / 262144 <? 0xc0) with false by lia.
  replace (0xf0 + p / 262144 <? 0xe0) with false by lia.
  replace (0xf0 + p / 262144 <? 0xf0) with false by lia.
  replace (0xf0 + p / 262144 <? 0xf8) with true by lia.
  replace ((0x80 <=? 0x80 + p mod 64) && (0x80 + p mod 64 <? 0xc0)) with true by lia.
  replace ((0x80 <=? 0x80 + (p / 64) mod 64) && (0x80 + (p / 64) mod 64 <? 0xc0)) with true by lia.
  replace ((0x80 <=? 0x80 + (p / 4096) mod 64) && (0x80 + (p / 4096) mod 64 <? 0xc0)) with true by lia.
  cbn [andb]. f_equal. lia.
Qed.

(** Decoding only looks at bytes that were range-checked, so trailing data may be anything. *)
Lemma utf8_decode_ext v rest : bytes_ok v -> stat (utf8_decode v) <> Truncated ->
  utf8_decode (v ++ rest) = utf8_decode v.
Proof.
  intros Hv Hs. destruct v as [|f v]; [destruct Hs; reflexivity|].
  unfold utf8_decode in *. cbn [app] in *.
  destruct (f <? 0x80); [reflexivity|].
  unfold utf8_decode_slow in *. cbv zeta in *.
  destruct ((8 <=? Z.land (Z.shiftr f 3) 0xf) && (Z.land (Z.shiftr f 3) 0xf <=? 11)).
  { destruct v; [destruct Hs; reflexivity|reflexivity]. }
  destruct ((12 <=? Z.land (Z.shiftr f 3) 0xf) && (Z.land (Z.shiftr f 3) 0xf <=? 13)).
  { destruct v as [|? [|? ?]]; try (destruct Hs; reflexivity). reflexivity. }
  destruct (Z.land (Z.shiftr f 3) 0xf =? 14); [|reflexivity].
  destruct v as [|? [|? [|? ?]]]; try (destruct Hs; reflexivity). reflexivity.
Qed.

Lemma utf8_roundtrip p rest : 0 <= p < 0x200000 ->
  utf8_decode (utf8_encode p ++ rest) =
  {| point := p; stat := Valid; nbytes := length (utf8_encode p) |}.
Proof.
  intros Hp. rewrite utf8_encode_length.
  assert (E : utf8_decode (utf8_encode p) =
          {| point := p; stat := Valid; nbytes := utf8_numBytes p |}).
  { rewrite utf8_decode_arith_eq by apply utf8_encode_bytes.
    rewrite <- (app_nil_r (utf8_encode p)). apply decode_encode_utf8_arith. exact Hp. }
  rewrite utf8_decode_ext; [exact E|apply utf8_encode_bytes|]. rewrite E. discriminate.
Qed.

(** ** Progress and classification *)
Lemma utf8_progress v : bytes_ok v ->
  let d := utf8_decode v in
  (0 <= point d <-> (0 < nbytes d)%nat) /\
  (nbytes d <= length v)%nat /\
  (nbytes d = 0%nat <-> v = []).
Proof.
  intros Hv. cbv zeta. rewrite utf8_decode_arith_eq by exact Hv.
  destruct v as [|f v]; [cbn; split; [split; lia|split; [lia|tauto]]|].
  apply bytes_ok_cons in Hv. destruct Hv as [Hf Hv]. unfold is_byte in Hf.
  assert (Bad : forall s, let d := utf8_bad f s in
     (0 <= point d <-> (0 < nbytes d)%nat) /\ (nbytes d <= length (f :: v))%nat /\
     (nbytes d = 0%nat <-> f :: v = [])).
  { intros s. cbn. split; [lia|split; [lia|split; [lia|discriminate]]]. }
  cbv zeta in Bad. unfold utf8_decode_arith.
  destruct (Z.ltb_spec f 0x80); [apply (Bad Valid)|].
  destruct (Z.ltb_spec f 0xc0); [apply Bad|].
  destruct (Z.ltb_spec f 0xe0).
  { destruct v as [|b0 v]; [apply Bad|]. destruct (contb b0) eqn:E0; [|apply Bad].
    unfold contb in E0. cbn [point nbytes length]. split; [lia|split; [lia|split; [lia|discriminate]]]. }
  destruct (Z.ltb_spec f 0xf0).
  { destruct v as [|b0 [|b1 v]]; [apply Bad|apply Bad|].
    destruct (contb b0 && contb b1) eqn:E0; [|apply Bad].
    unfold contb in E0. cbn [point nbytes length]. split; [lia|split; [lia|split; [lia|discriminate]]]. }
  destruct (Z.ltb_spec f 0xf8); [|apply Bad].
  destruct v as [|b0 [|b1 [|b2 v]]]; [apply Bad|apply Bad|apply Bad|].
  destruct (contb b0 && contb b1 && contb b2) eqn:E0; [|apply Bad].
  unfold contb in E0. cbn [point nbytes length]. split; [lia|split; [lia|split; [lia|discriminate]]].
Qed.

From Verif Require Import TextEncodingSpec.

(** ** The decoder against the bit layout *)
Lemma utf8_decode_form l p rest : utf8_form l p -> bytes_ok rest ->
  utf8_decode (l ++ rest) = {| point := p; stat := Valid; nbytes := length l |}.
Proof.
  intros HF Hr.
  assert (Hb : bytes_ok (l ++ rest)).
  { apply bytes_ok_app. split; [|exact Hr]. unfold bytes_ok, is_byte.
    destruct HF; unfold cont_byte in *; repeat constructor; lia. }
  rewrite utf8_decode_arith_eq by exact Hb. clear Hb Hr.
  destruct HF as [b H|b c1 H H1|b c1 c2 H H1 H2|b c1 c2 c3 H H1 H2 H3];
    unfold cont_byte in *; cbn [app utf8_decode_arith length]; unfold contb.
  - destruct (Z.ltb_spec b 0x80); [reflexivity|lia].
  - destruct (Z.ltb_spec b 0x80); [lia|]. destruct (Z.ltb_spec b 0xc0); [lia|].
    destruct (Z.ltb_spec b 0xe0); [|lia].
    replace ((128 <=? c1) && (c1 <? 192)) with true by lia. f_equal.
  - destruct (Z.ltb_spec b 0x80); [lia|]. destruct (Z.ltb_spec b 0xc0); [lia|].
    destruct (Z.ltb_spec b 0xe0); [lia|]. destruct (Z.ltb_spec b 0xf0); [|lia].
    replace ((128 <=? c1) && (c1 <? 192)) with true by lia.
    replace ((128 <=? c2) && (c2 <? 192)) with true by lia. cbn [andb]. f_equal. lia.
  - destruct (Z.ltb_spec b 0x80); [lia|]. destruct (Z.ltb_spec b 0xc0); [lia|].
    destruct (Z.ltb_spec b 0xe0); [lia|]. destruct (Z.ltb_spec b 0xf0); [lia|].
    destruct (Z.ltb_spec b 0xf8); [|lia].
    replace ((128 <=? c1) && (c1 <? 192)) with true by lia.
    replace ((128 <=? c2) && (c2 <? 192)) with true by lia.
    replace ((128 <=? c3) && (c3 <? 192)) with true by lia. cbn [andb]. f_equal. lia.
Qed.

Lemma utf8_decode_valid_inv v : bytes_ok v -> stat (utf8_decode v) = Valid ->
  exists l rest, v = l ++ rest /\ utf8_form l (point (utf8_decode v)) /\
                 nbytes (utf8_decode v) = length l.
Proof.
  intros Hv. rewrite utf8_decode_arith_eq by exact Hv.
  destruct v as [|f v]; [discriminate|].
  apply bytes_ok_cons in Hv. destruct Hv as [Hf Hv]. unfold is_byte in Hf.
  cbn [utf8_decode_arith].
  destruct (Z.ltb_spec f 0x80).
  { intros _. exists [f], v. split; [reflexivity|split; [cbn [point]; apply form1; lia|reflexivity]]. }
  destruct (Z.ltb_spec f 0xc0); [discriminate|].
  destruct (Z.ltb_spec f 0xe0).
  { destruct v as [|b0 v]; [discriminate|]. destruct (contb b0) eqn:E; [|discriminate].
    intros _. exists [f; b0], v. split; [reflexivity|]. unfold contb in E.
    split; [|reflexivity]. apply form2; unfold cont_byte; lia. }
  destruct (Z.ltb_spec f 0xf0).
  { destruct v as [|b0 [|b1 v]]; [discriminate|discriminate|].
    destruct (contb b0 && contb b1) eqn:E; [|discriminate].
    intros _. exists [f; b0; b1], v. split; [reflexivity|]. unfold contb in E.
    split; [|reflexivity]. cbn [point].
    replace (((f - 224) * 64 + (b0 - 128)) * 64 + (b1 - 128))
      with ((f - 0xE0) * 4096 + (b0 - 0x80) * 64 + (b1 - 0x80)) by lia.
    apply form3; unfold cont_byte; lia. }
  destruct (Z.ltb_spec f 0xf8); [|discriminate].
  destruct v as [|b0 [|b1 [|b2 v]]]; [discriminate|discriminate|discriminate|].
  destruct (contb b0 && contb b1 && contb b2) eqn:E; [|discriminate].
  intros _. exists [f; b0; b1; b2], v. split; [reflexivity|]. unfold contb in E.
  split; [|reflexivity]. cbn [point].
  match goal with |- utf8_form _ ?e =>
    replace e with ((f - 0xF0) * 262144 + (b0 - 0x80) * 4096 + (b1 - 0x80) * 64 + (b2 - 0x80)) by lia
  end.
  apply form4; unfold cont_byte; lia.
Qed.

Lemma utf8_valid_iff v p n : bytes_ok v ->
  utf8_decode v = {| point := p; stat := Valid; nbytes := n |} <->
  exists l rest, v = l ++ rest /\ utf8_form l p /\ length l = n.
Proof.
  intros Hv. split.
  - intros E. destruct (utf8_decode_valid_inv v Hv) as (l & rest & E1 & E2 & E3);
      [rewrite E; reflexivity|]. rewrite E in E2, E3. cbn in E2, E3.
    exists l, rest. auto.
  - intros (l & rest & -> & HF & Hl). apply bytes_ok_app in Hv.
    rewrite (utf8_decode_form l p rest HF) by tauto. rewrite Hl. reflexivity.
Qed.

(** Status of the decoder as a function of the lead byte. *)
Lemma utf8_truncated_iff f rest k : bytes_ok (f :: rest) -> announced f = Some k ->
  (stat (utf8_decode (f :: rest)) = Truncated <-> (length (f :: rest) < k)%nat).
Proof.
  intros Hv Ha. rewrite utf8_decode_arith_eq by exact Hv.
  apply bytes_ok_cons in Hv. destruct Hv as [Hf Hv].
  unfold announced in Ha. cbn [utf8_decode_arith].
  destruct (f <? 0x80); [injection Ha as <-; cbn; split; [discriminate|lia]|].
  destruct (f <? 0xc0); [discriminate|].
  destruct (f <? 0xe0).
  { injection Ha as <-. destruct rest as [|b0 rest]; [cbn; split; [lia|reflexivity]|].
    destruct (contb b0); cbn; (split; [discriminate|lia]). }
  destruct (f <? 0xf0).
  { injection Ha as <-.
    destruct rest as [|b0 [|b1 rest]]; [cbn; split; [lia|reflexivity]|cbn; split; [lia|reflexivity]|].
    destruct (contb b0 && contb b1); cbn; (split; [discriminate|lia]). }
  destruct (f <? 0xf8); [|discriminate].
  injection Ha as <-.
  destruct rest as [|b0 [|b1 [|b2 rest]]]; try (cbn; split; [lia|reflexivity]).
  destruct (contb b0 && contb b1 && contb b2); cbn; (split; [discriminate|lia]).
Qed.

Lemma utf8_stray_truncated f rest : bytes_ok (f :: rest) -> announced f = None ->
  utf8_decode (f :: rest) = {| point := f; stat := Truncated; nbytes := 1 |}.
Proof.
  intros Hv Ha. rewrite utf8_decode_arith_eq by exact Hv.
  unfold announced in Ha. cbn [utf8_decode_arith].
  destruct (f <? 0x80); [discriminate|]. destruct (f <? 0xc0); [reflexivity|].
  destruct (f <? 0xe0); [discriminate|]. destruct (f <? 0xf0); [discriminate|].
  destruct (f <? 0xf8); [discriminate|]. reflexivity.
Qed.

(** The encoder produces the shortest form. *)
Lemma utf8_form_range l p : utf8_form l p ->
  match length l with
  | 1%nat => 0 <= p < 0x80 | 2%nat => 0 <= p < 0x800
  | 3%nat => 0 <= p < 0x10000 | _ => 0 <= p < 0x200000 end.
Proof. intros []; unfold cont_byte in *; cbn; lia. Qed.

Lemma utf8_encode_form p : 0 <= p < 0x200000 -> utf8_form (utf8_encode p) p.
Proof.
  intros Hp. rewrite utf8_encode_arith by exact Hp.
  destruct (Z.ltb_spec p 0x80); [constructor; lia|].
  destruct (Z.ltb_spec p 0x800).
  { match goal with |- utf8_form ?l ?q => replace (utf8_form l q) with
      (utf8_form l ((0xc0 + p / 64 - 0xC0) * 64 + (0x80 + p mod 64 - 0x80))) by (f_equal; lia) end.
    apply form2; unfold cont_byte; lia. }
  destruct (Z.ltb_spec p 0x10000).
  { match goal with |- utf8_form ?l ?q => replace (utf8_form l q) with
      (utf8_form l ((0xe0 + p / 4096 - 0xE0) * 4096 + (0x80 + (p / 64) mod 64 - 0x80) * 64
                    + (0x80 + p mod 64 - 0x80))) by (f_equal; lia) end.
    apply form3; unfold cont_byte; lia. }
  match goal with |- utf8_form ?l ?q => replace (utf8_form l q) with
    (utf8_form l ((0xf0 + p / 262144 - 0xF0) * 262144 + (0x80 + (p / 4096) mod 64 - 0x80) * 4096
                  + (0x80 + (p / 64) mod 64 - 0x80) * 64 + (0x80 + p mod 64 - 0x80))) by (f_equal; lia) end.
  apply form4; unfold cont_byte; lia.
Qed.

Lemma utf8_encode_shortest p : 0 <= p < 0x200000 -> utf8_shortest (utf8_encode p) p.
Proof.
  intros Hp. split; [apply utf8_encode_form; exact Hp|]. intros l' HF.
  pose proof (utf8_form_range l' p HF) as Hr. rewrite utf8_encode_length. unfold utf8_numBytes.
  assert (Hl : (1 <= length l' <= 4)%nat) by (destruct HF; cbn; lia).
  destruct (Z.ltb_spec p 0x80); [lia|].
  destruct l' as [|? [|? l']]; cbn [length] in *; [lia|lia|].
  destruct (Z.ltb_spec p 0x800); [lia|].
  destruct l' as [|? l']; cbn [length] in *; [lia|].
  destruct (Z.ltb_spec p 0x10000); [lia|].
  destruct l' as [|? l']; cbn [length] in *; [lia|lia].
Qed.

(** Two forms of the same length for the same point are equal. *)
Lemma utf8_form_inj l l' p : utf8_form l p -> utf8_form l' p -> length l = length l' -> l = l'.
Proof.
  intros H1 H2 Hl.
  destruct H1; inversion H2; subst; cbn in Hl; try discriminate Hl; unfold cont_byte in *;
    repeat (f_equal; try lia).
Qed.

Lemma utf8_reencode v : bytes_ok v -> stat (utf8_decode v) = Valid ->
  utf8_shortest (firstn (nbytes (utf8_decode v)) v) (point (utf8_decode v)) ->
  utf8_encode (point (utf8_decode v)) = firstn (nbytes (utf8_decode v)) v.
Proof.
  intros Hv Hs [HF Hmin].
  assert (Hp : 0 <= point (utf8_decode v) < 0x200000).
  { pose proof (utf8_form_range _ _ HF) as Hr.
    destruct (length (firstn (nbytes (utf8_decode v)) v)) as [|[|[|[|n]]]]; lia. }
  destruct (utf8_encode_shortest _ Hp) as [HF' Hmin'].
  apply utf8_form_inj with (point (utf8_decode v)); [exact HF'|exact HF|].
  apply Nat.le_antisymm; [apply Hmin'; exact HF|apply Hmin; exact HF'].
Qed.

(** ** Stepping backwards *)
Lemma land_f8 b : is_byte b -> (Z.land b 0xf8 =? 0xf0) = ((0xf0 <=? b) && (b <? 0xf8)).
Proof. intros Hb. apply eqb_prop. revert b Hb. apply byte_sweep. vm_compute. reflexivity. Qed.
Lemma land_f0 b : is_byte b -> (Z.land b 0xf0 =? 0xe0) = ((0xe0 <=? b) && (b <? 0xf0)).
Proof. intros Hb. apply eqb_prop. revert b Hb. apply byte_sweep. vm_compute. reflexivity. Qed.
Lemma land_e0 b : is_byte b -> (Z.land b 0xe0 =? 0xc0) = ((0xc0 <=? b) && (b <? 0xe0)).
Proof. intros Hb. apply eqb_prop. revert b Hb. apply byte_sweep. vm_compute. reflexivity. Qed.

Lemma utf8_back_form pre l p : utf8_form l p -> utf8_back (pre ++ l) = length l.
Proof.
  intros HF. unfold utf8_back. rewrite rev_app_distr.
  destruct HF as [b H|b c1 H H1|b c1 c2 H H1 H2|b c1 c2 c3 H H1 H2 H3];
    unfold cont_byte in *; cbn [rev app length].
  - destruct (Z.ltb_spec b 0x80); [reflexivity|lia].
  - destruct (Z.ltb_spec c1 0x80); [lia|]. cbn [utf8_back_slow].
    rewrite !is_cont_iff, ?land_e0 by (unfold is_byte; lia).
    replace ((128 <=? c1) && (c1 <? 192)) with true by lia.
    replace ((128 <=? b) && (b <? 192)) with false by lia.
    replace ((0xc0 <=? b) && (b <? 0xe0)) with true by lia.
    destruct (rev pre); reflexivity.
  - destruct (Z.ltb_spec c2 0x80); [lia|]. cbn [utf8_back_slow].
    rewrite !is_cont_iff, ?land_f0 by (unfold is_byte; lia).
    replace ((128 <=? c1) && (c1 <? 192)) with true by lia.
    replace ((128 <=? c2) && (c2 <? 192)) with true by lia.
    replace ((128 <=? b) && (b <? 192)) with false by lia.
    replace ((0xe0 <=? b) && (b <? 0xf0)) with true by lia.
    destruct (rev pre); reflexivity.
  - destruct (Z.ltb_spec c3 0x80); [lia|]. cbn [utf8_back_slow].
    rewrite !is_cont_iff, ?land_f8 by (unfold is_byte; lia).
    replace ((128 <=? c1) && (c1 <? 192)) with true by lia.
    replace ((128 <=? c2) && (c2 <? 192)) with true by lia.
    replace ((128 <=? c3) && (c3 <? 192)) with true by lia.
    replace ((0xf0 <=? b) && (b <? 0xf8)) with true by lia. reflexivity.
Qed.

(** ** UTF-16 *)
Lemma get_unit_spec be b0 b1 : is_byte b0 -> is_byte b1 ->
  get_unit be b0 b1 = if be then b0 * 256 + b1 else b0 + b1 * 256.
Proof.
  unfold is_byte. intros H0 H1. unfold get_unit. destruct be.
  - rewrite Z.shiftl_mul_pow2 by lia. rewrite (lor_add b0 b1 8) by lia. reflexivity.
  - rewrite Z.lor_comm, Z.shiftl_mul_pow2 by lia. rewrite (lor_add b1 b0 8) by lia.
    change (2 ^ 8) with 256. lia.
Qed.

Lemma put_unit_spec be u : 0 <= u < 65536 -> put_unit be u = unit_bytes be u.
Proof.
  intros H. unfold put_unit, unit_bytes. rewrite shiftr_div by lia. change (2 ^ 8) with 256.
  destruct be; unfold u8; change (2 ^ 8) with 256; rewrite (Z.mod_small (u / 256)) by lia; reflexivity.
Qed.

Lemma unit_bytes_ok be u : 0 <= u < 65536 -> bytes_ok (unit_bytes be u).
Proof. intros H. unfold unit_bytes, bytes_ok, is_byte. destruct be; repeat constructor; lia. Qed.

Lemma get_unit_bytes be u : 0 <= u < 65536 ->
  exists a b, unit_bytes be u = [a; b] /\ get_unit be a b = u /\ is_byte a /\ is_byte b.
Proof.
  intros H. unfold unit_bytes. destruct be.
  - exists (u / 256), (u mod 256). split; [reflexivity|].
    rewrite get_unit_spec by (unfold is_byte; lia). unfold is_byte. lia.
  - exists (u mod 256), (u / 256). split; [reflexivity|].
    rewrite get_unit_spec by (unfold is_byte; lia). unfold is_byte. lia.
Qed.

Lemma utf16_encode_layout be p : 0 <= p < 0x110000 -> utf16_encode be p = utf16_layout be p.
Proof.
  intros H. unfold utf16_encode, utf16_layout.
  destruct (Z.ltb_spec p 0x10000).
  - rewrite u16_small by lia. apply put_unit_spec. lia.
  - cbv zeta. change 0x3ff with (2 ^ 10 - 1). rewrite !land_mod, shiftr_div by lia.
    change (2 ^ 10) with 1024. rewrite !u16_small by lia. rewrite !put_unit_spec by lia.
    f_equal. f_equal. lia.
Qed.

Lemma utf16_roundtrip be p rest : scalar p ->
  utf16_decode be (utf16_encode be p ++ rest) =
  {| point := p; stat := Valid; nbytes := length (utf16_encode be p) |}.
Proof.
  intros Hp. unfold scalar in Hp. rewrite utf16_encode_layout by lia. unfold utf16_layout.
  destruct (Z.ltb_spec p 0x10000).
  - destruct (get_unit_bytes be p) as (a & b & E & G & Ha & Hb); [lia|].
    rewrite E. cbn [app utf16_decode length]. rewrite G.
    replace ((0xd800 <=? p) && (p <? 0xdc00)) with false by lia.
    replace ((0xdc00 <=? p) && (p <? 0xe000)) with false by lia. reflexivity.
  - destruct (get_unit_bytes be (0xD800 + (p - 0x10000) / 1024)) as (a & b & E & G & Ha & Hb); [lia|].
    destruct (get_unit_bytes be (0xDC00 + (p - 0x10000) mod 1024)) as (c & d & E' & G' & Hc & Hd); [lia|].
    rewrite E, E'. cbn [app utf16_decode length]. rewrite G, G'.
    replace ((0xd800 <=? 0xD800 + (p - 0x10000) / 1024) && (0xD800 + (p - 0x10000) / 1024 <? 0xdc00))
      with true by lia.
    replace ((0xdc00 <=? 0xDC00 + (p - 0x10000) mod 1024) && (0xDC00 + (p - 0x10000) mod 1024 <? 0xe000))
      with true by lia.
    rewrite Z.shiftl_mul_pow2 by lia. f_equal. change (2 ^ 10) with 1024. lia.
Qed.

Lemma utf16_valid_inv be v : bytes_ok v -> stat (utf16_decode be v) = Valid ->
  scalar (point (utf16_decode be v)) /\
  exists rest, v = utf16_layout be (point (utf16_decode be v)) ++ rest /\
               nbytes (utf16_decode be v) = length (utf16_layout be (point (utf16_decode be v))).
Proof.
  intros Hv. destruct v as [|a [|b v]]; [discriminate|discriminate|].
  apply bytes_ok_cons in Hv. destruct Hv as [Ha Hv].
  apply bytes_ok_cons in Hv. destruct Hv as [Hb Hv].
  cbn [utf16_decode]. pose proof (get_unit_spec be a b Ha Hb) as G.
  set (u := get_unit be a b) in *.
  assert (Hu : unit_bytes be u = [a; b]).
  { unfold is_byte in *. unfold unit_bytes. rewrite G.
    destruct be; (f_equal; [|f_equal]); lia. }
  assert (Hr : 0 <= u < 65536) by (unfold is_byte in *; rewrite G; destruct be; lia).
  clearbody u. clear G.
  destruct ((0xd800 <=? u) && (u <? 0xdc00)) eqn:E1.
  - destruct v as [|c [|d v]]; [discriminate|discriminate|].
    apply bytes_ok_cons in Hv. destruct Hv as [Hc Hv].
    apply bytes_ok_cons in Hv. destruct Hv as [Hd Hv].
    pose proof (get_unit_spec be c d Hc Hd) as G. set (w := get_unit be c d) in *.
    assert (Hw : unit_bytes be w = [c; d]).
    { unfold is_byte in *. unfold unit_bytes. rewrite G. destruct be; (f_equal; [|f_equal]); lia. }
    clearbody w. clear G.
    destruct ((0xdc00 <=? w) && (w <? 0xe000)) eqn:E2; [|discriminate].
    intros _. cbn [point nbytes]. rewrite Z.shiftl_mul_pow2 by lia. change (2 ^ 10) with 1024.
    split; [unfold scalar; lia|]. exists v. unfold utf16_layout.
    set (q := 65536 + (u - 55296) * 1024 + (w - 56320)).
    destruct (Z.ltb_spec q 0x10000); [lia|].
    replace (0xD800 + (q - 0x10000) / 1024) with u by lia.
    replace (0xDC00 + (q - 0x10000) mod 1024) with w by lia.
    rewrite Hu, Hw. split; reflexivity.
  - destruct ((0xdc00 <=? u) && (u <? 0xe000)) eqn:E2; [discriminate|].
    intros _. cbn [negb point nbytes]. split; [unfold scalar; lia|]. exists v.
    unfold utf16_layout. destruct (Z.ltb_spec u 0x10000); [|lia]. rewrite Hu. split; reflexivity.
Qed.

Lemma utf16_progress be v :
  bytes_ok v ->
  let d := utf16_decode be v in
  (0 <= point d <-> (0 < nbytes d)%nat) /\ (nbytes d <= length v)%nat /\
  (nbytes d = 0%nat <-> (length v < 2)%nat) /\
  (stat d = Truncated -> (length v < 4)%nat).
Proof.
  intros Hv. cbv zeta. destruct v as [|a [|b v]].
  - cbn. repeat split; lia.
  - cbn. repeat split; lia.
  - apply bytes_ok_cons in Hv. destruct Hv as [Ha Hv].
    apply bytes_ok_cons in Hv. destruct Hv as [Hb Hv].
    cbn [utf16_decode]. pose proof (get_unit_spec be a b Ha Hb) as G.
    unfold is_byte in *. set (u := get_unit be a b) in *.
    assert (Hu : 0 <= u) by (rewrite G; destruct be; lia). clearbody u.
    destruct ((0xd800 <=? u) && (u <? 0xdc00)) eqn:E1.
    + destruct v as [|c [|d v]]; [cbn; repeat split; lia|cbn; repeat split; lia|].
      apply bytes_ok_cons in Hv. destruct Hv as [Hc Hv].
      apply bytes_ok_cons in Hv. destruct Hv as [Hd Hv].
      set (w := get_unit be c d) in *. clearbody w.
      destruct ((0xdc00 <=? w) && (w <? 0xe000)) eqn:E2; cbn [point nbytes stat length];
        rewrite ?Z.shiftl_mul_pow2 by lia; repeat split; try lia; discriminate.
    + destruct ((0xdc00 <=? u) && (u <? 0xe000)) eqn:E2; cbn [negb point nbytes stat length];
        repeat split; try lia; discriminate.
Qed.

Lemma utf16_back_layout be pre p : scalar p ->
  utf16_back be (pre ++ utf16_layout be p) = length (utf16_layout be p).
Proof.
  intros Hp. unfold scalar in Hp. unfold utf16_back. rewrite rev_app_distr. unfold utf16_layout.
  destruct (Z.ltb_spec p 0x10000).
  - destruct (get_unit_bytes be p) as (a & b & E & G & Ha & Hb); [lia|].
    rewrite E. cbn [rev app length]. destruct (rev pre) as [|x [|y r]]; [reflexivity|reflexivity|].
    rewrite G. replace (0xdc00 <=? p) with (0xe000 <=? p) by lia.
    destruct (Z.leb_spec 0xe000 p).
    + replace (p <? 0xe000) with false by lia. rewrite andb_false_r. reflexivity.
    + rewrite andb_false_r. reflexivity.
  - destruct (get_unit_bytes be (0xD800 + (p - 0x10000) / 1024)) as (a & b & E & G & Ha & Hb); [lia|].
    destruct (get_unit_bytes be (0xDC00 + (p - 0x10000) mod 1024)) as (c & d & E' & G' & Hc & Hd); [lia|].
    rewrite E, E'. cbn [rev app length]. rewrite G, G'.
    replace ((0xd800 <=? 0xD800 + (p - 0x10000) / 1024) && (0xD800 + (p - 0x10000) / 1024 <? 0xdc00))
      with true by lia. cbn [andb].
    replace ((0xdc00 <=? 0xDC00 + (p - 0x10000) mod 1024) && (0xDC00 + (p - 0x10000) mod 1024 <? 0xe000))
      with true by lia. reflexivity.
Qed.
