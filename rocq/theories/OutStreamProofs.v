(* Proofs about the model of output streams. *)
From Verif Require Import OutStreamModel OutStreamSpec SequenceProofs.
From Coq Require Import ZifyBool ZifyNat.
Ltac Zify.zify_post_hook ::= Z.div_mod_to_equations.

Lemma zlen_nonneg {A} (l : list A) : 0 <= zlen l.
Proof. unfold zlen. lia. Qed.
Lemma zlen_app {A} (a b : list A) : zlen (a ++ b) = zlen a + zlen b.
Proof. unfold zlen. rewrite app_length. lia. Qed.
Lemma s32_id z : 0 <= z < 2 ^ 31 -> s32 z = z.
Proof. intros H. unfold s32, to_signed. rewrite Z.mod_small by lia. cbv zeta. replace (z <? 2 ^ (32 - 1)) with true by lia. reflexivity. Qed.

Section Proofs.
Context (pipe : nat -> list Z -> nat * bool) (flushPipe : nat -> bool) (blk : Z).
Notation flushInternal := (flushInternal pipe).
Notation flush := (flush pipe flushPipe).
Notation tryMakeInternal := (tryMakeInternal pipe blk).
Notation tryMake := (tryMake pipe blk).
Notation make := (make pipe blk).
Notation write := (write pipe blk).
Notation writeByte := (writeByte pipe blk).
Notation writeLoop := (writeLoop pipe blk).
Notation step := (step pipe flushPipe blk).
Notation run := (run pipe flushPipe blk).

(* ---- what has been delivered, whenever a call returns ---- *)
Definition J (s : stream) (l : list Z) : Prop :=
  match kd s with
  | View => False
  | Pipe => if eof s then prefix (received s) l else received s ++ skipn (Z.to_nat (flushed s)) (buf s) = l
  | Mem => eof s = false /\ binv 1 (prev s) /\ off s = u64 (usedsum 1 (prev s)) /\ contents (prev s) ++ buf s = l
  end /\ 0 <= flushed s <= cur s /\ 1 <= size s /\ (eof s = false -> off s = u64 (zlen l - cur s)).

(** A memory stream does not call the pipe. *)
Definition hon (s : stream) : Prop := kd s = Pipe -> honest pipe.
Lemma flushInternal_J s s' ok l : hon s -> flushInternal s = Some (s', ok) -> J s l ->
  J s' l /\ ok = negb (eof s') /\ buf s' = buf s /\ flushed s' = cur s /\ off s' = off s /\ size s' = size s /\ prev s' = prev s /\ kd s' = kd s /\
  lim s' = lim s /\ lim s = size s /\ cur s <= size s /\ (never_fails pipe \/ kd s = Mem -> eof s = false -> eof s' = false) /\ (eof s = true -> eof s' = true) /\ flushes s' = flushes s.
Proof.
  intros Hp H (Hd & Hf & Hz & Ho). destruct s as [k pv bf sz fl of_ lm ef rc cl fs]. unfold OutStreamModel.flushInternal in H. unfold J, cur in *.
  cbn [kd prev buf size flushed off lim eof received calls flushes] in *.
  destruct k; [contradiction| |].
  - destruct (Z.eqb_spec lm sz) as [E1|]; [|discriminate]. destruct (Z.leb_spec fl (zlen bf)) as [E2|]; [|discriminate].
    destruct (Z.leb_spec (zlen bf) sz) as [E3|]; [|discriminate]. cbn [andb] in H. injection H as <- <-.
    destruct (Z.ltb_spec fl (zlen bf)) as [E4|E4].
    + destruct ef.
      * cbn [kd prev buf size flushed off lim eof received calls flushes]. intuition lia.
      * destruct (pipe cl (skipn (Z.to_nat fl) bf)) as [n ok] eqn:Ep. cbn [kd prev buf size flushed off lim eof received calls flushes].
        destruct ok; cbn [negb].
        { pose proof (Hp eq_refl _ _ _ Ep) as Hn. rewrite firstn_all2 by exact Hn. rewrite (@skipn_all2 Z (Z.to_nat (zlen bf)) bf) by (unfold zlen; lia). rewrite app_nil_r.
          intuition (try lia; try congruence). }
        { split; [split; [|split; [lia|split; [lia|discriminate]]]|].
          - exists (skipn n (skipn (Z.to_nat fl) bf)). rewrite <- app_assoc, firstn_skipn. congruence.
          - intuition (try lia; try congruence). exfalso. match goal with N : never_fails pipe |- _ => specialize (N cl (skipn (Z.to_nat fl) bf)); rewrite Ep in N; discriminate N end. }
    + assert (fl = zlen bf) by lia. cbn [kd prev buf size flushed off lim eof received calls flushes]. intuition (try lia; try congruence).
  - destruct (Z.eqb_spec lm sz) as [E1|]; [|discriminate]. destruct (Z.leb_spec fl (zlen bf)) as [E2|]; [|discriminate].
    destruct (Z.leb_spec (zlen bf) sz) as [E3|]; [|discriminate]. cbn [andb] in H. injection H as <- <-.
    destruct Hd as (-> & Hd). destruct (Z.ltb_spec fl (zlen bf)) as [E4|E4]; cbn [kd prev buf size flushed off lim eof received calls flushes].
    + intuition (try lia; try congruence).
    + assert (fl = zlen bf) by lia. intuition (try lia; try congruence).
Qed.

Lemma nextBlock_J s n s' l : nextBlock s n = Some s' -> J s l -> flushed s = cur s -> cur s <= size s -> 1 <= n ->
  J s' l /\ kd s' = kd s /\ eof s' = eof s /\ size s' = n /\ avail s' = n /\ lim s' = n /\ buf s' = [] /\ flushed s' = 0 /\ flushes s' = flushes s.
Proof.
  intros H (Hd & Hf & Hz & Ho) Hc Hsz Hn. destruct s as [k pv bf sz fl of_ lm ef rc cl fs]. unfold nextBlock, createBlock in H. unfold J, cur, avail in *.
  cbn [kd prev buf size flushed off lim eof received calls flushes] in *. destruct (100 <? n); [|discriminate]. injection H as <-.
  unfold cur. cbn [kd prev buf size flushed off lim eof received calls flushes bsize boff]. subst fl.
  assert (Hk : Z.to_nat (zlen bf) = length bf) by (unfold zlen; lia). change (zlen (@nil Z)) with 0.
  assert (Ho' : ef = false -> u64 (of_ + zlen bf) = u64 (zlen l - 0)).
  { intros E. rewrite (Ho E). unfold u64. rewrite Zplus_mod_idemp_l. f_equal. lia. }
  split; [|repeat split; auto; lia]. split; [|split; [lia|split; [lia|exact Ho']]].
  destruct k; [contradiction| |].
  - destruct ef; [exact Hd|]. rewrite Hk, skipn_all in Hd. rewrite app_nil_r in Hd. cbn [skipn Z.to_nat]. rewrite app_nil_r. exact Hd.
  - destruct Hd as (E & Hb & Hof & Hct). split; [exact E|]. rewrite Hk, firstn_all. split; [|split].
    + cbn [binv bsize boff bitems]. unfold used. cbn [bitems]. split; [lia|]. split; [lia|]. split; [exact Hof|exact Hb].
    + rewrite usedsum_cons. unfold used. cbn [bitems]. rewrite Hof. unfold u64. rewrite Zplus_mod_idemp_l. f_equal. lia.
    + rewrite contents_cons. cbn [bitems]. rewrite app_nil_r. exact Hct.
Qed.

Lemma J_lim s l z : J s l -> J (mko (kd s) (prev s) (buf s) (size s) (flushed s) (off s) z (eof s) (received s) (calls s) (flushes s)) l.
Proof. destruct s. exact (fun H => H). Qed.

Lemma tryMakeInternal_J s n s' m l : hon s -> 100 < blk -> tryMakeInternal s n = Some (s', m) -> J s l ->
  J s' l /\ kd s' = kd s /\ (never_fails pipe \/ kd s = Mem -> eof s = false -> eof s' = false) /\ (eof s = true -> eof s' = true) /\ flushes s' = flushes s /\
  (m = 0 /\ 0 < n /\ eof s' = true \/ Z.max blk (Z.abs n) = m /\ avail s' = m /\ lim s' = size s' /\ buf s' = [] /\ flushed s' = 0).
Proof.
  intros Hp Hb H HJ. unfold OutStreamModel.tryMakeInternal in H. destruct (Z.eqb_spec n 0) as [|Hn0]; [discriminate|].
  assert (Hk : kd s <> View) by (intros E; destruct HJ as (Hd & _); rewrite E in Hd; exact Hd).
  assert (H' : (if eof s && (0 <? n) then Some (s, 0) else
    match flushInternal s with
    | None => None
    | Some (s, ok) =>
      if negb ok && (0 <? n) then
        Some (mko (kd s) (prev s) (buf s) (size s) (flushed s) (off s) (cur s) (eof s) (received s) (calls s) (flushes s), 0)
      else match nextBlock s (Z.max blk (Z.abs n)) with Some s => Some (s, size s) | None => None end
    end) = Some (s', m)) by (destruct (kd s); [congruence|exact H|exact H]). clear H. rename H' into H.
  destruct (eof s && (0 <? n)) eqn:E0.
  { injection H as <- <-. apply andb_true_iff in E0. destruct E0 as (E0 & E1). split; [exact HJ|]. split; [reflexivity|]. split; [congruence|]. split; [auto|]. split; [reflexivity|].
    left. split; [reflexivity|]. split; [lia|exact E0]. }
  destruct (flushInternal s) as [(s1 & ok)|] eqn:Ef; [|discriminate].
  destruct (flushInternal_J s s1 ok l Hp Ef HJ) as (J1 & Eok & Eb & Efl & Eo & Es & Epv & Ek & El & Els & Ec & Env & Eef & Efs).
  destruct (negb ok && (0 <? n)) eqn:E1.
  - injection H as <- <-. apply andb_true_iff in E1. destruct E1 as (E1 & E2). split; [apply J_lim; exact J1|]. cbn [kd eof flushes].
    split; [exact Ek|]. split; [exact Env|]. split; [exact Eef|]. split; [exact Efs|]. left. split; [reflexivity|]. split; [lia|]. rewrite Eok, negb_involutive in E1. exact E1.
  - destruct (nextBlock s1 (Z.max blk (Z.abs n))) as [s2|] eqn:En; [|discriminate]. injection H as <- <-.
    destruct (nextBlock_J s1 _ s2 l En J1) as (J2 & K2 & E2 & Z2 & A2 & L2 & B2 & F2 & G2); [unfold cur in *; rewrite Eb; exact Efl|unfold cur in *; rewrite Eb, Es; exact Ec|lia|].
    split; [exact J2|]. split; [congruence|]. split; [intros X Y; rewrite E2; auto|]. split; [intros X; rewrite E2; auto|]. split; [congruence|]. right.
    rewrite Z2. split; [reflexivity|]. split; [exact A2|]. split; [rewrite L2; reflexivity|]. auto.
Qed.

Lemma put_J s bs s' l : put s bs = Some s' -> J s l -> J s' (l ++ bs) /\ kd s' = kd s /\ eof s' = eof s /\ flushes s' = flushes s /\ avail s' = avail s - zlen bs /\
  lim s' = lim s /\ size s' = size s.
Proof.
  intros H (Hd & Hf & Hz & Ho). destruct s as [k pv bf sz fl of_ lm ef rc cl fs]. unfold put in H. unfold J, avail, cur in *.
  cbn [kd prev buf size flushed off lim eof received calls flushes] in *. destruct (Z.leb_spec (zlen bs) (lm - zlen bf)) as [Hle|]; [|discriminate]. injection H as <-.
  cbn [kd prev buf size flushed off lim eof received calls flushes]. rewrite !zlen_app. pose proof (zlen_nonneg bs).
  split; [|repeat split; auto; lia]. split; [|split; [lia|split; [lia|intros E; rewrite (Ho E); f_equal; lia]]].
  destruct k; [contradiction| |].
  - destruct ef.
    + destruct Hd as (c & ->). exists (c ++ bs). rewrite app_assoc. reflexivity.
    + rewrite skipn_app. replace (Z.to_nat fl - length bf)%nat with 0%nat by (unfold zlen in *; lia). cbn [skipn]. rewrite app_assoc, Hd. reflexivity.
  - destruct Hd as (E & Hb & Hof & Hct). split; [exact E|]. split; [exact Hb|]. split; [exact Hof|]. rewrite app_assoc, Hct. reflexivity.
Qed.
Lemma J_lost s l bs : J s l -> eof s = true -> J s (l ++ bs).
Proof.
  intros (Hd & Hf & Hz & Ho) E. unfold J in *. rewrite E in *. split; [|split; [exact Hf|split; [exact Hz|discriminate]]]. destruct (kd s); [exact Hd| |].
  - destruct Hd as (c & ->). exists (c ++ bs). rewrite app_assoc. reflexivity.
  - destruct Hd; discriminate.
Qed.

Definition good (s : stream) : Prop := (never_fails pipe \/ kd s = Mem) /\ eof s = false.
(** What a call that hands over [bs] does to a stream. *)
Definition moves (s s' : stream) (l bs : list Z) (b : bool) : Prop :=
  J s' (l ++ bs) /\ kd s' = kd s /\ flushes s' = flushes s /\ (good s -> eof s' = false /\ b = true).

Lemma tryMake_J s n s' m l : hon s -> 100 < blk -> 1 <= n -> tryMake s n = Some (s', m) -> J s l ->
  J s' l /\ kd s' = kd s /\ flushes s' = flushes s /\ (good s -> eof s' = false) /\ (m < n /\ m = 0 /\ eof s' = true \/ n <= m /\ n <= avail s').
Proof.
  intros Hp Hb Hn H HJ. unfold OutStreamModel.tryMake in H. destruct (Z.ltb_spec (avail s) n) as [Ha|Ha].
  - destruct (tryMakeInternal_J s n s' m l Hp Hb H HJ) as (J1 & K & E1 & E2 & F & C). split; [exact J1|]. split; [exact K|]. split; [exact F|].
    split; [intros (G1 & G2); auto|]. destruct C as [(-> & _ & C)|(C1 & C2 & _)]; [left; split; [lia|auto]|right; lia].
  - injection H as <- <-. split; [exact HJ|]. split; [reflexivity|]. split; [reflexivity|]. split; [intros (_ & G); exact G|]. right. lia.
Qed.
Lemma writeByte_J s b s' r l : hon s -> 100 < blk -> writeByte s b = Some (s', r) -> J s l -> moves s s' l [b] r.
Proof.
  intros Hp Hb H HJ. unfold OutStreamModel.writeByte in H. destruct (tryMake s 1) as [(s1 & m)|] eqn:E; [|discriminate].
  destruct (tryMake_J s 1 s1 m l Hp Hb ltac:(lia) E HJ) as (J1 & K & F & G & C). destruct (Z.eqb_spec m 0) as [->|Hm].
  - injection H as <- <-. destruct C as [(_ & _ & C)|C]; [|lia]. split; [apply J_lost; assumption|]. split; [exact K|]. split; [exact F|]. intros X. rewrite (G X) in C. discriminate.
  - destruct (put s1 [b]) as [s2|] eqn:Ep; [|discriminate]. injection H as <- <-. destruct (put_J s1 [b] s2 l Ep J1) as (J2 & K2 & E2 & F2 & _).
    split; [exact J2|]. split; [congruence|]. split; [congruence|]. intros X. rewrite E2. auto.
Qed.
Lemma writeLoop_J : forall fuel s bs s' r l, hon s -> 100 < blk -> writeLoop fuel s bs = Some (s', r) -> J s l -> moves s s' l bs r.
Proof.
  induction fuel as [|fuel IH]; intros s bs s' r l Hp Hb H HJ.
  - destruct bs; [|discriminate]. cbn in H. injection H as <- <-. rewrite <- (app_nil_r l) in HJ. split; [exact HJ|]. split; [reflexivity|]. split; [reflexivity|]. intros (_ & X); auto.
  - destruct bs as [|b0 bs0]; [cbn in H; injection H as <- <-; rewrite <- (app_nil_r l) in HJ; split; [exact HJ|]; split; [reflexivity|]; split; [reflexivity|]; intros (_ & X); auto|].
    set (bs := b0 :: bs0) in *. cbn [OutStreamModel.writeLoop] in H. change (match bs with [] => Some (s, true) | _ :: _ => match tryMake s 1 with
      | Some (s0, n) => if n =? 0 then Some (s0, false) else let k := Z.to_nat (Z.min (avail s0) (zlen bs)) in
           match put s0 (firstn k bs) with Some s1 => writeLoop fuel s1 (skipn k bs) | None => None end | None => None end end = Some (s', r)) in H.
    change (match tryMake s 1 with
      | Some (s0, n) => if n =? 0 then Some (s0, false) else let k := Z.to_nat (Z.min (avail s0) (zlen bs)) in
           match put s0 (firstn k bs) with Some s1 => writeLoop fuel s1 (skipn k bs) | None => None end | None => None end = Some (s', r)) in H.
    destruct (tryMake s 1) as [(s1 & m)|] eqn:E; [|discriminate].
    destruct (tryMake_J s 1 s1 m l Hp Hb ltac:(lia) E HJ) as (J1 & K & F & G & C). destruct (Z.eqb_spec m 0) as [->|Hm].
    + injection H as <- <-. destruct C as [(_ & _ & C)|C]; [|lia]. split; [apply J_lost; assumption|]. split; [exact K|]. split; [exact F|]. intros X. rewrite (G X) in C. discriminate.
    + cbv zeta in H. set (k := Z.to_nat (Z.min (avail s1) (zlen bs))) in *. destruct (put s1 (firstn k bs)) as [s2|] eqn:Ep; [|discriminate].
      destruct (put_J s1 _ s2 l Ep J1) as (J2 & K2 & E2 & F2 & _). assert (Hp2 : hon s2) by (unfold hon; rewrite K2, K; exact Hp). destruct (IH s2 _ s' r _ Hp2 Hb H J2) as (J3 & K3 & F3 & G3).
      rewrite <- app_assoc, firstn_skipn in J3. split; [exact J3|]. split; [congruence|]. split; [congruence|]. intros X. apply G3. pose proof (G X). destruct X as (X1 & X2).
      split; [rewrite K2, K; exact X1|congruence].
Qed.
Lemma write_J s bs s' r l : hon s -> 100 < blk -> write s bs = Some (s', r) -> J s l -> moves s s' l bs r.
Proof.
  intros Hp Hb H HJ. unfold OutStreamModel.write, writeSlowPath in H. destruct (avail s <? s32 (zlen bs)).
  - destruct (eof s) eqn:E.
    + injection H as <- <-. split; [apply J_lost; assumption|]. split; [reflexivity|]. split; [reflexivity|]. intros (_ & X). congruence.
    + exact (writeLoop_J _ _ _ _ _ _ Hp Hb H HJ).
  - destruct (put s bs) as [s1|] eqn:Ep; [|discriminate]. injection H as <- <-. destruct (put_J s bs s1 l Ep HJ) as (J1 & K1 & E1 & F1 & _).
    split; [exact J1|]. split; [exact K1|]. split; [exact F1|]. intros (_ & X). rewrite E1, X. auto.
Qed.

Lemma flush_J s s' r l : hon s -> flush s = Some (s', r) -> J s l ->
  J s' l /\ kd s' = kd s /\ (good s -> eof s' = false) /\ flushed s' = cur s' /\ (eof s = true -> eof s' = true) /\
  (kd s = Pipe -> flushes s' = S (flushes s) /\ r = flushPipe (flushes s)) /\ (kd s = Mem -> flushes s' = flushes s /\ r = true).
Proof.
  intros Hp H HJ. unfold OutStreamModel.flush in H. destruct (flushInternal s) as [(s1 & ok)|] eqn:Ef; [|discriminate].
  destruct (flushInternal_J s s1 ok l Hp Ef HJ) as (J1 & Eok & Eb & Efl & Eo & Es & Epv & Ek & El & Els & Ec & Env & Eef & Efs).
  assert (Hc : flushed s1 = cur s1) by (unfold cur in *; rewrite Eb; exact Efl).
  destruct (kd s1) eqn:Kd.
  - exfalso. destruct J1 as (J1 & _). rewrite Kd in J1. exact J1.
  - injection H as <- <-. cbn [kd eof flushed flushes]. unfold cur. cbn [buf]. fold (cur s1).
    split; [unfold J in *; cbn [kd prev buf size flushed off lim eof received calls flushes]; rewrite Kd in J1; exact J1|]. split; [congruence|]. split; [intros (X & Y); auto|].
    split; [exact Hc|]. split; [exact Eef|]. split; [intros _; rewrite Efs; auto|congruence].
  - injection H as <- <-. split; [exact J1|]. split; [congruence|]. split; [intros (X & Y); auto|]. split; [exact Hc|]. split; [exact Eef|]. split; [congruence|]. intros _. auto.
Qed.

Definition fl (s : stream) : nat -> bool := match kd s with Pipe => flushPipe | _ => fun _ => true end.
Lemma step_J s o s' y l : hon s -> 100 < blk -> allowed o = true -> step s o = Some (s', y) -> J s l ->
  J s' (l ++ piece o) /\ kd s' = kd s /\
  (good s -> eof s' = false /\ flushes s' = (match o, kd s with Flush, Pipe => S (flushes s) | _, _ => flushes s end) /\
    y = match o with Flush => Flag (fl s (flushes s)) | SeekPos => Num (zlen l mod 2 ^ 64) | AtEOF => Flag false | _ => Flag true end).
Proof.
  intros Hp Hb Ha H HJ. unfold OutStreamModel.step in H.
  destruct o as [bs|b|n bs|n bs| | |]; cbn [allowed piece] in Ha |- *; cbv zeta in H.
  - destruct (write s bs) as [(s1 & r)|] eqn:E; [|discriminate]. injection H as <- <-. destruct (write_J _ _ _ _ _ Hp Hb E HJ) as (J1 & K1 & F1 & G1).
    split; [exact J1|]. split; [exact K1|]. intros X. destruct (G1 X) as (-> & ->). auto.
  - destruct (writeByte s b) as [(s1 & r)|] eqn:E; [|discriminate]. injection H as <- <-. destruct (writeByte_J _ _ _ _ _ Hp Hb E HJ) as (J1 & K1 & F1 & G1).
    split; [exact J1|]. split; [exact K1|]. intros X. destruct (G1 X) as (-> & ->). auto.
  - destruct (tryMake s n) as [(s1 & m)|] eqn:E; [|discriminate]. destruct (tryMake_J s n s1 m l Hp Hb ltac:(lia) E HJ) as (J1 & K & F & G & C).
    destruct (Z.ltb_spec m n) as [Hm|Hm].
    + injection H as <- <-. destruct C as [(_ & _ & C)|C]; [|lia]. split; [apply J_lost; assumption|]. split; [exact K|]. intros X. rewrite (G X) in C. discriminate.
    + destruct (put s1 bs) as [s2|] eqn:Ep; [|discriminate]. injection H as <- <-. destruct (put_J s1 bs s2 l Ep J1) as (J2 & K2 & E2 & F2 & _).
      split; [exact J2|]. split; [congruence|]. intros X. rewrite E2, F2. auto.
  - unfold OutStreamModel.make in H. destruct (avail s <? n).
    + destruct (tryMakeInternal s (- n)) as [(s1 & m)|] eqn:E; [|discriminate]. destruct (tryMakeInternal_J s (- n) s1 m l Hp Hb E HJ) as (J1 & K & E1 & _ & F & _).
      destruct (put s1 bs) as [s2|] eqn:Ep; [|discriminate]. injection H as <- <-. destruct (put_J s1 bs s2 l Ep J1) as (J2 & K2 & E2 & F2 & _).
      split; [exact J2|]. split; [congruence|]. intros (X1 & X2). rewrite E2, F2. auto.
    + destruct (put s bs) as [s2|] eqn:Ep; [|discriminate]. injection H as <- <-. destruct (put_J s bs s2 l Ep HJ) as (J2 & K2 & E2 & F2 & _).
      split; [exact J2|]. split; [congruence|]. intros (X1 & X2). rewrite E2, F2. auto.
  - destruct (flush s) as [(s1 & r)|] eqn:E; [|discriminate]. injection H as <- <-. destruct (flush_J s s1 r l Hp E HJ) as (J1 & K & G & Fc & _ & Fp & Fm). rewrite app_nil_r.
    split; [exact J1|]. split; [exact K|]. intros X. split; [auto|]. unfold fl. destruct (kd s) eqn:Kd.
    + exfalso. destruct HJ as (HJ & _). rewrite Kd in HJ. exact HJ.
    + destruct (Fp eq_refl) as (-> & ->). auto.
    + destruct (Fm eq_refl) as (-> & ->). auto.
  - injection H as <- <-. rewrite app_nil_r. split; [exact HJ|]. split; [reflexivity|]. intros (_ & X). split; [exact X|]. split; [reflexivity|].
    unfold getSeekPos. destruct HJ as (Hd & Hf & Hz & Ho). specialize (Ho X). assert (E : u64 (off s + cur s) = zlen l mod 2 ^ 64).
    { rewrite Ho. unfold u64. rewrite Zplus_mod_idemp_l. f_equal. lia. } rewrite E. destruct (kd s); [contradiction|reflexivity|reflexivity].
  - injection H as <- <-. rewrite app_nil_r. split; [exact HJ|]. split; [reflexivity|]. intros (_ & X). rewrite X. auto.
Qed.

Lemma answers_any os : forall z a b, answers (fun _ => true) z a os = answers (fun _ => true) z b os.
Proof. induction os as [|o os IH]; intros z a b; [reflexivity|]. cbn [answers]. destruct o; (f_equal; apply IH). Qed.

Lemma run_J os : forall s s' ys l, hon s -> 100 < blk -> forallb allowed os = true -> run s os = Some (s', ys) -> J s l ->
  J s' (l ++ written os) /\ kd s' = kd s /\ (good s -> eof s' = false /\ ys = answers (fl s) (zlen l) (flushes s) os).
Proof.
  induction os as [|o os IH]; intros s s' ys l Hp Hb Ha H HJ; cbn [OutStreamModel.run] in H.
  - injection H as <- <-. cbn [written flat_map]. rewrite app_nil_r. split; [exact HJ|]. split; [reflexivity|]. intros (_ & X). auto.
  - cbn [forallb] in Ha. apply andb_true_iff in Ha. destruct Ha as (Ha1 & Ha2). destruct (step s o) as [(s1 & y)|] eqn:E1; [|discriminate].
    destruct (run s1 os) as [(s2 & ys2)|] eqn:E2; [|discriminate]. injection H as <- <-. destruct (step_J s o s1 y l Hp Hb Ha1 E1 HJ) as (J1 & K1 & G1).
    assert (Hp1 : hon s1) by (unfold hon; rewrite K1; exact Hp). destruct (IH s1 s2 ys2 _ Hp1 Hb Ha2 E2 J1) as (J2 & K2 & G2). cbn [written flat_map]. rewrite app_assoc. split; [exact J2|]. split; [congruence|].
    intros X. destruct (G1 X) as (Ee & Ef & Ey). destruct G2 as (G2 & G3); [destruct X as (X1 & X2); split; [rewrite K1; exact X1|exact Ee]|].
    split; [exact G2|]. cbn [answers]. rewrite G3, Ey, Ef, zlen_app. f_equal. unfold fl. rewrite K1. destruct (kd s) eqn:Kd.
    + exfalso. destruct HJ as (HJ & _). rewrite Kd in HJ. exact HJ.
    + reflexivity.
    + destruct o; try reflexivity. apply answers_any.
Qed.

(* ---- no assertion fails ---- *)
Definition Ok (s : stream) : Prop := kd s <> View /\ 0 <= flushed s <= cur s /\ cur s <= size s /\ lim s = size s.

Lemma flushInternal_S s : Ok s -> exists s' ok, flushInternal s = Some (s', ok) /\ Ok s' /\ cur s' = cur s /\ size s' = size s /\ ok = negb (eof s') /\ flushed s' = cur s' /\
  (never_fails pipe \/ kd s = Mem -> eof s = false -> eof s' = false) /\ kd s' = kd s.
Proof.
  intros (Hk & Hf & Hc & Hl). destruct s as [k pv bf sz fl of_ lm ef rc cl fs]. unfold Ok, OutStreamModel.flushInternal, cur in *.
  cbn [kd prev buf size flushed off lim eof received calls flushes] in *. replace (lm =? sz) with true by lia. replace (fl <=? zlen bf) with true by lia. replace (zlen bf <=? sz) with true by lia.
  destruct k; [congruence| |]; cbn [andb].
  - destruct (Z.ltb_spec fl (zlen bf)) as [E4|E4].
    + destruct ef; [do 2 eexists; split; [reflexivity|]; cbn [kd prev buf size flushed off lim eof received calls flushes]; intuition (try lia; try congruence)|].
      destruct (pipe cl (skipn (Z.to_nat fl) bf)) as [n ok] eqn:Ep. do 2 eexists; split; [reflexivity|]; cbn [kd prev buf size flushed off lim eof received calls flushes].
      intuition (try lia; try congruence). match goal with N : never_fails pipe |- _ => specialize (N cl (skipn (Z.to_nat fl) bf)); rewrite Ep in N; cbn [snd] in N; rewrite N; reflexivity end.
    + do 2 eexists; split; [reflexivity|]; cbn [kd prev buf size flushed off lim eof received calls flushes]. intuition (try lia; try congruence).
  - destruct (Z.ltb_spec fl (zlen bf)) as [E4|E4]; (do 2 eexists; split; [reflexivity|]; cbn [kd prev buf size flushed off lim eof received calls flushes]; intuition (try lia; try congruence)).
Qed.
Lemma nextBlock_S s n : Ok s -> 100 < n -> flushed s = cur s -> exists s', nextBlock s n = Some s' /\ Ok s' /\ avail s' = n /\ size s' = n /\ eof s' = eof s /\ kd s' = kd s.
Proof.
  intros (Hk & Hf & Hc & Hl) Hn Hfc. destruct s as [k pv bf sz fl of_ lm ef rc cl fs]. unfold Ok, nextBlock, createBlock, avail, cur in *.
  cbn [kd prev buf size flushed off lim eof received calls flushes] in *. replace (100 <? n) with true by lia. eexists. split; [reflexivity|].
  unfold cur. cbn [kd prev buf size flushed off lim eof received calls flushes bsize boff]. change (zlen (@nil Z)) with 0. intuition (try lia; try congruence).
Qed.
(** Asking for [n] bytes goes well if one byte is asked for, if the call must not fail, or if the pipe does not fail. *)
Lemma tryMakeInternal_S s n : 100 < blk -> n <> 0 -> Ok s -> avail s < Z.abs n -> n <= 1 \/ good s -> exists s' m, tryMakeInternal s n = Some (s', m) /\ Ok s' /\ kd s' = kd s /\
  (m = 0 /\ 0 < n /\ eof s' = true /\ ~ good s \/ Z.abs n <= m /\ Z.abs n <= avail s' /\ (good s -> eof s' = false)).
Proof.
  intros Hb Hn HS Ha Hor. unfold OutStreamModel.tryMakeInternal. replace (n =? 0) with false by lia. pose proof HS as (Hk & Hf & Hc & Hl).
  assert (G : exists s' m, (if eof s && (0 <? n) then Some (s, 0) else
    match flushInternal s with
    | None => None
    | Some (s, ok) =>
      if negb ok && (0 <? n) then
        Some (mko (kd s) (prev s) (buf s) (size s) (flushed s) (off s) (cur s) (eof s) (received s) (calls s) (flushes s), 0)
      else match nextBlock s (Z.max blk (Z.abs n)) with Some s => Some (s, size s) | None => None end
    end) = Some (s', m) /\ Ok s' /\ kd s' = kd s /\
  (m = 0 /\ 0 < n /\ eof s' = true /\ ~ good s \/ Z.abs n <= m /\ Z.abs n <= avail s' /\ (good s -> eof s' = false))).
  2:{ destruct (kd s); [congruence|exact G|exact G]. }
  destruct (eof s && (0 <? n)) eqn:E0.
  { apply andb_true_iff in E0. destruct E0 as (E0 & E1). exists s, 0. split; [reflexivity|]. split; [exact HS|]. split; [reflexivity|]. left. split; [reflexivity|]. split; [lia|]. split; [exact E0|].
    intros (_ & X). congruence. }
  destruct (flushInternal_S s HS) as (s1 & ok & -> & S1 & C1 & Z1 & Eok & F1 & G1 & K1).
  destruct (negb ok && (0 <? n)) eqn:E1.
  - apply andb_true_iff in E1. destruct E1 as (E1 & E2). rewrite Eok, negb_involutive in E1.
    assert (NG : ~ good s) by (intros (X1 & X2); rewrite (G1 X1 X2) in E1; discriminate).
    destruct Hor as [H1|H1]; [|contradiction]. do 2 eexists. split; [reflexivity|]. pose proof S1 as (Hk1 & Hf1 & Hc1 & Hl1). unfold avail in Ha.
    split; [unfold Ok, cur in *; cbn [kd prev buf size flushed off lim eof received calls flushes]; intuition (try lia; try congruence)|]. cbn [kd eof]. split; [exact K1|].
    left. split; [reflexivity|]. split; [lia|]. split; [exact E1|exact NG].
  - destruct (nextBlock_S s1 (Z.max blk (Z.abs n)) S1 ltac:(lia) F1) as (s2 & -> & S2 & A2 & Z2 & E2 & K2). do 2 eexists. split; [reflexivity|]. split; [exact S2|]. split; [congruence|].
    right. split; [lia|]. split; [lia|]. intros (X1 & X2). rewrite E2. auto.
Qed.
Lemma put_S s bs : Ok s -> zlen bs <= avail s -> exists s', put s bs = Some s' /\ Ok s' /\ kd s' = kd s /\ eof s' = eof s /\ avail s' = avail s - zlen bs.
Proof.
  intros (Hk & Hf & Hc & Hl) Ha. destruct s as [k pv bf sz fl of_ lm ef rc cl fs]. unfold Ok, put, avail, cur in *. cbn [kd prev buf size flushed off lim eof received calls flushes] in *.
  replace (zlen bs <=? lm - zlen bf) with true by lia. eexists. split; [reflexivity|]. cbn [kd prev buf size flushed off lim eof received calls flushes]. rewrite zlen_app. pose proof (zlen_nonneg bs). intuition (try lia; try congruence).
Qed.
Lemma tryMake_S s n : 100 < blk -> 1 <= n -> Ok s -> n <= 1 \/ good s -> exists s' m, tryMake s n = Some (s', m) /\ Ok s' /\ kd s' = kd s /\
  (m = 0 /\ eof s' = true /\ ~ good s \/ n <= m /\ n <= avail s' /\ (good s -> eof s' = false)).
Proof.
  intros Hb Hn HS Hor. unfold OutStreamModel.tryMake. destruct (Z.ltb_spec (avail s) n) as [Ha|Ha].
  - destruct (tryMakeInternal_S s n Hb ltac:(lia) HS ltac:(lia) Hor) as (s' & m & E & S' & K & C). exists s', m. split; [exact E|]. split; [exact S'|]. split; [exact K|].
    rewrite Z.abs_eq in C by lia. destruct C as [(C1 & _ & C)|C]; [left; tauto|right; exact C].
  - exists s, n. split; [reflexivity|]. split; [exact HS|]. split; [reflexivity|]. right. split; [lia|]. split; [lia|]. intros (_ & X); exact X.
Qed.
Definition fine (s s' : stream) : Prop := Ok s' /\ kd s' = kd s /\ (good s -> eof s' = false).
Lemma writeLoop_S : forall fuel s bs, 100 < blk -> (length bs <= fuel)%nat -> Ok s -> exists s' r, writeLoop fuel s bs = Some (s', r) /\ fine s s'.
Proof.
  induction fuel as [|fuel IH]; intros s bs Hb Hfu HS.
  - destruct bs; [|cbn [length] in Hfu; lia]. exists s, true. split; [reflexivity|]. split; [exact HS|]. split; [reflexivity|]. intros (_ & X); exact X.
  - destruct bs as [|b0 bs0]; [exists s, true; split; [reflexivity|]; split; [exact HS|]; split; [reflexivity|]; intros (_ & X); exact X|].
    cbn [OutStreamModel.writeLoop]. destruct (tryMake_S s 1 Hb ltac:(lia) HS ltac:(lia)) as (s1 & m & -> & S1 & K1 & C). destruct (Z.eqb_spec m 0) as [->|Hm].
    + exists s1, false. split; [reflexivity|]. split; [exact S1|]. split; [exact K1|]. intros X. destruct C as [(_ & _ & C)|C]; [contradiction|lia].
    + destruct C as [C|(C1 & C2 & C3)]; [lia|]. cbv zeta. set (bs := b0 :: bs0) in *. set (k := Z.to_nat (Z.min (avail s1) (zlen bs))).
      assert (Hz : 1 <= zlen bs) by (subst bs; unfold zlen; cbn [length]; lia).
      assert (Hk : (1 <= k)%nat /\ Z.of_nat k <= avail s1 /\ Z.of_nat k <= zlen bs) by (subst k; lia).
      destruct (put_S s1 (firstn k bs) S1) as (s2 & -> & S2 & K2 & E2 & _). { unfold zlen in *. rewrite firstn_length. lia. }
      destruct (IH s2 (skipn k bs) Hb) as (s3 & r & -> & S3 & K3 & E3); [rewrite skipn_length; lia|exact S2|].
      exists s3, r. split; [reflexivity|]. split; [exact S3|]. split; [congruence|]. intros X. apply E3. pose proof (C3 X). destruct X as (X1 & X2). split; [rewrite K2, K1; exact X1|congruence].
Qed.
Lemma step_S s o : 100 < blk -> Ok s -> allowed o = true -> small_requests o = true \/ good s -> exists s' y, step s o = Some (s', y) /\ fine s s'.
Proof.
  intros Hb HS Ha Hor. unfold OutStreamModel.step. cbv zeta. destruct o as [bs|b|n bs|n bs| | |]; cbn [allowed small_requests] in Ha, Hor.
  - unfold OutStreamModel.write. rewrite s32_id by (pose proof (zlen_nonneg bs); lia). destruct (Z.ltb_spec (avail s) (zlen bs)) as [H|H].
    + unfold writeSlowPath. destruct (eof s) eqn:E.
      * do 2 eexists. split; [reflexivity|]. split; [exact HS|]. split; [reflexivity|]. intros (_ & X). exact X.
      * destruct (writeLoop_S (length bs) s bs Hb (Nat.le_refl _) HS) as (s1 & r & -> & F). do 2 eexists. split; [reflexivity|exact F].
    + destruct (put_S s bs HS H) as (s1 & -> & S1 & K1 & E1 & _). do 2 eexists. split; [reflexivity|]. split; [exact S1|]. split; [exact K1|]. intros (_ & X). congruence.
  - unfold OutStreamModel.writeByte. destruct (tryMake_S s 1 Hb ltac:(lia) HS ltac:(lia)) as (s1 & m & -> & S1 & K1 & C). destruct (Z.eqb_spec m 0) as [->|Hm].
    + do 2 eexists. split; [reflexivity|]. split; [exact S1|]. split; [exact K1|]. intros X. destruct C as [(_ & _ & C)|C]; [contradiction|lia].
    + destruct C as [C|(C1 & C2 & C3)]; [lia|]. destruct (put_S s1 [b] S1) as (s2 & -> & S2 & K2 & E2 & _); [unfold zlen; cbn [length]; lia|].
      do 2 eexists. split; [reflexivity|]. split; [exact S2|]. split; [congruence|]. intros X. rewrite E2. auto.
  - destruct (tryMake_S s n Hb ltac:(lia) HS ltac:(destruct Hor; [left; lia|right; assumption])) as (s1 & m & -> & S1 & K1 & C). destruct (Z.ltb_spec m n) as [Hm|Hm].
    + do 2 eexists. split; [reflexivity|]. split; [exact S1|]. split; [exact K1|]. intros X. destruct C as [(_ & _ & C)|C]; [contradiction|lia].
    + destruct C as [C|(C1 & C2 & C3)]; [lia|]. destruct (put_S s1 bs S1) as (s2 & -> & S2 & K2 & E2 & _); [lia|].
      do 2 eexists. split; [reflexivity|]. split; [exact S2|]. split; [congruence|]. intros X. rewrite E2. auto.
  - unfold OutStreamModel.make. destruct (Z.ltb_spec (avail s) n) as [H|H].
    + destruct (tryMakeInternal_S s (- n) Hb ltac:(lia) HS ltac:(lia) ltac:(lia)) as (s1 & m & -> & S1 & K1 & C). destruct C as [C|(C1 & C2 & C3)]; [lia|].
      destruct (put_S s1 bs S1) as (s2 & -> & S2 & K2 & E2 & _); [lia|]. do 2 eexists. split; [reflexivity|]. split; [exact S2|]. split; [congruence|]. intros X. rewrite E2. auto.
    + destruct (put_S s bs HS) as (s2 & -> & S2 & K2 & E2 & _); [lia|]. do 2 eexists. split; [reflexivity|]. split; [exact S2|]. split; [congruence|]. intros (_ & X). congruence.
  - unfold OutStreamModel.flush. destruct (flushInternal_S s HS) as (s1 & ok & -> & S1 & C1 & Z1 & Eok & F1 & G1 & K1). destruct (kd s1) eqn:Kd.
    + exfalso. destruct S1 as (X & _). congruence.
    + do 2 eexists. split; [reflexivity|]. split; [unfold Ok, cur in *; cbn [kd prev buf size flushed off lim eof received calls flushes]; rewrite Kd in S1; exact S1|]. cbn [kd eof]. split; [congruence|]. intros (X & Y); auto.
    + do 2 eexists. split; [reflexivity|]. split; [exact S1|]. split; [congruence|]. intros (X & Y); auto.
  - do 2 eexists. split; [reflexivity|]. split; [exact HS|]. split; [reflexivity|]. intros (_ & X). exact X.
  - do 2 eexists. split; [reflexivity|]. split; [exact HS|]. split; [reflexivity|]. intros (_ & X). exact X.
Qed.
Lemma run_S os : forall s, 100 < blk -> Ok s -> forallb allowed os = true -> forallb small_requests os = true \/ good s -> exists s' ys, run s os = Some (s', ys) /\ fine s s'.
Proof.
  induction os as [|o os IH]; intros s Hb HS Ha Hor; cbn [OutStreamModel.run].
  - do 2 eexists. split; [reflexivity|]. split; [exact HS|]. split; [reflexivity|]. intros (_ & X). exact X.
  - cbn [forallb] in Ha, Hor. apply andb_true_iff in Ha. destruct Ha as (Ha1 & Ha2). rewrite andb_true_iff in Hor.
    destruct (step_S s o Hb HS Ha1) as (s1 & y & -> & S1 & K1 & E1); [tauto|].
    destruct (IH s1 Hb S1 Ha2) as (s2 & ys & -> & S2 & K2 & E2).
    { destruct Hor as [(_ & X)|X]; [left; exact X|right]. pose proof (E1 X). destruct X as (X1 & X2). split; [rewrite K1; exact X1|assumption]. }
    do 2 eexists. split; [reflexivity|]. split; [exact S2|]. split; [congruence|]. intros X. apply E2. pose proof (E1 X). destruct X as (X1 & X2). split; [rewrite K1; exact X1|assumption].
Qed.

Lemma open_ok k : 100 < blk -> k <> View -> exists s, openBlock blk k = Some s /\ kd s = k /\ eof s = false /\ Ok s /\ J s [] /\ flushes s = 0%nat.
Proof.
  intros Hb Hk. unfold openBlock, createBlock. replace (100 <? blk) with true by lia. eexists. split; [reflexivity|]. cbn [kd eof flushes]. split; [reflexivity|]. split; [reflexivity|].
  split; [|split; [|reflexivity]].
  - unfold Ok, cur. cbn [kd prev buf size flushed off lim eof bsize]. change (zlen (@nil Z)) with 0. intuition (try lia; try congruence).
  - unfold J, cur. cbn [kd prev buf size flushed off lim eof received bsize boff]. change (zlen (@nil Z)) with 0. split; [|split; [lia|split; [lia|reflexivity]]].
    destruct k; [congruence|reflexivity|]. split; [reflexivity|]. split; [exact I|]. split; reflexivity.
Qed.

Theorem pipe_total os : 100 < blk -> forallb allowed os = true -> forallb small_requests os = true -> usesPipe pipe flushPipe blk os <> None.
Proof.
  intros Hb Ha Hs. unfold usesPipe. destruct (open_ok Pipe Hb ltac:(discriminate)) as (s & -> & _ & _ & HS & _). destruct (run_S os s Hb HS Ha (or_introl Hs)) as (s1 & ys & -> & S1 & _).
  destruct (step_S s1 Flush Hb S1 eq_refl (or_introl eq_refl)) as (s2 & y & E & _). cbn [OutStreamModel.step] in E. cbv zeta in E. destruct (flush s1) as [(s3 & r)|]; [discriminate|discriminate].
Qed.
Theorem pipe_prefix os ys got e : honest pipe -> 100 < blk -> forallb allowed os = true -> usesPipe pipe flushPipe blk os = Some (ys, got, e) ->
  prefix got (written os) /\ (e = false -> got = written os).
Proof.
  intros Hp Hb Ha H. unfold usesPipe in H. destruct (open_ok Pipe Hb ltac:(discriminate)) as (s & E & Hk & _ & _ & HJ & _). rewrite E in H.
  destruct (run s os) as [(s1 & ys1)|] eqn:E1; [|discriminate]. destruct (run_J os s s1 ys1 [] (fun _ => Hp) Hb Ha E1 HJ) as (J1 & K1 & _). destruct (flush s1) as [(s2 & r)|] eqn:E2; [|discriminate].
  injection H as _ <- <-. destruct (flush_J s1 s2 r _ (fun _ => Hp) E2 J1) as (J2 & K2 & _ & Fc & _). cbn [app] in J2. destruct J2 as (Hd & _). rewrite K2, K1, Hk in Hd. destruct (eof s2).
  - split; [exact Hd|discriminate].
  - rewrite Fc, skipn_all2 in Hd by (unfold cur, zlen; lia). rewrite app_nil_r in Hd. split; [exists []; rewrite app_nil_r; auto|auto].
Qed.
Theorem pipe_delivers os : never_fails pipe -> honest pipe -> 100 < blk -> forallb allowed os = true ->
  usesPipe pipe flushPipe blk os = Some (answers flushPipe 0 0 os, written os, false).
Proof.
  intros Hn Hp Hb Ha. unfold usesPipe. destruct (open_ok Pipe Hb ltac:(discriminate)) as (s & -> & Hk & He & HS & HJ & Hf). assert (G : good s) by (split; [left; exact Hn|exact He]).
  destruct (run_S os s Hb HS Ha (or_intror G)) as (s1 & ys & E1 & S1 & _). rewrite E1. destruct (run_J os s s1 ys [] (fun _ => Hp) Hb Ha E1 HJ) as (J1 & K1 & G1).
  destruct (G1 G) as (Ee & Ey). unfold fl in Ey. rewrite Hk, Hf in Ey. rewrite Ey. destruct (step_S s1 Flush Hb S1 eq_refl (or_introl eq_refl)) as (s2 & y & E & _). cbn [OutStreamModel.step] in E. cbv zeta in E.
  destruct (flush s1) as [(s3 & r)|] eqn:Ef; [|discriminate]. clear E. destruct (flush_J s1 s3 r _ (fun _ => Hp) Ef J1) as (J2 & K2 & Ge & Fc & _).
  assert (E3 : eof s3 = false) by (apply Ge; split; [left; exact Hn|exact Ee]). destruct J2 as (Hd & _). rewrite K2, K1, Hk, E3 in Hd.
  rewrite Fc, skipn_all2 in Hd by (unfold cur, zlen; lia). rewrite app_nil_r in Hd. cbn [app] in Hd. rewrite Hd, E3. reflexivity.
Qed.

Theorem mem_collects os : 100 < blk -> forallb allowed os = true -> zlen (written os) < 2 ^ 32 ->
  usesMem pipe flushPipe blk os = Some (answers (fun _ => true) 0 0 os, written os).
Proof.
  intros Hb Ha Hw. unfold usesMem. destruct (open_ok Mem Hb ltac:(discriminate)) as (s & -> & Hk & He & HS & HJ & Hf). assert (G : good s) by (split; [right; exact Hk|exact He]).
  assert (Hh : hon s) by (unfold hon; congruence).
  destruct (run_S os s Hb HS Ha (or_intror G)) as (s1 & ys & E1 & S1 & _). rewrite E1. destruct (run_J os s s1 ys [] Hh Hb Ha E1 HJ) as (J1 & K1 & G1).
  destruct (G1 G) as (Ee & Ey). unfold fl in Ey. rewrite Hk, Hf in Ey. rewrite Ey. unfold moveToString. destruct S1 as (_ & Hf1 & Hc1 & _). destruct J1 as (Hd & _ & Hz & Ho). rewrite K1, Hk in *.
  destruct Hd as (_ & Hb1 & Hof & Hct). cbn [app] in Hct. replace (flushed s1 <=? cur s1) with true by lia. replace (cur s1 <=? size s1) with true by lia. cbn [andb].
  set (q := mkb (buf s1) (size s1) (off s1) :: prev s1).
  assert (Hq : contents q = written os) by (unfold q; rewrite contents_cons; exact Hct).
  rewrite (moveToArray_ok 1 blk); try lia; [rewrite Hq; reflexivity|discriminate| |].
  - unfold q. cbn [binv bsize boff bitems]. unfold used. cbn [bitems]. unfold cur in *. split; [lia|]. split; [lia|]. split; [exact Hof|exact Hb1].
  - unfold usedsum. rewrite Hq. lia.
Qed.

(* ---- streams on a buffer ---- *)
Definition V (n : Z) (s : stream) (l : list Z) : Prop := kd s = View /\ buf s = firstn (Z.to_nat n) l /\ lim s = n /\ eof s = (n <? zlen l).

Lemma V_avail n s l : 0 <= n -> V n s l -> avail s = Z.max 0 (n - zlen l).
Proof. intros Hn (_ & E & L & _). unfold avail, cur, zlen in *. rewrite E, L, firstn_length. lia. Qed.
Lemma V_put n s l bs : 0 <= n -> V n s l -> zlen bs <= avail s -> exists s', put s bs = Some s' /\ V n s' (l ++ bs) /\ eof s' = eof s.
Proof.
  intros Hn HV Ha. pose proof (V_avail n s l Hn HV) as Hav. destruct HV as (K & E & L & F). unfold put. replace (zlen bs <=? avail s) with true by lia. eexists. split; [reflexivity|]. cbn [eof]. split; [|reflexivity].
  unfold V. cbn [kd buf lim eof]. split; [exact K|]. pose proof (zlen_nonneg bs). rewrite zlen_app, firstn_app, E, F. split; [|split; [exact L|lia]].
  destruct (Z.le_gt_cases n (zlen l)) as [H0|H0].
  - assert (bs = []) as -> by (destruct bs; [reflexivity|unfold zlen in *; cbn [length] in *; lia]). rewrite firstn_nil. reflexivity.
  - f_equal. symmetry. apply firstn_all2. unfold zlen in *. lia.
Qed.
Lemma V_full n s l bs : 0 <= n -> V n s l -> avail s = 0 -> bs <> [] ->
  V n (mko (kd s) (prev s) (buf s) (size s) (flushed s) (off s) (lim s) true (received s) (calls s) (flushes s)) (l ++ bs).
Proof.
  intros Hn HV Ha Hb. pose proof (V_avail n s l Hn HV) as Hav. destruct HV as (K & E & L & F). unfold V. cbn [kd buf lim eof]. split; [exact K|].
  assert (1 <= zlen bs) by (destruct bs; [congruence|unfold zlen; cbn [length]; lia]). split; [|split; [exact L|rewrite zlen_app; lia]].
  rewrite E, firstn_app. replace (Z.to_nat n - length l)%nat with 0%nat by (unfold zlen in *; lia). rewrite app_nil_r. reflexivity.
Qed.
(** One byte asked for. *)
Lemma V_one n s l : V n s l -> 0 <= n -> tryMake s 1 =
  if 0 <? avail s then Some (s, 1) else Some (mko (kd s) (prev s) (buf s) (size s) (flushed s) (off s) (lim s) true (received s) (calls s) (flushes s), 0).
Proof.
  intros HV Hn. pose proof (V_avail n s l Hn HV) as Ha. destruct HV as (K & _). unfold OutStreamModel.tryMake, OutStreamModel.tryMakeInternal. rewrite K.
  destruct (Z.ltb_spec 0 (avail s)) as [H|H].
  - replace (avail s <? 1) with false by lia. reflexivity.
  - assert (E : avail s = 0) by lia. rewrite E. reflexivity.
Qed.
Lemma V_loop n : forall fuel s l bs, 0 <= n -> (length bs <= fuel)%nat -> V n s l -> avail s < zlen bs -> exists s', writeLoop fuel s bs = Some (s', false) /\ V n s' (l ++ bs).
Proof.
  induction fuel as [|fuel IH]; intros s l bs Hn Hf HV Ha.
  - destruct bs; [|cbn [length] in Hf; lia]. pose proof (V_avail n s l Hn HV). unfold zlen in *. cbn [length] in *. lia.
  - destruct bs as [|b0 bs0]; [pose proof (V_avail n s l Hn HV); unfold zlen in *; cbn [length] in *; lia|]. cbn [OutStreamModel.writeLoop].
    rewrite (V_one n s l HV Hn). destruct (Z.ltb_spec 0 (avail s)) as [H|H].
    + replace (1 =? 0) with false by reflexivity. cbv zeta. set (bs := b0 :: bs0) in *. replace (Z.min (avail s) (zlen bs)) with (avail s) by lia. set (k := Z.to_nat (avail s)).
      assert (Hk : zlen (firstn k bs) = avail s) by (unfold zlen in *; rewrite firstn_length; lia).
      destruct (V_put n s l (firstn k bs) Hn HV ltac:(lia)) as (s1 & -> & V1 & _). destruct (IH s1 (l ++ firstn k bs) (skipn k bs) Hn) as (s2 & -> & V2).
      * rewrite skipn_length. lia.
      * exact V1.
      * rewrite (V_avail n s1 _ Hn V1), zlen_app, Hk. pose proof (V_avail n s l Hn HV). unfold zlen in *. rewrite skipn_length. lia.
      * exists s2. split; [reflexivity|]. rewrite <- app_assoc, firstn_skipn in V2. exact V2.
    + cbn [Z.eqb]. eexists. split; [reflexivity|]. pose proof (V_avail n s l Hn HV). apply V_full; [exact Hn|exact HV|lia|discriminate].
Qed.
Lemma V_lost n s l bs : 0 <= n -> V n s l -> eof s = true -> V n s (l ++ bs).
Proof.
  intros Hn (K & E & L & F) T. unfold V. split; [exact K|]. rewrite T in F. symmetry in F. apply Z.ltb_lt in F. pose proof (zlen_nonneg bs).
  split; [rewrite E, firstn_app; replace (Z.to_nat n - length l)%nat with 0%nat by (unfold zlen in *; lia); rewrite app_nil_r; reflexivity|]. split; [exact L|]. rewrite zlen_app, T. lia.
Qed.
Lemma V_step n s l o : 0 <= n -> V n s l -> plain o = true -> allowed o = true -> exists s' y, step s o = Some (s', y) /\ V n s' (l ++ piece o) /\
  y = match o with Flush => Flag true | SeekPos => Num (Z.min n (zlen l)) | AtEOF => Flag (n <? zlen l) | _ => Flag (zlen l + zlen (piece o) <=? n) end.
Proof.
  intros Hn HV Hp Ha. pose proof (V_avail n s l Hn HV) as Hav. destruct o as [bs|b|m bs|m bs| | |]; try discriminate; cbn [allowed piece] in *; unfold OutStreamModel.step; cbv zeta.
  - pose proof (zlen_nonneg bs). pose proof HV as (K & E & L & F). unfold OutStreamModel.write. rewrite s32_id by lia. destruct (Z.ltb_spec (avail s) (zlen bs)) as [H0|H0].
    + unfold writeSlowPath. destruct (eof s) eqn:T.
      * do 2 eexists. split; [reflexivity|]. split; [apply V_lost; assumption|]. symmetry in F. f_equal. lia.
      * destruct (V_loop n (length bs) s l bs Hn (Nat.le_refl _) HV H0) as (s1 & -> & V1). do 2 eexists. split; [reflexivity|]. split; [exact V1|]. f_equal. lia.
    + destruct (V_put n s l bs Hn HV H0) as (s1 & -> & V1 & E1). do 2 eexists. split; [reflexivity|]. split; [exact V1|]. f_equal. rewrite E1, F. lia.
  - change (zlen [b]) with 1. unfold OutStreamModel.writeByte. rewrite (V_one n s l HV Hn). destruct (Z.ltb_spec 0 (avail s)) as [H|H].
    + cbn [Z.eqb]. destruct (V_put n s l [b] Hn HV) as (s1 & -> & V1 & E1); [change (zlen [b]) with 1; lia|]. do 2 eexists. split; [reflexivity|]. split; [exact V1|]. f_equal. lia.
    + cbn [Z.eqb]. do 2 eexists. split; [reflexivity|]. split; [apply V_full; [exact Hn|exact HV|lia|discriminate]|]. f_equal. lia.
  - destruct HV as (K & E & L & F). unfold OutStreamModel.flush, OutStreamModel.flushInternal. rewrite K. cbv iota beta. rewrite K. do 2 eexists. split; [reflexivity|]. rewrite app_nil_r. split; [unfold V; auto|reflexivity].
  - do 2 eexists. split; [reflexivity|]. rewrite app_nil_r. split; [exact HV|]. destruct HV as (K & E & L & F). unfold getSeekPos. rewrite K. f_equal. unfold cur, zlen in *. rewrite E, firstn_length. lia.
  - do 2 eexists. split; [reflexivity|]. rewrite app_nil_r. split; [exact HV|]. destruct HV as (K & E & L & F). f_equal. exact F.
Qed.
Lemma V_run n os : forall s l, 0 <= n -> V n s l -> forallb plain os = true -> forallb allowed os = true -> exists s', run s os = Some (s', viewAnswers n (zlen l) os) /\ V n s' (l ++ written os).
Proof.
  induction os as [|o os IH]; intros s l Hn HV Hp Ha; cbn [OutStreamModel.run].
  - exists s. cbn [written flat_map]. rewrite app_nil_r. auto.
  - cbn [forallb] in Hp, Ha. apply andb_true_iff in Hp, Ha. destruct Hp as (Hp1 & Hp2). destruct Ha as (Ha1 & Ha2). destruct (V_step n s l o Hn HV Hp1 Ha1) as (s1 & y & -> & V1 & ->).
    destruct (IH s1 _ Hn V1 Hp2 Ha2) as (s2 & -> & V2). exists s2. cbn [viewAnswers written flat_map]. rewrite app_assoc. rewrite zlen_app. split; [reflexivity|exact V2].
Qed.
Theorem view_fills n os : 0 <= n -> forallb plain os = true -> forallb allowed os = true ->
  usesView pipe flushPipe blk n os = Some (viewAnswers n 0 os, firstn (Z.to_nat n) (written os)).
Proof.
  intros Hn Hp Ha. unfold usesView. destruct (V_run n os (openView n) [] Hn) as (s & -> & V1); [|exact Hp|exact Ha|].
  - unfold V, openView. cbn [kd buf lim eof]. rewrite firstn_nil. change (zlen (@nil Z)) with 0. repeat split. lia.
  - destruct V1 as (_ & E & _). rewrite E. reflexivity.
Qed.

(* ---- what goes wrong ---- *)
Lemma zlen_repeat (x : Z) n : zlen (repeat x n) = Z.of_nat n.
Proof. unfold zlen. rewrite repeat_length. reflexivity. Qed.
(** A single write of 2 GB or more. *)
Theorem write_huge bs : 100 < blk < 2 ^ 31 -> 2 ^ 31 <= zlen bs < 2 ^ 32 -> usesPipe pipe flushPipe blk [Write bs] = None.
Proof.
  intros Hb Hl. unfold usesPipe, openBlock, createBlock. replace (100 <? blk) with true by lia. cbn [OutStreamModel.run OutStreamModel.step]. cbv zeta. unfold OutStreamModel.write, put, avail, cur. cbn [lim buf bsize].
  change (zlen (@nil Z)) with 0. assert (E : s32 (zlen bs) = zlen bs - 2 ^ 32) by (unfold s32, to_signed; cbv zeta; rewrite Z.mod_small by lia; replace (zlen bs <? 2 ^ (32 - 1)) with false by lia; reflexivity).
  rewrite E. replace (blk - 0 <? zlen bs - 2 ^ 32) with false by lia. replace (zlen bs <=? blk - 0) with false by lia. reflexivity.
Qed.
End Proofs.
