From Coq Require Import ZifyBool ZifyNat.
From Verif Require Import Base NewLineModel NewLineSpec.
Ltac Zify.zify_post_hook ::= Z.div_mod_to_equations.

Definition lf (n : bool) : list Z := if n then [10] else [].
Lemma nextByte_ok crlf s : match nextByte s with
  | (s', None) => s' = [] /\ newlines crlf s = []
  | (s', Some c) => c <> 13 /\ (length s' < length s)%nat /\ newlines crlf s = newlines crlf (c :: s') /\ exists m, s' = skipn m s
  end.
Proof.
  induction s as [|c s IH]; cbn [nextByte]; [split; reflexivity|]. destruct (Z.eqb_spec c 13) as [->|Hc].
  - destruct (nextByte s) as [s' [d|]]; [|exact IH]. destruct IH as (A & B & C & m & D). split; [exact A|]. split; [cbn [length]; lia|]. split; [exact C|]. exists (S m). exact D.
  - split; [exact Hc|]. split; [cbn [length]; lia|]. split; [reflexivity|]. exists 1%nat. reflexivity.
Qed.
Lemma process_ok crlf : forall room n s, let '(n', s', out) := process crlf room n s in
  lf n ++ newlines crlf s = out ++ lf n' ++ newlines crlf s' /\ (length out <= room)%nat /\ (length s' <= length s)%nat /\
  ((length out < room)%nat -> n' = false /\ s' = []) /\ (length s' = length s -> s' = s) /\
  (n = true -> (2 <= room)%nat -> s = [] \/ (length s' < length s)%nat) /\ (n = false -> (1 <= room)%nat -> s = [] \/ (length s' < length s)%nat) /\
  (crlf = false -> n = false -> n' = false).
Proof.
  induction room as [|room IH]; intros n s; cbn [process].
  - split; [reflexivity|]. split; [cbn; lia|]. split; [lia|]. split; [cbn; lia|]. split; [reflexivity|]. split; [lia|]. split; [lia|]. congruence.
  - destruct n.
    + specialize (IH false s). destruct (process crlf room false s) as [[n' s'] out]. destruct IH as (I1 & I2 & I3 & I4 & I5 & I6 & I7 & I8). cbn [lf app length] in *. split; [rewrite I1; reflexivity|]. split; [lia|]. split; [lia|]. split; [intros; apply I4; lia|]. split; [exact I5|]. split; [intros _ H; apply I7; [reflexivity|lia]|]. split; [discriminate|]. discriminate.
    + pose proof (nextByte_ok crlf s) as N. destruct (nextByte s) as [s1 [c|]].
      * destruct N as (N1 & N2 & N3 & m & N4).
        assert (E : newlines crlf (c :: s1) = (if (c =? 10) && crlf then [13; 10] else [c]) ++ newlines crlf s1).
        { cbn [newlines flat_map]. replace (c =? 13) with false by lia. destruct (Z.eqb_spec c 10) as [->|]; destruct crlf; reflexivity. }
        rewrite N3, E. destruct ((c =? 10) && crlf) eqn:B.
        -- specialize (IH true s1). destruct (process crlf room true s1) as [[n' s'] out]. destruct IH as (I1 & I2 & I3 & I4 & I5 & I6 & I7 & I8). cbn [lf app length] in *. split; [rewrite I1; reflexivity|]. split; [lia|]. split; [lia|]. split; [intros; apply I4; lia|]. split; [lia|]. split; [lia|]. split; [right; lia|]. intros ->. rewrite andb_false_r in B. discriminate.
        -- specialize (IH false s1). destruct (process crlf room false s1) as [[n' s'] out]. destruct IH as (I1 & I2 & I3 & I4 & I5 & I6 & I7 & I8). cbn [lf app length] in *. split; [rewrite I1; reflexivity|]. split; [lia|]. split; [lia|]. split; [intros; apply I4; lia|]. split; [lia|]. split; [lia|]. split; [right; lia|]. intros H _. apply I8; [exact H|reflexivity].
      * destruct N as (-> & N2). cbn [lf app length]. rewrite N2. split; [reflexivity|]. split; [lia|]. split; [lia|]. split; [split; reflexivity|]. split; [intros H; destruct s; [reflexivity|discriminate]|]. split; [discriminate|]. split; [|reflexivity]. intros _ _. destruct s; [left; reflexivity|right; cbn; lia].
Qed.

Section Writing.
Context (crlf : bool) (fresh : nat -> nat).
Hypothesis Hfresh : forall k, (2 <= fresh k)%nat.

(* a line feed is owed only when the block is full *)
Lemma writeLoop_ok len : forall fuel w s total, (length s + 1 < fuel)%nat -> (total + length s = len)%nat -> (needsLF w = true -> avail w = 0%nat) ->
  exists w', writeLoop crlf fresh fuel w s total len = Some (w', lf (needsLF w) ++ newlines crlf s, true) /\ needsLF w' = false.
Proof.
  induction fuel as [|fuel IH]; intros w s total Hf Ht Hn; [lia|]. cbn [writeLoop]. unfold tryMake.
  set (p := match avail w with 0%nat => (fresh (blocks w), S (blocks w)) | S _ => (avail w, blocks w) end).
  assert (Ha : (1 <= fst p)%nat /\ (needsLF w = true -> (2 <= fst p)%nat)).
  { unfold p. pose proof (Hfresh (blocks w)). destruct (avail w); cbn [fst]; [lia|]. split; [lia|]. intros B. specialize (Hn B). discriminate. }
  destruct p as [a k]. cbn [fst] in Ha. pose proof (process_ok crlf a (needsLF w) s) as P. destruct (process crlf a (needsLF w) s) as [[n' s'] out]. destruct P as (P1 & P2 & P3 & P4 & P5 & P6 & P7 & P8).
  destruct (Nat.eqb_spec (length s - length s') 0) as [Hr|Hr].
  - assert (s = []) as -> by (destruct (needsLF w); [destruct (P6 eq_refl ltac:(apply Ha; reflexivity)); [assumption|lia]|destruct (P7 eq_refl ltac:(lia)); [assumption|lia]]).
    cbn [length] in *. replace (total <=? len)%nat with true by lia. replace (len <=? total)%nat with true by lia.
    assert (s' = []) as -> by (apply P5; cbn; lia). cbn [newlines flat_map] in *. rewrite app_nil_r in *.
    assert (Hl : (length out < a)%nat \/ n' = false).
    { destruct n'; [left|right; reflexivity]. destruct (needsLF w); cbn [lf] in P1; apply (f_equal (@length Z)) in P1; rewrite app_length in P1; cbn in P1; lia. }
    assert (n' = false) as -> by (destruct Hl as [H|H]; [apply (P4 H)|exact H]). cbn [lf] in P1. rewrite app_nil_r in P1.
    eexists. split; [rewrite P1; reflexivity|reflexivity].
  - destruct (IH (mkw n' (a - length out) k) s' (total + (length s - length s'))%nat) as (w' & -> & W); [lia|lia| |].
    + cbn [needsLF avail]. intros ->. destruct (Nat.lt_ge_cases (length out) a) as [L|L]; [destruct (P4 L); discriminate|lia].
    + cbn [needsLF]. exists w'. split; [rewrite P1; reflexivity|exact W].
Qed.
Lemma writes_ok pieces : forall w, needsLF w = false -> writes crlf fresh w pieces = Some (map (fun p => (newlines crlf p, true)) pieces).
Proof.
  induction pieces as [|p pieces IH]; intros w Hn; [reflexivity|]. cbn [writes map]. unfold write. destruct (writeLoop_ok (length p) (S (S (length p))) w p 0) as (w' & -> & W); [lia|lia|congruence|]. rewrite (IH _ W), Hn. reflexivity.
Qed.
End Writing.
Theorem filtered_right crlf fresh first pieces : (forall k, (2 <= fresh k)%nat) -> filtered crlf fresh first pieces = Some (map (fun p => (newlines crlf p, true)) pieces).
Proof. intros H. apply (writes_ok crlf fresh H). reflexivity. Qed.

Section Reading.
Context (offer : nat -> nat).
Lemma newlines_app crlf a b : newlines crlf (a ++ b) = newlines crlf a ++ newlines crlf b.
Proof. apply flat_map_app. Qed.
Lemma readSome_ok room : (0 < room)%nat -> forall fuel r, (length (todo r) + 1 < fuel)%nat -> needs r = false ->
  exists r' out, readSome offer fuel r room = Some (r', out) /\ needs r' = false /\ newlines false (cur r ++ todo r) = out ++ newlines false (cur r' ++ todo r') /\
    (out = [] -> newlines false (cur r ++ todo r) = []) /\ (length out <= room)%nat.
Proof.
  intros Hr. induction fuel as [|fuel IH]; intros r Hf Hn; [lia|]. cbn [readSome]. pose proof (process_ok false room (needs r) (cur r)) as P. rewrite Hn in *. destruct (process false room false (cur r)) as [[n' s'] out]. destruct P as (P1 & P2 & P3 & P4 & P5 & P6 & P7 & P8).
  rewrite (P8 eq_refl eq_refl) in *. cbn [lf app] in P1. destruct out as [|o out].
  - destruct (P4 ltac:(cbn; lia)) as (_ & ->). cbn [app] in P1. rewrite newlines_app, P1. cbn [newlines flat_map app]. fold (newlines false (todo r)). destruct (todo r) as [|t ts] eqn:E.
    + eexists. exists []. split; [reflexivity|]. repeat split. cbn. lia.
    + set (k := S (offer (calls r))). destruct (IH (mkr false (firstn k (t :: ts)) (skipn k (t :: ts)) (S (calls r)))) as (r' & out & W1 & W2 & W3 & W4 & W5); [|reflexivity|].
      * cbn [todo]. rewrite skipn_length. unfold k. cbn [length] in *. lia.
      * cbn [cur todo] in W3, W4. rewrite firstn_skipn in W3, W4. exists r', out. split; [exact W1|]. split; [exact W2|]. split; [exact W3|]. split; [exact W4|exact W5].
  - eexists. exists (o :: out). split; [reflexivity|]. cbn [needs cur todo]. split; [reflexivity|]. split; [rewrite !newlines_app, P1, app_assoc; reflexivity|]. split; [discriminate|exact P2].
Qed.
Lemma reads_ok : forall rooms r, Forall (fun n => 0 < n)%nat rooms -> needs r = false ->
  exists outs rest, reads offer r rooms = Some outs /\ newlines false (cur r ++ todo r) = concat outs ++ rest /\ (In [] outs -> rest = []) /\ Forall2 (fun out room => (length out <= room)%nat) outs rooms.
Proof.
  induction rooms as [|n rooms IH]; intros r Hr Hn; cbn [reads].
  - exists [], (newlines false (cur r ++ todo r)). repeat split; [intros []|constructor].
  - inversion Hr as [|x y Hr1 Hr2]; subst. replace (n =? 0)%nat with false by lia. destruct (readSome_ok n Hr1 (S (S (length (todo r)))) r ltac:(lia) Hn) as (r' & out & -> & N & D & E & L).
    destruct (IH r' Hr2 N) as (outs & rest & -> & D' & E' & F). exists (out :: outs), rest. split; [reflexivity|]. cbn [concat]. split; [rewrite D, D', app_assoc; reflexivity|]. split; [|constructor; assumption].
    intros [H|H]; [|apply E', H]. specialize (E H). rewrite D, D' in E. apply app_eq_nil in E. destruct E as (_ & E). apply app_eq_nil in E. apply E.
Qed.
End Reading.
Theorem read_filtered_right offer text rooms : Forall (fun n => 0 < n)%nat rooms ->
  exists outs rest, readFiltered offer text rooms = Some outs /\ newlines false text = concat outs ++ rest /\ (In [] outs -> rest = []) /\ Forall2 (fun out room => (length out <= room)%nat) outs rooms.
Proof. intros H. exact (reads_ok offer rooms (mkr false [] text 0) H eq_refl). Qed.
