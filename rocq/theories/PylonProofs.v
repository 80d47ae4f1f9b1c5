From Coq Require Import ZifyBool ZifyNat.
From Verif Require Import Base TextEncodingModel EscapeModel EscapeSpec EscapeProofs PylonModel PylonSpec.

(* ** Quoted strings *)
Lemma readQuoted_escaped s rest run : run = 0%nat \/ (run = 1%nat /\ s <> []) ->
  Forall (fun b => 32 <= b < 255 \/ b = 9 \/ b = 10 \/ b = 13) s ->
  readQuoted 34 (flat_map (fun b => esc_point b [b]) s ++ 34 :: rest) run false = QText s rest.
Proof.
  intros Hrun Hpr. revert run Hrun. induction s as [|b s IH]; intros run Hrun.
  - destruct Hrun as [->|[_ H]]; [|congruence]. reflexivity.
  - inversion Hpr as [|? ? Hb2 Hpr']; subst.
    specialize (IH Hpr' 0%nat (or_introl eq_refl)). cbn [flat_map]. rewrite <- app_assoc.
    assert (Hr : negb false && (run =? 2)%nat = false) by (destruct Hrun as [->|[-> _]]; reflexivity).
    unfold esc_point at 1.
    destruct (Z.eqb_spec b 34) as [->|N1];
      [|destruct (Z.eqb_spec b 92) as [->|N2];
        [|destruct (Z.eqb_spec b 13) as [->|N3];
          [|destruct (Z.eqb_spec b 10) as [->|N4];
            [|destruct (Z.eqb_spec b 9) as [->|N5]]]]].
    1-5: cbn [app]; cbn [readQuoted]; change (92 =? 34) with false; cbv iota; rewrite Hr;
      cbv beta iota zeta; cbn [Z.eqb Pos.eqb orb]; rewrite IH; reflexivity.
    replace (32 <=? b) with true by lia. cbn [app]. cbn [readQuoted].
    replace (b =? 34) with false by lia. rewrite Hr. replace (b =? 255) with false by lia.
    replace ((b =? 13) || (b =? 10)) with false by lia. replace (b =? 92) with false by lia.
    rewrite IH. reflexivity.
Qed.

(* what may follow a closing quote *)
Definition no_quote (rest : list Z) : Prop := match rest with [] => True | c :: _ => c <> 34 end.
Lemma readToken_quote s rest nl : text_ok s -> no_quote rest -> readToken nl (quote s ++ rest) = Ok (TText s, rest).
Proof.
  intros [Hs Hno] Hr. assert (Hb : bytes_ok s) by (unfold bytes_ok; eapply Forall_impl; [|exact Hs]; unfold is_byte; intros; cbv beta in *; lia).
  unfold quote. rewrite <- !app_assoc. cbn [app readToken]. cbn [Z.eqb Pos.eqb orb].
  replace (readQuoted 34 (escapedString s 0 ++ 34 :: rest) 1 false) with (QText s rest); [reflexivity|]. symmetry.
  unfold escapedString. rewrite point_loop_bytewise; auto.
  - destruct s as [|b s].
    + cbn [flat_map app readQuoted]. change (34 =? 34) with true. cbv iota. cbn [Nat.eqb]. destruct rest as [|c r]; [reflexivity|]. cbn [no_quote] in Hr. cbn [readQuoted]. replace (c =? 34) with false by lia. reflexivity.
    + apply readQuoted_escaped; auto. right. split; [reflexivity|discriminate].
  - intros p src Hp. unfold esc_point. repeat match goal with |- context [?a =? ?b] => destruct (Z.eqb_spec a b); [lia|] end. replace (32 <=? p) with true by lia. reflexivity.
Qed.
Lemma readToken_indent d rest nl : readToken nl (indent d ++ rest) = readToken nl rest.
Proof. unfold indent. induction d as [|d IH]; [reflexivity|]. cbn [repeat concat app readToken]. cbn [Z.eqb Pos.eqb orb]. exact IH. Qed.

(* ** Round trip *)
Fixpoint arr_items (depth : nat) (l : list node) : list Z :=
  match l with
  | [] => []
  | x :: l => indent (S depth) ++ write (S depth) x ++ (match l with [] => [] | _ => [44] end) ++ [10] ++ arr_items depth l
  end.
Fixpoint obj_items (depth : nat) (l : list (list Z * node)) : list Z :=
  match l with
  | [] => []
  | (k, x) :: l => indent (S depth) ++ quote k ++ [58; 32] ++ write (S depth) x ++ (match l with [] => [] | _ => [44] end) ++ [10] ++ obj_items depth l
  end.
Lemma write_array d l : write d (Array l) = [91; 10] ++ arr_items d l ++ indent d ++ [93].
Proof. cbn [write]. do 2 f_equal. induction l as [|x l IH]; [reflexivity|]. cbn [arr_items]. rewrite <- IH. reflexivity. Qed.
Lemma write_object d l : write d (Object l) = [123; 10] ++ obj_items d l ++ indent d ++ [125].
Proof. cbn [write]. do 2 f_equal. induction l as [|[k x] l IH]; [reflexivity|]. cbn [obj_items]. rewrite <- IH. reflexivity. Qed.

Definition starts (t : token) : Prop := match t with TOpenCurly | TOpenSquare | TText _ => True | _ => False end.
Definition reads (n : node) : Prop := forall d rest, no_quote rest ->
  exists t s1, (forall nl, readToken nl (write d n ++ rest) = Ok (t, s1)) /\ starts t /\ (length s1 < length (write d n ++ rest))%nat /\
    forall fuel, (2 * length s1 + 2 <= fuel)%nat -> readExpression fuel t s1 = Ok (n, rest).

Lemma readArray_items d l : (forall x, In x l -> reads x) -> forall acc rest fuel, (2 * length (arr_items d l ++ indent d ++ 93%Z :: rest) + 1 <= fuel)%nat ->
  readArray fuel acc (arr_items d l ++ indent d ++ 93 :: rest) = Ok (Array (acc ++ l), rest).
Proof.
  induction l as [|x l IH]; intros H acc rest fuel Hf.
  - destruct fuel as [|fuel]; [lia|]. cbn [arr_items app readArray]. rewrite readToken_indent. cbn [readToken]. cbn [Z.eqb Pos.eqb orb bind]. rewrite app_nil_r. reflexivity.
  - cbn [arr_items] in *. rewrite <- !app_assoc in *. set (tail := arr_items d l ++ indent d ++ 93 :: rest) in *.
    assert (Nq : no_quote (match l with [] => [] | _ => [44] end ++ [10] ++ tail)) by (destruct l; cbn; discriminate).
    destruct (H x (or_introl eq_refl) (S d) _ Nq) as (t & s1 & T1 & T2 & T3 & T4).
    destruct fuel as [|fuel]; [lia|]. cbn [readArray]. rewrite readToken_indent, T1. cbn [bind].
    rewrite app_length in Hf. replace (match t with TCloseSquare => _ | TComma | TSemicolon | TNewLine => _ | _ => _ end) with (bind (readExpression fuel t s1) (fun '(v, s) => readArray fuel (acc ++ [v]) s)) by (destruct t; cbn in T2; try contradiction; reflexivity).
    rewrite T4 by lia. cbn [bind]. rewrite app_length in T3, Hf. rewrite !app_length in Hf. cbn [length] in Hf. 
    assert (IH' : forall f, (2 * length tail + 1 <= f)%nat -> readArray f (acc ++ [x]) tail = Ok (Array (acc ++ x :: l), rest)). { intros f Hf'. unfold tail in *. rewrite (IH (fun y Hy => H y (or_intror Hy)) (acc ++ [x]) rest f Hf'). rewrite <- app_assoc. reflexivity. }
    destruct l as [|y l].
    + cbn [app]. destruct fuel as [|fuel]; [lia|]. cbn [readArray readToken]. cbn [Z.eqb Pos.eqb orb bind]. apply IH'. cbn [length] in *. lia.
    + cbn [app]. destruct fuel as [|fuel]; [lia|]. cbn [readArray readToken]. cbn [Z.eqb Pos.eqb orb bind]. cbn [length] in *. destruct fuel as [|fuel]; [lia|]. cbn [readArray readToken]. cbn [Z.eqb Pos.eqb orb bind]. apply IH'. lia.
Qed.
Lemma list_eqb_eq a b : list_eqb a b = true <-> a = b.
Proof. revert b. induction a as [|x a IH]; intros [|y b]; cbn [list_eqb]; try (split; [discriminate|discriminate]); [split; reflexivity|]. rewrite andb_true_iff, IH. split; [intros [A B]; f_equal; [lia|exact B]|intros E; inversion E; split; [lia|reflexivity]]. Qed.
Lemma has_in k items : has k items = true <-> In k (map fst items).
Proof. unfold has. rewrite existsb_exists, in_map_iff. split; intros (x & A & B); exists x; [apply list_eqb_eq in B|apply list_eqb_eq in A]; auto. Qed.
Lemma readObject_items d l : (forall k x, In (k, x) l -> text_ok k) -> (forall k x, In (k, x) l -> reads x) -> forall acc sep rest fuel,
  NoDup (map fst (acc ++ l)) -> (length (acc ++ l) <= 64)%nat -> (acc = [] \/ sep = true \/ l = []) ->
  (2 * length (obj_items d l ++ indent d ++ 125%Z :: rest) + 1 <= fuel)%nat ->
  readObject fuel acc sep (obj_items d l ++ indent d ++ 125 :: rest) = Ok (Object (acc ++ l), rest).
Proof.
  induction l as [|[k x] l IH]; intros Hk H acc sep rest fuel ND L64 Hsep Hf.
  - destruct fuel as [|fuel]; [lia|]. cbn [obj_items app readObject]. rewrite readToken_indent. cbn [readToken]. cbn [Z.eqb Pos.eqb orb bind]. rewrite app_nil_r. reflexivity.
  - cbn [obj_items] in *. rewrite <- !app_assoc in *. set (tail := obj_items d l ++ indent d ++ 125 :: rest) in *.
    assert (Nq : no_quote (match l with [] => [] | _ => [44] end ++ [10] ++ tail)) by (destruct l; cbn; discriminate).
    destruct (H k x (or_introl eq_refl) (S d) _ Nq) as (t & s1 & T1 & T2 & T3 & T4).
    destruct fuel as [|fuel]; [lia|]. cbn [readObject]. rewrite readToken_indent, readToken_quote; [|exact (Hk k x (or_introl eq_refl))|cbn; discriminate]. cbn [bind].
    replace (negb match acc with [] => true | _ => false end && negb sep) with false by (destruct Hsep as [->|[->|E]]; [reflexivity|rewrite andb_false_r; reflexivity|discriminate]).
    assert (Hn : has k acc = false). { destruct (has k acc) eqn:E; [|reflexivity]. exfalso. apply has_in in E. rewrite map_app in ND. apply NoDup_remove_2 in ND. apply ND. apply in_or_app. left. exact E. }
    rewrite Hn. replace (64 <=? length acc)%nat with false by (rewrite app_length in L64; cbn [length] in L64; lia).
    cbn [app readToken]. cbn [Z.eqb Pos.eqb orb bind]. cbn [app] in T1, T4. match goal with |- context [readToken false (32 :: ?w)] => change (readToken false (32 :: w)) with (readToken false w) end. rewrite T1. cbn [bind].
    rewrite !app_length in Hf. cbn [length] in Hf. rewrite T4 by (rewrite !app_length in T3; cbn [length] in T3; lia). cbn [bind]. rewrite !app_length in T3.
    assert (IH' : forall f, (2 * length tail + 1 <= f)%nat -> readObject f (acc ++ [(k, x)]) true tail = Ok (Object (acc ++ (k, x) :: l), rest)).
    { intros f Hf'. unfold tail in *. rewrite (IH (fun k y Hy => Hk k y (or_intror Hy)) (fun k y Hy => H k y (or_intror Hy)) (acc ++ [(k, x)]) true rest f); [rewrite <- app_assoc; reflexivity|rewrite <- app_assoc; exact ND|rewrite <- app_assoc; exact L64|right; left; reflexivity|exact Hf']. }
    destruct l as [|y l].
    + cbn [app]. destruct fuel as [|fuel]; [lia|]. cbn [readObject readToken]. cbn [Z.eqb Pos.eqb orb bind]. apply IH'. cbn [length] in *. lia.
    + cbn [app]. destruct fuel as [|fuel]; [lia|]. cbn [readObject readToken]. cbn [Z.eqb Pos.eqb orb bind]. cbn [length] in *. destruct fuel as [|fuel]; [lia|]. cbn [readObject readToken]. cbn [Z.eqb Pos.eqb orb bind]. apply IH'. lia.
Qed.
Lemma tree_reads n : tree_ok n -> reads n.
Proof.
  induction 1 as [s H|l H IH|l Hk H IH ND L]; intros d rest Nq.
  - exists (TText s), rest. split; [intros nl; apply readToken_quote; assumption|]. split; [exact I|]. split; [cbn [write]; unfold quote; rewrite !app_length; cbn [length]; lia|]. intros [|fuel] Hf; [lia|reflexivity].
  - exists TOpenSquare, (10 :: arr_items d l ++ indent d ++ 93 :: rest). rewrite write_array, <- !app_assoc. cbn [app]. split; [reflexivity|]. split; [exact I|]. split; [cbn [length]; lia|].
    intros [|fuel] Hf; [lia|]. cbn [readExpression]. destruct fuel as [|fuel]; [lia|]. cbn [readArray readToken]. cbn [Z.eqb Pos.eqb orb bind]. apply (readArray_items d l IH []). cbn [length] in Hf. lia.
  - exists TOpenCurly, (10 :: obj_items d l ++ indent d ++ 125 :: rest). rewrite write_object, <- !app_assoc. cbn [app]. split; [reflexivity|]. split; [exact I|]. split; [cbn [length]; lia|].
    intros [|fuel] Hf; [lia|]. cbn [readExpression]. destruct fuel as [|fuel]; [lia|]. cbn [readObject readToken]. cbn [Z.eqb Pos.eqb orb bind]. apply (readObject_items d l Hk IH []); [exact ND|exact L|left; reflexivity|]. cbn [length] in Hf. lia.
Qed.
Theorem pylon_roundtrip n : tree_ok n -> parse (toString n) = Ok (Some n).
Proof.
  intros H. destruct (tree_reads n H 0%nat [] I) as (t & s1 & T1 & T2 & T3 & T4). rewrite app_nil_r in *. unfold parse, toString. rewrite T1. cbn [bind]. rewrite T4 by lia. reflexivity.
Qed.

(* ** Parsing ends *)
Lemma readQuoted_len q s : forall run multi t r, readQuoted q s run multi = QText t r -> (length r <= length s)%nat.
Proof.
  assert (P : forall p x t r, qpre p x = QText t r -> exists t', x = QText t' r) by (intros p [t0 r0|r0|] t r E; cbn in E; inversion E; subst; eexists; reflexivity).
  assert (S : forall n s, (length s <= n)%nat -> forall run multi t r, readQuoted q s run multi = QText t r -> (length r <= length s)%nat).
  { induction n as [|n IH]; intros [|c s0] Hn run multi t r E; cbn [length] in Hn; try lia; cbn [readQuoted length] in *.
    1,2: destruct (negb multi && (run =? 2)%nat); inversion E; subst; cbn; lia.
    assert (I : forall run multi t r, readQuoted q s0 run multi = QText t r -> (length r <= S (length s0))%nat) by (intros ? ? ? ? E'; apply IH in E'; lia).
    destruct (c =? q). { destruct run as [|run]; [destruct multi; [apply I in E; exact E|inversion E; subst; lia]|]. destruct (S (S run) =? 3)%nat; [destruct multi; [inversion E; subst; lia|apply I in E; exact E]|apply I in E; exact E]. }
    destruct (negb multi && (run =? 2)%nat); [inversion E; subst; cbn; lia|]. apply P in E. destruct E as [t1 E]. destruct (c =? 255); [discriminate|].
    destruct ((c =? 13) || (c =? 10)). { destruct multi; [|discriminate]. apply P in E. destruct E as [t2 E]. apply I in E. exact E. }
    destruct (c =? 92); [|apply P in E; destruct E as [t2 E]; apply I in E; exact E].
    destruct s0 as [|code r2]; [discriminate|]. cbn [length] in *. assert (I2 : forall run multi t r, readQuoted q r2 run multi = QText t r -> (length r <= S (S (length r2)))%nat) by (intros ? ? ? ? E'; apply IH in E'; lia).
    repeat match type of E with (if ?b then _ else _) = _ => destruct b; try discriminate end; apply P in E; destruct E as [t2 E]; apply I2 in E; exact E. }
  intros. eapply S; [apply le_n|eassumption].
Qed.
Lemma readLiteral_len s : forall l r, readLiteral s = Ok (l, r) -> (length r <= length s)%nat /\ (match s with c :: _ => isAlnumUnit c = true -> (length r < length s)%nat | [] => True end).
Proof.
  induction s as [|c s IH]; intros l r E; cbn [readLiteral] in E; [discriminate|]. destruct (isAlnumUnit c) eqn:Ec.
  - destruct (readLiteral s) as [[l0 r0]| | | | |] eqn:Es; cbn [bind] in E; try discriminate. inversion E; subst. destruct (IH _ _ eq_refl). cbn [length]. lia.
  - inversion E; subst. split; [lia|discriminate].
Qed.
Lemma readLiteral_cases s : readLiteral s = Hangs \/ exists l r, readLiteral s = Ok (l, r).
Proof. induction s as [|c s IH]; cbn [readLiteral]; [left; reflexivity|]. destruct (isAlnumUnit c); [|right; eexists _, _; reflexivity]. destruct IH as [->|(l & r & ->)]; [left; reflexivity|right; eexists _, _; reflexivity]. Qed.

Definition consumes (t : token) : Prop := match t with TInvalid | TJunk | TEndOfFile => False | _ => True end.
(* what reading a token can give *)
Lemma readToken_cases nl s : (exists t r, readToken nl s = Ok (t, r) /\ (consumes t -> (length r < length s)%nat)) \/ readToken nl s = Hangs \/ readToken nl s = Asserts.
Proof.
  induction s as [|c s IH]; cbn [readToken]; [left; eexists _, _; split; [reflexivity|intros []]|].
  assert (W : (exists t r, readToken nl s = Ok (t, r) /\ (consumes t -> (length r < length (c :: s))%nat)) \/ readToken nl s = Hangs \/ readToken nl s = Asserts) by (destruct IH as [(t & r & A & B)|IH]; [left; exists t, r; split; [exact A|intros X; specialize (B X); cbn [length]; lia]|right; exact IH]).
  destruct ((c =? 32) || (c =? 9) || (c =? 13)); [exact W|]. destruct (c =? 10). { destruct nl; [left; eexists _, _; split; [reflexivity|intros _; cbn [length]; lia]|exact W]. }
  destruct (c =? 255); [left; eexists _, _; split; [reflexivity|intros []]|]. do 8 (match goal with |- context [if ?b then Ok _ else _] => destruct b; [left; eexists _, _; split; [reflexivity|intros _; cbn [length]; lia]|] end).
  destruct ((c =? 34) || (c =? 39)).
  - destruct (readQuoted c s 1 false) as [t r|r|] eqn:E; [left; eexists _, _; split; [reflexivity|]|left; eexists _, _; split; [reflexivity|intros []]|right; right; reflexivity]. intros _. apply readQuoted_len in E. cbn [length]. lia.
  - destruct (isAlnumUnit c) eqn:Ec; [|left; eexists _, _; split; [reflexivity|intros []]]. destruct (readLiteral_cases (c :: s)) as [E|(l & r & E)]; rewrite E; cbn [bind]; [right; left; reflexivity|]. left. eexists _, _. split; [reflexivity|]. intros _. apply readLiteral_len in E. apply E. exact Ec.
Qed.
Lemma ends fuel : (forall t s, (2 * length s + 3 <= fuel)%nat -> readExpression fuel t s <> OutOfFuel /\ forall n r, readExpression fuel t s = Ok (n, r) -> (length r <= length s)%nat) /\
  (forall items sep s, (2 * length s + 2 <= fuel)%nat -> readObject fuel items sep s <> OutOfFuel /\ forall n r, readObject fuel items sep s = Ok (n, r) -> (length r <= length s)%nat) /\
  (forall items s, (2 * length s + 2 <= fuel)%nat -> readArray fuel items s <> OutOfFuel /\ forall n r, readArray fuel items s = Ok (n, r) -> (length r <= length s)%nat).
Proof.
  induction fuel as [|fuel (IE & IO & IA)]; [split; [|split]; intros; lia|]. split; [|split].
  - intros t s H. cbn [readExpression]. destruct t; try (split; [discriminate|intros ? ? E; discriminate]); [apply IO; lia|apply IA; lia|]. split; [discriminate|]. intros n r E. inversion E; subst. lia.
  - intros items sep s H. cbn [readObject]. destruct (readToken_cases true s) as [(t & s1 & E & C)|[E|E]]; rewrite E; cbn [bind]; try (split; [discriminate|intros ? ? X; discriminate]).
    assert (R : (length s1 < length s)%nat -> readObject fuel items true s1 <> OutOfFuel /\ forall n r, readObject fuel items true s1 = Ok (n, r) -> (length r <= length s)%nat).
    { intros Hl. destruct (IO items true s1 ltac:(lia)) as [A B]. split; [exact A|]. intros n r X. apply B in X. lia. }
    destruct t; try (split; [discriminate|intros ? ? X; discriminate]); try (apply R, C, I); specialize (C I).
    + split; [discriminate|]. intros n r X. inversion X; subst. lia.
    + destruct (negb _ && negb sep); [split; [discriminate|intros ? ? X; discriminate]|]. destruct (has _ items); [split; [discriminate|intros ? ? X; discriminate]|]. destruct (64 <=? length items)%nat; [split; [discriminate|intros ? ? X; discriminate]|].
      destruct (readToken_cases false s1) as [(t2 & s2 & E2 & C2)|[E2|E2]]; rewrite E2; cbn [bind]; try (split; [discriminate|intros ? ? X; discriminate]).
      assert (V : forall k, (length s2 < length s1)%nat -> let x := bind (readToken false s2) (fun '(t, s) => bind (readExpression fuel t s) (fun '(v, s) => readObject fuel (items ++ [(k, v)]) false s)) in x <> OutOfFuel /\ forall n r, x = Ok (n, r) -> (length r <= length s)%nat).
      { intros k Hl x. subst x. destruct (readToken_cases false s2) as [(t3 & s3 & E3 & C3)|[E3|E3]]; rewrite E3; cbn [bind]; try (split; [discriminate|intros ? ? X; discriminate]).
        destruct t3; try (destruct fuel; [lia|]; cbn [readExpression bind]; split; [discriminate|intros ? ? X; discriminate]); specialize (C3 I);
          (match goal with |- context [readExpression fuel ?t s3] => destruct (IE t s3 ltac:(lia)) as [A B]; destruct (readExpression fuel t s3) as [[v r4]| | | | |] eqn:E4; cbn [bind]; try contradiction; try (split; [discriminate|intros ? ? X; discriminate]) end;
           specialize (B _ _ eq_refl); destruct (IO (items ++ [(k, v)]) false r4 ltac:(lia)) as [A' B']; split; [exact A'|]; intros n r X; apply B' in X; lia). }
      destruct t2; try (split; [discriminate|intros ? ? X; discriminate]); apply V, C2, I.
  - intros items s H. cbn [readArray]. destruct (readToken_cases true s) as [(t & s1 & E & C)|[E|E]]; rewrite E; cbn [bind]; try (split; [discriminate|intros ? ? X; discriminate]).
    assert (R : (length s1 < length s)%nat -> readArray fuel items s1 <> OutOfFuel /\ forall n r, readArray fuel items s1 = Ok (n, r) -> (length r <= length s)%nat).
    { intros Hl. destruct (IA items s1 ltac:(lia)) as [A B]. split; [exact A|]. intros n r X. apply B in X. lia. }
    assert (V : forall t, (length s1 < length s)%nat -> let x := bind (readExpression fuel t s1) (fun '(v, s) => readArray fuel (items ++ [v]) s) in x <> OutOfFuel /\ forall n r, x = Ok (n, r) -> (length r <= length s)%nat).
    { intros t0 Hl x. subst x. destruct (IE t0 s1 ltac:(lia)) as [A B]. destruct (readExpression fuel t0 s1) as [[v r4]| | | | |] eqn:E4; cbn [bind]; try contradiction; try (split; [discriminate|intros ? ? X; discriminate]). specialize (B _ _ eq_refl). destruct (IA (items ++ [v]) r4 ltac:(lia)) as [A' B']. split; [exact A'|]. intros n r X. apply B' in X. lia. }
    destruct t; try (apply R, C, I); try (apply V, C, I); try (destruct fuel; [lia|]; cbn [readExpression bind]; split; [discriminate|intros ? ? X; discriminate]).
    split; [discriminate|]. intros n r X. inversion X; subst. specialize (C I). lia.
Qed.

Lemma readToken_none nl s : readToken nl s <> OutOfFuel /\ readToken nl s <> NullRead /\ readToken nl s <> Beyond.
Proof. destruct (readToken_cases nl s) as [(t & r & E & _)|[E|E]]; rewrite E; repeat split; discriminate. Qed.
Theorem parse_ends s : parse s <> OutOfFuel.
Proof.
  unfold parse. destruct (readToken_cases false s) as [(t & s1 & E & C)|[E|E]]; rewrite E; cbn [bind]; try discriminate.
  assert (N : readExpression (2 * length s + 2) t s1 <> OutOfFuel).
  { replace (2 * length s + 2)%nat with (S (2 * length s + 1)) by lia. destruct t; cbn [readExpression]; try discriminate; specialize (C I); apply ends; lia. }
  destruct (readExpression (2 * length s + 2) t s1) as [[n s2]| | | | |]; cbn [bind]; try discriminate; try contradiction.
  destruct (readToken_cases false s2) as [(t2 & s3 & E2 & C2)|[E2|E2]]; rewrite E2; cbn [bind]; try discriminate. destruct t2; discriminate.
Qed.

(* ** Where a loop for ever or a failed assertion come from *)
Section Trace.
Context (Q : list Z -> Prop) (Qt : forall c s, Q (c :: s) -> Q s).
Lemma Q_quoted q s : Q s -> forall run multi t r, (readQuoted q s run multi = QText t r \/ readQuoted q s run multi = QError r) -> Q r.
Proof.
  assert (P : forall p x t r, (qpre p x = QText t r \/ qpre p x = QError r) -> exists t', (x = QText t' r \/ x = QError r)) by (intros p [t0 r0|r0|] t r [E|E]; cbn in E; inversion E; subst; [exists t0|exists []]; auto).
  assert (S : forall n s, (length s <= n)%nat -> Q s -> forall run multi t r, (readQuoted q s run multi = QText t r \/ readQuoted q s run multi = QError r) -> Q r).
  { induction n as [|n IH]; intros [|c s0] Hn H run multi t r E; cbn [length] in Hn; try lia; cbn [readQuoted] in E.
    1,2: destruct (negb multi && (run =? 2)%nat); destruct E as [E|E]; inversion E; subst; exact H.
    assert (H0 : Q s0) by (eapply Qt; exact H).
    assert (I : forall run multi t r, (readQuoted q s0 run multi = QText t r \/ readQuoted q s0 run multi = QError r) -> Q r) by (intros ? ? ? ? E'; eapply IH; [|exact H0|exact E']; lia).
    destruct (c =? q). { destruct run as [|run]; [destruct multi; [eapply I; exact E|destruct E as [E|E]; inversion E; subst; exact H0]|]. destruct (S (S run) =? 3)%nat; [destruct multi; [destruct E as [E|E]; inversion E; subst; exact H0|eapply I; exact E]|eapply I; exact E]. }
    destruct (negb multi && (run =? 2)%nat); [destruct E as [E|E]; inversion E; subst; exact H|]. apply P in E. destruct E as [t1 E]. destruct (c =? 255); [destruct E as [E|E]; inversion E; subst; exact H|].
    destruct ((c =? 13) || (c =? 10)). { destruct multi; [|destruct E as [E|E]; inversion E; subst; exact H]. apply P in E. destruct E as [t2 E]. eapply I; exact E. }
    destruct (c =? 92); [|apply P in E; destruct E as [t2 E]; eapply I; exact E].
    destruct s0 as [|code r2]; [destruct E as [E|E]; inversion E; subst; exact H0|]. cbn [length] in *. assert (H2 : Q r2) by (eapply Qt; exact H0). assert (I2 : forall run multi t r, (readQuoted q r2 run multi = QText t r \/ readQuoted q r2 run multi = QError r) -> Q r) by (intros ? ? ? ? E'; eapply IH; [|exact H2|exact E']; lia).
    repeat match type of E with (if ?b then _ else _) = _ \/ _ => destruct b; try (destruct E as [E|E]; inversion E; subst; exact H2) end; apply P in E; destruct E as [t2 E]; eapply I2; exact E. }
  intros H run multi t r E. eapply S; [apply le_n|exact H|exact E].
Qed.
Lemma Q_literal s : Q s -> forall l r, readLiteral s = Ok (l, r) -> Q r.
Proof.
  induction s as [|c s IH]; intros H l r E; cbn [readLiteral] in E; [discriminate|]. destruct (isAlnumUnit c).
  - destruct (readLiteral s) as [[l0 r0]| | | | |] eqn:Es; cbn [bind] in E; try discriminate. inversion E; subst. eapply IH; [eapply Qt; exact H|reflexivity].
  - inversion E; subst. exact H.
Qed.
Lemma Q_token nl s : Q s -> forall t r, readToken nl s = Ok (t, r) -> Q r.
Proof.
  induction s as [|c s IH]; intros H t r E; cbn [readToken] in E; [inversion E; subst; exact H|]. assert (H0 : Q s) by (eapply Qt; exact H). specialize (IH H0).
  destruct ((c =? 32) || (c =? 9) || (c =? 13)); [eapply IH; exact E|]. destruct (c =? 10). { destruct nl; [inversion E; subst; exact H0|eapply IH; exact E]. }
  destruct (c =? 255); [inversion E; subst; exact H|]. do 8 (match type of E with (if ?b then Ok _ else _) = _ => destruct b; [inversion E; subst; exact H0|] end).
  destruct ((c =? 34) || (c =? 39)).
  - destruct (readQuoted c s 1 false) as [t0 r0|r0|] eqn:Eq; inversion E; subst; [eapply Q_quoted; [exact H0|left; exact Eq]|eapply Q_quoted with (t := []); [exact H0|right; exact Eq]].
  - destruct (isAlnumUnit c); [|inversion E; subst; exact H]. destruct (readLiteral (c :: s)) as [[l0 r0]| | | | |] eqn:El; cbn [bind] in E; try discriminate. inversion E; subst. eapply Q_literal; [exact H|exact El].
Qed.
(* [w]: looping for ever; otherwise: a failed assertion *)
Definition bad (w : bool) {A} (x : res A) : bool := match x with Hangs => w | Asserts => negb w | _ => false end.
Context (w : bool) (no_tok : forall nl s, Q s -> bad w (readToken nl s) = false).
Context (no_inv : w = false -> forall nl s r, Q s -> readToken nl s <> Ok (TInvalid, r)).
Definition fine (x : res (node * list Z)) : Prop := bad w x = false /\ forall n r, x = Ok (n, r) -> Q r.
Lemma fine_bind (x : res (token * list Z)) k nl s : Q s -> x = readToken nl s -> (forall t r, x = Ok (t, r) -> Q r -> fine (k (t, r))) -> fine (bind x k).
Proof.
  intros H E K. subst x. pose proof (no_tok nl s H) as N. destruct (readToken nl s) as [[t r]| | | | |] eqn:E; cbn [bind bad] in *; try (split; [exact N|intros ? ? X; discriminate]). apply K; [reflexivity|]. eapply Q_token; [exact H|exact E].
Qed.
Lemma fine_expr x k : fine x -> (forall v r, Q r -> fine (k (v, r))) -> fine (bind x k).
Proof. intros [A B] K. destruct x as [[v r]| | | | |]; cbn [bind bad] in *; try (split; [exact A|intros ? ? X; discriminate]). apply K. eapply B. reflexivity. Qed.
Lemma fine_null : fine NullRead. Proof. split; [reflexivity|]. intros ? ? E; discriminate. Qed.
Lemma fine_beyond : fine Beyond. Proof. split; [reflexivity|]. intros ? ? E; discriminate. Qed.
Lemma fine_inv nl s r : Q s -> readToken nl s = Ok (TInvalid, r) -> fine Asserts.
Proof. intros H E. split; [|intros ? ? X; discriminate]. cbn [bad]. destruct w eqn:Ew; [reflexivity|]. exfalso. eapply no_inv; [reflexivity|exact H|exact E]. Qed.
Lemma fine_ok n r : Q r -> fine (Ok (n, r)). Proof. intros H. split; [reflexivity|]. intros ? ? E. inversion E; subst. exact H. Qed.
Lemma fine_parse fuel : (forall t s, Q s -> fine (readExpression fuel t s)) /\ (forall items sep s, Q s -> fine (readObject fuel items sep s)) /\ (forall items s, Q s -> fine (readArray fuel items s)).
Proof.
  induction fuel as [|fuel (IE & IO & IA)]; [split; [|split]; intros; (split; [reflexivity|intros ? ? E; discriminate])|]. split; [|split].
  - intros t s H. cbn [readExpression]. destruct t; try apply fine_null; [apply IO; exact H|apply IA; exact H|apply fine_ok; exact H].
  - intros items sep s H. cbn [readObject]. eapply fine_bind; [exact H|reflexivity|]. intros t s1 E H1. destruct t; try apply fine_null; try (apply IO; exact H1); [eapply fine_inv; [exact H|exact E]|apply fine_ok; exact H1|].
    destruct (negb _ && negb sep); [apply fine_null|]. destruct (has _ items); [apply fine_null|]. destruct (64 <=? length items)%nat; [apply fine_beyond|].
    eapply fine_bind; [exact H1|reflexivity|]. intros t2 s2 E2 H2.
    assert (V : forall k, fine (bind (readToken false s2) (fun '(t, s) => bind (readExpression fuel t s) (fun '(v, s) => readObject fuel (items ++ [(k, v)]) false s)))).
    { intros k. eapply fine_bind; [exact H2|reflexivity|]. intros t3 s3 _ H3. apply fine_expr; [apply IE; exact H3|]. intros v r Hr. apply IO. exact Hr. }
    destruct t2; try apply fine_null; try apply V. eapply fine_inv; [exact H1|exact E2].
  - intros items s H. cbn [readArray]. eapply fine_bind; [exact H|reflexivity|]. intros t s1 E H1.
    assert (V : forall t, fine (bind (readExpression fuel t s1) (fun '(v, s) => readArray fuel (items ++ [v]) s))) by (intros t0; apply fine_expr; [apply IE; exact H1|]; intros v r Hr; apply IA; exact Hr).
    destruct t; try apply V; try (apply IA; exact H1). apply fine_ok; exact H1.
Qed.
Lemma fine_all s : Q s -> bad w (parse s) = false.
Proof.
  intros H. unfold parse. pose proof (no_tok false s H) as N. destruct (readToken false s) as [[t s1]| | | | |] eqn:E; cbn [bind bad] in *; try exact N. pose proof (Q_token _ _ H _ _ E) as H1.
  destruct (proj1 (fine_parse (2 * length s + 2)) t s1 H1) as [A B]. destruct (readExpression (2 * length s + 2) t s1) as [[n s2]| | | | |]; cbn [bind bad] in *; try exact A. specialize (B n s2 eq_refl).
  pose proof (no_tok false s2 B) as N2. destruct (readToken false s2) as [[t2 s3]| | | | |] eqn:E2; cbn [bind bad] in *; try exact N2. destruct t2; try reflexivity. cbn [bad]. destruct w eqn:Ew; [reflexivity|]. exfalso. eapply no_inv; [reflexivity|exact B|exact E2].
Qed.
End Trace.

Definition not_lit_end (s : list Z) : Prop := forall p c, s = p ++ [c] -> isAlnumUnit c = false.
Lemma not_lit_tail c s : not_lit_end (c :: s) -> not_lit_end s.
Proof. intros H p x E. apply (H (c :: p)). rewrite E. reflexivity. Qed.
Lemma literal_ends s : s <> [] -> not_lit_end s -> readLiteral s <> Hangs.
Proof.
  induction s as [|c s IH]; intros N H; [contradiction|]. cbn [readLiteral]. destruct (isAlnumUnit c) eqn:E; [|discriminate].
  destruct s as [|d s]; [specialize (H [] c eq_refl); congruence|]. specialize (IH ltac:(discriminate) (not_lit_tail _ _ H)). destruct (readLiteral (d :: s)) as [[? ?]| | | | |]; cbn [bind]; try discriminate. exact IH.
Qed.
Lemma token_ends nl s : not_lit_end s -> bad true (readToken nl s) = false.
Proof.
  induction s as [|c s IH]; intros H; cbn [readToken]; [reflexivity|]. specialize (IH (not_lit_tail _ _ H)).
  destruct ((c =? 32) || (c =? 9) || (c =? 13)); [exact IH|]. destruct (c =? 10); [destruct nl; [reflexivity|exact IH]|]. destruct (c =? 255); [reflexivity|].
  do 8 (match goal with |- context [if ?b then Ok _ else _] => destruct b; [reflexivity|] end). destruct ((c =? 34) || (c =? 39)); [destruct (readQuoted c s 1 false); reflexivity|].
  destruct (isAlnumUnit c); [|reflexivity]. pose proof (literal_ends (c :: s) ltac:(discriminate) H) as L. destruct (readLiteral_cases (c :: s)) as [E|(l & r & E)]; rewrite E in *; [contradiction|reflexivity].
Qed.
Theorem parse_hangs s : parse s = Hangs -> exists p c, s = p ++ [c] /\ isAlnumUnit c = true.
Proof.
  intros E. destruct (list_eq_dec Z.eq_dec s []) as [->|N]; [discriminate|]. destruct (exists_last N) as (p & c & Es). exists p, c. split; [exact Es|]. destruct (isAlnumUnit c) eqn:Ec; [reflexivity|]. exfalso.
  assert (Q : not_lit_end s) by (intros p' c' E'; rewrite Es in E'; apply app_inj_tail in E'; destruct E' as [_ <-]; exact Ec).
  pose proof (fine_all not_lit_end not_lit_tail true token_ends ltac:(discriminate) s Q) as B. rewrite E in B. discriminate.
Qed.
Definition unquoted (s : list Z) : Prop := ~ In 34 s /\ ~ In 39 s.
Lemma unquoted_tail c s : unquoted (c :: s) -> unquoted s.
Proof. unfold unquoted. cbn [In]. tauto. Qed.
Lemma token_unquoted nl s : unquoted s -> bad false (readToken nl s) = false /\ forall r, readToken nl s <> Ok (TInvalid, r).
Proof.
  induction s as [|c s IH]; intros H; cbn [readToken]; [split; [reflexivity|discriminate]|]. specialize (IH (unquoted_tail _ _ H)).
  destruct ((c =? 32) || (c =? 9) || (c =? 13)); [exact IH|]. destruct (c =? 10); [destruct nl; [split; [reflexivity|discriminate]|exact IH]|]. destruct (c =? 255); [split; [reflexivity|discriminate]|].
  do 8 (match goal with |- context [if ?b then Ok _ else _] => destruct b; [split; [reflexivity|discriminate]|] end).
  replace ((c =? 34) || (c =? 39)) with false by (destruct H as [H1 H2]; cbn [In] in *; lia).
  destruct (isAlnumUnit c); [|split; [reflexivity|discriminate]]. destruct (readLiteral_cases (c :: s)) as [E|(l & r & E)]; rewrite E; cbn [bind]; (split; [reflexivity|discriminate]).
Qed.
Theorem parse_asserts s : parse s = Asserts -> In 34 s \/ In 39 s.
Proof.
  intros E. destruct (in_dec Z.eq_dec 34 s) as [|N1]; [left; assumption|]. destruct (in_dec Z.eq_dec 39 s) as [|N2]; [right; assumption|]. exfalso.
  pose proof (fine_all unquoted unquoted_tail false (fun nl s H => proj1 (token_unquoted nl s H)) (fun _ nl s r H => proj2 (token_unquoted nl s H) r) s (conj N1 N2)) as B. rewrite E in B. discriminate.
Qed.

(* ** Common inputs that fail *)
Theorem parse_blank s : Forall (fun c => c = 32 \/ c = 9 \/ c = 13 \/ c = 10) s -> parse s = NullRead.
Proof.
  intros H. unfold parse. assert (E : readToken false s = Ok (TEndOfFile, [])). { induction H as [|c s Hc H IH]; [reflexivity|]. cbn [readToken]. destruct Hc as [->|[->|[->| ->]]]; exact IH. }
  rewrite E. cbn [bind]. replace (2 * length s + 2)%nat with (S (2 * length s + 1)) by lia. reflexivity.
Qed.
Theorem parse_word s : s <> [] -> Forall (fun c => isAlnumUnit c = true) s -> ~ In 255 s -> parse s = Hangs.
Proof.
  intros N H N5. assert (L : forall s, Forall (fun c => isAlnumUnit c = true) s -> readLiteral s = Hangs) by (clear; intros s H; induction H as [|c s Hc H IH]; [reflexivity|]; cbn [readLiteral]; rewrite Hc, IH; reflexivity).
  destruct s as [|c s]; [contradiction|]. unfold parse. pose proof (L _ H) as E. inversion H as [|? ? Hc Hs]; subst. unfold isAlnumUnit in Hc.
  assert (c <> 255) by (intros ->; apply N5; left; reflexivity). cbn [readToken].
  repeat match goal with |- context [if ?b then _ else _] => lazymatch b with isAlnumUnit _ => fail | _ => replace b with false by lia end end.
  replace (isAlnumUnit c) with true by (unfold isAlnumUnit; symmetry; exact Hc). rewrite E. reflexivity.
Qed.
Lemma quoted_ok s : forall c r, ~ In 34 s -> ~ In 92 s -> Forall (fun b => 32 <= b < 255) s -> no_quote r -> readToken c (34 :: s ++ 34 :: r) = Ok (TText s, r).
Proof.
  intros nl r H1 H2 H3 Hr. cbn [readToken]. cbn [Z.eqb Pos.eqb orb].
  assert (G : forall s, ~ In 34 s -> ~ In 92 s -> Forall (fun b => 32 <= b < 255) s -> readQuoted 34 (s ++ 34 :: r) 0 false = QText s r).
  { clear. induction s as [|c s IH]; intros H1 H2 H3; [reflexivity|]. inversion H3; subst. cbn [app readQuoted]. cbn [In] in *. replace (c =? 34) with false by lia. cbn [negb andb Nat.eqb]. replace (c =? 255) with false by lia. replace ((c =? 13) || (c =? 10)) with false by lia. replace (c =? 92) with false by lia. rewrite IH by (first [assumption | tauto]). reflexivity. }
  destruct s as [|c s].
  - cbn [app readQuoted]. change (34 =? 34) with true. cbv iota. cbn [Nat.eqb]. destruct r as [|x r]; [reflexivity|]. cbn [no_quote] in Hr. cbn [readQuoted]. replace (x =? 34) with false by lia. reflexivity.
  - inversion H3; subst. cbn [app readQuoted]. cbn [In] in *. replace (c =? 34) with false by lia. cbn [negb andb Nat.eqb]. replace (c =? 255) with false by lia. replace ((c =? 13) || (c =? 10)) with false by lia. replace (c =? 92) with false by lia. rewrite G by (first [assumption | tauto]). reflexivity.
Qed.
Theorem parse_outcomes s :
  (exists r, parse s = Ok r) \/ parse s = NullRead \/ parse s = Beyond \/
  (parse s = Hangs /\ exists p c, s = p ++ [c] /\ isAlnumUnit c = true) \/
  (parse s = Asserts /\ (In 34 s \/ In 39 s)).
Proof.
  pose proof (parse_ends s) as E. pose proof (parse_hangs s) as H. pose proof (parse_asserts s) as A. destruct (parse s) as [r| | | | |]; [left; exists r; reflexivity|tauto..|].
  contradiction.
Qed.
