(* What cannot be saved or is not loaded: proofs. *)
From Coq Require Import Lia ZifyBool ZifyNat String.
From Verif Require Import Base Txt PersistModel PersistSpec PersistSchema PersistWriteProofs PersistProofs.
Local Open Scope string_scope.
Local Open Scope list_scope.
Local Open Scope Z_scope.
Local Notation length := List.length.

(** There is a null pointer in an object. *)
Fixpoint holdsNull (v : val) : bool :=
  match v with
  | VNull => true
  | VSeq l | VArr l => existsb holdsNull l
  | VOwn _ v | VSwitch _ v => holdsNull v
  | _ => false
  end.

Lemma val_rect' (P : val -> Prop) :
  (forall v, match v with VSeq l | VArr l => Forall P l | VOwn _ v | VSwitch _ v => P v | _ => True end -> P v) -> forall v, P v.
Proof.
  intros H. fix F 1. intros v. apply H. destruct v; try exact I; try apply F; induction l; constructor; auto.
Qed.
Lemma run_none {S} (fs : list (S -> option S)) : Exists (fun f => forall s, f s = None) fs -> forall s, run fs s = None.
Proof. induction 1 as [f fs H|f fs _ IH]; intros s; cbn; [now rewrite H|]. destruct (f s); auto. Qed.
Lemma both_none {A B} (fs : list (A -> B)) (Q : B -> Prop) : Exists (fun f => forall x, Q (f x)) fs -> forall l r, both fs l = Some r -> Exists Q r.
Proof.
  induction 1 as [f fs H|f fs _ IH]; intros [|x l] r E; cbn in E; try discriminate; destruct (both fs l) as [r'|] eqn:E'; try discriminate; injection E as <-.
  - now constructor.
  - apply Exists_cons_tl. eauto.
Qed.
Lemma exists_null (P : val -> Prop) l : Forall (fun v => holdsNull v = true -> P v) l -> existsb holdsNull l = true -> Exists P l.
Proof. induction 1 as [|v l H _ IH]; cbn; [discriminate|]. rewrite Bool.orb_true_iff. intros [E|E]; [left|right]; auto. Qed.
Lemma write_null env v : holdsNull v = true -> forall t s, writeVal env v t s = None.
Proof.
  induction v as [v IH] using val_rect'. intros N t s.
  destruct t as [k| |i]; [destruct v; try reflexivity; discriminate N|destruct v; try reflexivity; discriminate N|].
  destruct v as [z|x|l|l|a v| |a|j u|j v]; try discriminate N; cbn [writeVal]; destruct (nth_error env i) as [d|]; try reflexivity; destruct d; try reflexivity; cbn [holdsNull] in N.
  - destruct (_ =? _); [|reflexivity]. apply run_none. apply (exists_null (fun v => forall t s, writeVal env v t s = None)) in N; [|exact IH].
    apply Exists_map. eapply Exists_impl; [|exact N]. auto.
  - destruct (both _ _) as [fs|] eqn:B; [|reflexivity]. apply run_none. eapply both_none; [|exact B].
    apply (exists_null (fun v => forall t s, writeVal env v t s = None)) in N; [|exact IH]. apply Exists_map. eapply Exists_impl; [|exact N]. auto.
  - destruct (enumIds env enum) as [ids|]; [|reflexivity]. destruct (_ =? _)%nat; [|reflexivity]. apply run_none. apply (exists_null (fun v => forall t s, writeVal env v t s = None)) in N; [|exact IH].
    apply Exists_map. eapply Exists_impl; [|exact N]. auto.
  - destruct (_ <? _); [|reflexivity]. apply run_none. apply (exists_null (fun v => forall t s, writeVal env v t s = None)) in N; [|exact IH].
    apply Exists_map. eapply Exists_impl; [|exact N]. auto.
  - destruct (offset s); [|reflexivity]. destruct (existsb _ _); [reflexivity|]. apply IH, N.
  - destruct (nth_error states j); [|reflexivity]. apply IH, N.
Qed.
Lemma null_not_saved env t v : holdsNull v = true -> writeAsset env t v = None.
Proof.
  intros N. unfold writeAsset. destruct (match t with PNum k => _ | PString => _ | PUser i => _ end) as [[id c]|]; [|reflexivity]. now rewrite write_null.
Qed.

Definition bigTypes : list tdesc := [TStruct (txt "Big") [] [(txt "l", PUser 1)]; TArray (PNum KU8)].
Lemma run_bytes env l : forall s, run (map (fun v => writeVal env v (PNum KU8)) (map VNum l)) s = Some (mkw (data s ++ map (fun z => z mod 256) l) (weak s) (owned s)).
Proof.
  induction l as [|z l IH]; intros s; cbn [map run]; [now destruct s; rewrite app_nil_r|]. cbn [writeVal]. rewrite IH.
  unfold emit. cbn [data weak owned size le]. now rewrite <- app_assoc.
Qed.
Lemma write_big l s : zlen l < 2 ^ 32 ->
  writeVal bigTypes (VSeq [VArr (map VNum l)]) (PUser 0) s = Some (mkw (data s ++ le 4 (zlen l) ++ map (fun z => z mod 256) l) (weak s) (owned s)).
Proof.
  intros L. assert (Z1 : zlen (map VNum l) = zlen l) by (unfold zlen; now rewrite map_length).
  change (writeVal bigTypes (VSeq [VArr (map VNum l)]) (PUser 0) s) with
    (match (if zlen (map VNum l) <? 2 ^ 32 then run (map (fun v => writeVal bigTypes v (PNum KU8)) (map VNum l)) (emit (le 4 (zlen (map VNum l))) s) else None) with Some s => Some s | None => None end).
  rewrite Z1. destruct (zlen l <? 2 ^ 32) eqn:E; [|lia]. rewrite run_bytes. unfold emit. cbn [data weak owned]. now rewrite <- app_assoc.
Qed.
Definition bigHead : list Z := Eval vm_compute in (match addFormat 3 bigTypes 0 (mkf [] []) with Some c => schema c | None => [] end ++ [0] ++ le 4 0 ++ le 4 1000)%list.
Lemma write_big_asset l : zlen l < 2 ^ 32 ->
  writeAsset bigTypes (PUser 0) (VSeq [VArr (map VNum l)]) = Some (bigHead ++ le 4 (zlen l) ++ map (fun z => z mod 256) l).
Proof.
  intros L. unfold writeAsset.
  match goal with |- context [addFormat ?f ?e ?i ?c] => let r := eval vm_compute in (addFormat f e i c) in change (addFormat f e i c) with r end.
  cbv beta iota. rewrite write_big by exact L. cbn [weak owned data each map linkTable schema]. reflexivity.
Qed.
Lemma readU_le4 p z rest : 0 <= z < 2 ^ 32 -> readU 4 (p, le 4 z ++ rest) = Some (z, (p + 4, rest)).
Proof.
  intros H. unfold readU, take. cbn [le app snd fst length Nat.leb firstn skipn]. f_equal. f_equal. cbn [unle].
  change (2 ^ 32) with 4294967296 in H. clear - H.
  assert (z = z mod 256 + 256 * (z / 256 mod 256 + 256 * (z / 256 / 256 mod 256 + 256 * (z / 256 / 256 / 256 mod 256 + 256 * 0)))); [|lia].
  assert (z / 256 / 256 / 256 < 256) by (repeat apply Z.div_lt_upper_bound; lia). assert (0 <= z / 256 / 256 / 256) by (repeat apply Z.div_pos; lia).
  rewrite (Z.mod_small (z / 256 / 256 / 256)) by lia. pose proof (Z.div_mod z 256). pose proof (Z.div_mod (z / 256) 256). pose proof (Z.div_mod (z / 256 / 256) 256). lia.
Qed.
Lemma big_not_loaded dflt l : 10000000 <= zlen l < 2 ^ 32 ->
  exists file, writeAsset bigTypes (PUser 0) (VSeq [VArr (map VNum l)]) = Some file /\ readAsset bigTypes dflt (PUser 0) file = None.
Proof.
  intros L. exists (bigHead ++ le 4 (zlen l) ++ map (fun z => z mod 256) l). split; [apply write_big_asset; lia|].
  remember (le 4 (zlen l) ++ map (fun z => z mod 256) l) as rest eqn:R.
  unfold readAsset.
  assert (RS : forall n, readSchema (S (S n)) ([], (0, bigHead ++ rest)) = Some ([FStruct (txt "Big") [] [(txt "l", FArray (FNum KU8))]; FArray (FNum KU8)], (24, le 4 0 ++ le 4 1000 ++ rest))).
  { intros n. vm_compute. reflexivity. }
  assert (R1 : readAsset bigTypes dflt (PUser 0) (bigHead ++ rest) =
    match readVal bigTypes dflt 28 (FStruct (txt "Big") [] [(txt "l", FArray (FNum KU8))]) (PUser 0) (dflt (PUser 0)) (mko (32, rest) [] [] 1) with Some (v, s) => resolve (done s) v | None => None end).
  { unfold readAsset. change (length (bigHead ++ rest)) with (S (length (tl bigHead ++ rest))). rewrite RS. reflexivity. }
  unfold readAsset in R1. rewrite R1.
  change (readVal bigTypes dflt 28 (FStruct (txt "Big") [] [(txt "l", FArray (FNum KU8))]) (PUser 0) (dflt (PUser 0)) (mko (32, rest) [] [] 1)) with
    (match dflt (PUser 0) with
     | VSeq l =>
       match match nth_error l 0 with
             | Some o => match match rd (readU 4) (mko (32, rest) [] [] 1) with Some (n, s) =>
                                 if n <? 10000000 then match times (Z.to_nat n) (readVal bigTypes dflt 28 (FNum KU8) (PNum KU8) (dflt (PNum KU8))) s with Some (l, s) => Some (VArr l, s) | None => None end else None
                               | None => None end
                         with Some (v, s) => Some (updAt l 0 v, s) | None => None end
             | None => None end with Some (l, s) => Some (VSeq l, s) | None => None end
     | _ => None end).
  destruct (dflt (PUser 0)); try reflexivity. destruct (nth_error l0 0); [|reflexivity].
  unfold rd. cbn [inp]. subst rest. rewrite readU_le4 by lia. destruct (zlen l <? 10000000) eqn:E; [lia|reflexivity].
Qed.

Definition shapesOf (ss : list (list Z * nat)) : list tdesc :=
  [TStruct (txt "A") [] [(txt "x", PNum KU8)]; TStruct (txt "B") [] [(txt "y", PNum KU16)]; TSwitch (txt "S") ss].
Definition shapeDefault (t : tptr) : val := match t with PUser 2 => VSwitch 0 (VSeq [VNum 0]) | PUser _ => VSeq [VNum 0] | _ => VNull end.
Lemma switch_lost z : 0 <= z < 2 ^ 16 ->
  match writeAsset (shapesOf [(txt "a", 0%nat); (txt "b", 1%nat)]) (PUser 2) (VSwitch 1 (VSeq [VNum z])) with
  | Some file => Some (readAsset (shapesOf [(txt "b", 1%nat); (txt "a", 0%nat)]) shapeDefault (PUser 2) file)
  | None => None
  end = Some (Some (VSwitch 0 (VSeq [VNum 0]))).
Proof.
  intros H.
  assert (E : forall a b, writeVal (shapesOf [(txt "a", 0%nat); (txt "b", 1%nat)]) (VSwitch 1 (VSeq [VNum z])) (PUser 2) (mkw (le 4 1000) a b) =
    Some (mkw ([232; 3; 0; 0; 1; 0] ++ le 2 z) a b)) by reflexivity.
  unfold writeAsset.
  match goal with |- context [addFormat ?f ?e ?i ?c] => let r := eval vm_compute in (addFormat f e i c) in change (addFormat f e i c) with r end.
  cbv beta iota. rewrite E. clear E. cbn [le]. generalize (z mod 256), (z / 256 mod 256). intros b0 b1. vm_compute. reflexivity.
Qed.
Lemma cast_wraps k k' z : ~ In k' [Kbool; Kfloat; Kdouble] -> ~ In k [Kfloat; Kdouble] -> numOk k z ->
  exists y, cast k' (toNumeric k z) = Some y /\ numOk k' y /\ (2 ^ (8 * Z.of_nat (size k')) | y - z).
Proof.
  intros K' K _. assert (T : toNumeric k z = RepInt z) by (destruct k; try reflexivity; elim K; cbn; tauto). rewrite T. clear T K.
  assert (C : cast k' (RepInt z) = Some (castInt k' z)) by (destruct k'; try reflexivity; elim K'; cbn; tauto). rewrite C. eexists. split; [reflexivity|].
  assert (M : forall n, 0 < n -> (2 ^ n | z mod 2 ^ n - z)).
  { intros n Hn. exists (- (z / 2 ^ n)). pose proof (Z.div_mod z (2 ^ n) ltac:(apply Z.pow_nonzero; lia)). lia. }
  assert (TS : forall n, 1 < n -> - 2 ^ (n - 1) <= to_signed n z < 2 ^ (n - 1) /\ (2 ^ n | to_signed n z - z)).
  { intros n Hn. specialize (M n ltac:(lia)). pose proof (Z.mod_pos_bound z (2 ^ n) ltac:(apply Z.pow_pos_nonneg; lia)) as B. assert (P : 2 ^ n = 2 * 2 ^ (n - 1)) by (rewrite <- Z.pow_succ_r by lia; f_equal; lia).
    unfold to_signed. destruct (Z.ltb_spec (z mod 2 ^ n) (2 ^ (n - 1))); [split; [lia|exact M]|]. split; [lia|]. destruct M as [q M]. exists (q - 1). lia. }
  destruct k'; try (elim K'; cbn; tauto); unfold numOk; cbn [castInt isSigned size signalling]; (split; [split; [intros []|]|]);
    match goal with
    | |- _ <= to_signed ?n _ < _ => apply (TS n); lia
    | |- (_ | to_signed ?n _ - _) => apply (TS n); lia
    | |- _ <= _ mod _ < _ => apply Z.mod_pos_bound; lia
    | |- (_ | _ mod 2 ^ ?n - _) => apply (M n); lia
    end.
Qed.
