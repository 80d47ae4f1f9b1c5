(* C85: names of modules, externs and extern providers mean what the registry says. *)
From Coq Require Import String.
From Verif Require Import Base Txt ScanSpec NumTextSpec NamesModel NamesSpec NamesProofs NamesMore NamesWrite.
Local Open Scope string_scope.
Local Open Scope list_scope.
Local Open Scope Z_scope.
Local Notation length := List.length.

(** A registry for the examples: two repos, sharing a module and an extern name. *)
Definition ex_reg : registry :=
  [ Repo (txt "plywood") [txt "runtime"; txt "web"] [txt "zlib"; txt "assimp"; txt "z"]
         [((txt "plywood", 0%nat), txt "apt"); ((txt "plywood", 1%nat), txt "brew")] [];
    Repo (txt "my-game") [txt "web"; txt "main"] [txt "zlib"]
         [((txt "plywood", 0%nat), txt "apt"); ((txt "my-game", 0%nat), txt "prebuilt")] [txt "plywood"] ].
Lemma ex_unique : unique_repos ex_reg.
Proof.
  unfold unique_repos. cbn. constructor; [intros [H|[]]; discriminate|]. constructor; [intros []|constructor].
Qed.
Definition ident_b (w : name) : bool :=
  forallb (fun c => (0 <=? c) && (c <? 256)) w &&
  match splitName w with [v] => name_eqb v w | _ => false end.
Lemma ident_by w : ident_b w = true -> ident 2 w.
Proof.
  unfold ident_b. intros H. apply andb_true_iff in H. destruct H as [Hb H].
  destruct (splitName w) as [|v [|? ?]] eqn:E; try discriminate. apply name_eqb_eq in H. subst v.
  apply split_spec in E; [destruct E as (_ & E & _); now inversion E| |discriminate].
  rewrite forallb_forall in Hb. apply Forall_forall. intros c Hc. specialize (Hb c Hc). unfold is_byte. lia.
Qed.
Lemma idents_by ws : forallb ident_b ws = true -> Forall (ident 2) ws.
Proof. rewrite forallb_forall. intros H. apply Forall_forall. intros w Hw. apply ident_by. auto. Qed.
Lemma ex_good : good_names ex_reg.
Proof.
  intros r [<-|[<-|[]]].
  - split; [apply ident_by; vm_compute; reflexivity|]. split; [apply idents_by; vm_compute; reflexivity|].
    split; [apply idents_by; vm_compute; reflexivity|]. apply Forall_map, idents_by. vm_compute. reflexivity.
  - split; [apply ident_by; vm_compute; reflexivity|]. split; [apply idents_by; vm_compute; reflexivity|].
    split; [apply idents_by; vm_compute; reflexivity|]. apply Forall_map, idents_by. vm_compute. reflexivity.
Qed.

(** C85. A text splits into the components it spells, in exactly one way, and is refused exactly when
    it spells none. *)
Theorem C85_split : forall s, bytes_ok s ->
  (forall comps, comps <> [] -> (splitName s = comps <-> spells s comps)) /\
  (splitName s = [] <-> forall comps, ~ spells s comps).
Proof. intros s Hb. split; [intros comps; now apply split_spec|now apply split_fails]. Qed.
Print Assumptions C85_split.
Example C85_split_ex : splitName (txt "my-game.zlib.x86_64") = [txt "my-game"; txt "zlib"; txt "x86_64"] /\
  splitName (txt "a..b") = [] /\ splitName (txt "a.") = [] /\ splitName (txt "a.1b") = [] /\ splitName (txt "a b") = [].
Proof. vm_compute. repeat split. Qed.

(** C85. A module name finds a module exactly when it is [repo.module], or names a module of exactly
    one repo and is itself no repo's name; otherwise nothing is found, and an error is logged. *)
Theorem C85_find_module : forall reg s t, unique_repos reg -> bytes_ok s ->
  (findTarget reg s = Ret (Some t) false <-> exists comps, spells s comps /\ target_named reg comps t) /\
  (findTarget reg s = Ret None true <-> forall comps t, spells s comps -> ~ target_named reg comps t).
Proof. exact findTarget_spec. Qed.
Print Assumptions C85_find_module.
Example C85_find_module_ex :
  findTarget ex_reg (txt "main") = Ret (Some (txt "my-game", txt "main")) false /\
  findTarget ex_reg (txt "plywood.web") = Ret (Some (txt "plywood", txt "web")) false /\
  findTarget ex_reg (txt "web") = Ret None true /\ findTarget ex_reg (txt "plywood") = Ret None true /\
  findTarget ex_reg (txt "plywood.main") = Ret None true /\ findTarget ex_reg (txt "plywood.web.x") = Ret None true.
Proof. vm_compute. repeat split. Qed.

(** C85, full statement: the same for extern names, with nothing found and no failed assertion on every
    other text. Proved: which extern is returned. It is also returned when components are left over,
    with an error logged; and one family of texts fails an assertion ([C85_short_extern_refuted]). *)
Theorem C85_find_extern_partial : forall reg s, unique_repos reg -> bytes_ok s ->
  (forall e logged, findExtern reg s = Ret (Some e) logged <->
     exists comps extra, spells s (comps ++ extra) /\ extern_named reg comps e /\ (logged = true <-> extra <> [])) /\
  (findExtern reg s = Crash <-> exists comps, spells s comps /\
     exists r c extra, In r reg /\ comps = rname r :: [c] :: extra /\ ~ In [c] (rexterns r)) /\
  findExtern reg s <> Ret None false.
Proof. exact findExtern_spec. Qed.
Print Assumptions C85_find_extern_partial.
Example C85_find_extern_ex :
  findExtern ex_reg (txt "assimp") = Ret (Some (txt "plywood", 1%nat)) false /\
  findExtern ex_reg (txt "my-game.zlib") = Ret (Some (txt "my-game", 0%nat)) false /\
  findExtern ex_reg (txt "zlib") = Ret None true /\ findExtern ex_reg (txt "my-game.assimp") = Ret None true.
Proof. vm_compute. repeat split. Qed.

(** The message for an extern missing from a repo reads the second byte of the extern's name, so a
    name of one byte fails an assertion; and surplus components do not stop the extern from being
    returned. *)
Theorem C85_short_extern_refuted : forall reg r c, unique_repos reg -> In r reg -> ident 2 (rname r) -> ident 2 [c] ->
  ~ In [c] (rexterns r) -> findExtern reg (depFullName (rname r) [c]) = Crash.
Proof.
  intros reg r c Hu Hr G1 G2 Hno.
  assert (Hs : spells (depFullName (rname r) [c]) [rname r; [c]]) by (apply (spells_dotted _ [_]); [now apply spells_one|exact G2]).
  apply findExtern_spec; [exact Hu|eapply spells_bytes; exact Hs|]. exists [rname r; [c]]. split; [exact Hs|].
  exists r, c, []. auto.
Qed.
Print Assumptions C85_short_extern_refuted.
Example C85_short_extern_ex : findExtern ex_reg (txt "my-game.z") = Crash /\ findExtern ex_reg (txt "plywood.q") = Crash /\
  findExtern ex_reg (txt "assimp.and.more") = Ret (Some (txt "plywood", 1%nat)) true.
Proof. vm_compute. repeat split. Qed.

(** C85, full statement: a provider name finds a provider exactly when it is an extern name followed by
    [repo.provider], or by a provider name offered for that extern by exactly one repo and that is no
    repo's name; nothing is found otherwise. Proved: all of this except for the texts that fail an
    assertion, which are also characterised. *)
Theorem C85_find_provider_partial : forall reg s, unique_repos reg -> bytes_ok s ->
  (forall q, getExternProvider reg s = Ret (Some q) false <->
     exists ec pc e, spells s (ec ++ pc) /\ extern_named reg ec e /\ provider_named reg e pc q) /\
  (getExternProvider reg s = Crash <->
     (exists comps, spells s comps /\
       ((exists r c extra, In r reg /\ comps = rname r :: [c] :: extra /\ ~ In [c] (rexterns r)) \/
        exists e, extern_named reg comps e))) /\
  (forall q, getExternProvider reg s <> Ret (Some q) true) /\ getExternProvider reg s <> Ret None false.
Proof. exact getExternProvider_spec. Qed.
Print Assumptions C85_find_provider_partial.
Example C85_find_provider_ex :
  getExternProvider ex_reg (txt "assimp.brew") = Ret (Some (txt "plywood", 1%nat)) false /\
  getExternProvider ex_reg (txt "plywood.zlib.my-game.apt") = Ret (Some (txt "my-game", 0%nat)) false /\
  getExternProvider ex_reg (txt "my-game.zlib.prebuilt") = Ret (Some (txt "my-game", 1%nat)) false /\
  getExternProvider ex_reg (txt "plywood.zlib.apt") = Ret None true.
Proof. vm_compute. repeat split. Qed.

(** An extern's own name, given where a provider is expected, fails an assertion after its error is
    logged. *)
Theorem C85_provider_missing_refuted : forall reg comps e, unique_repos reg -> Forall (ident 2) comps ->
  extern_named reg comps e -> getExternProvider reg (join comps) = Crash.
Proof.
  intros reg comps e Hu Hi He.
  assert (Hs : spells (join comps) comps).
  { split; [|auto]. destruct He as (r & n & _ & _ & _ & [->|(-> & _)]); discriminate. }
  apply getExternProvider_spec; [exact Hu|eapply spells_bytes; exact Hs|]. exists comps. split; [exact Hs|]. right. exists e. exact He.
Qed.
Print Assumptions C85_provider_missing_refuted.
Example C85_provider_missing_ex : getExternProvider ex_reg (txt "assimp") = Crash /\ getExternProvider ex_reg (txt "plywood.zlib") = Crash.
Proof. vm_compute. repeat split. Qed.

(** C85. The full names the tool prints for modules and externs read back as them. *)
Theorem C85_full_module : forall reg r t, unique_repos reg -> good_names reg -> In r reg -> In t (rtargets r) ->
  findTarget reg (depFullName (rname r) t) = Ret (Some (rname r, t)) false.
Proof. exact full_target. Qed.
Print Assumptions C85_full_module.
Theorem C85_full_extern : forall reg r n i, unique_repos reg -> good_names reg -> In r reg ->
  first_at (fun d => d = n) (rexterns r) i ->
  findExtern reg (depFullName (rname r) n) = Ret (Some (rname r, i)) false.
Proof. exact full_extern. Qed.
Print Assumptions C85_full_extern.
(** C85, full statement: and the short names too. Proved: an extern's short name reads back unless it
    is a repo's name. *)
Theorem C85_short_extern_partial : forall reg r n i, unique_repos reg -> good_names reg -> In r reg ->
  first_at (fun d => d = n) (rexterns r) i -> ~ is_repo reg n ->
  findExtern reg (shortDepName reg (rname r) n) = Ret (Some (rname r, i)) false.
Proof. exact short_extern. Qed.
Print Assumptions C85_short_extern_partial.
Example C85_written_ex : unique_repos ex_reg /\ good_names ex_reg /\
  shortDepName ex_reg (txt "plywood") (txt "assimp") = txt "assimp" /\
  shortDepName ex_reg (txt "plywood") (txt "zlib") = txt "plywood.zlib" /\
  depFullName (txt "my-game") (txt "web") = txt "my-game.web" /\
  first_at (fun d => d = txt "assimp") [txt "zlib"; txt "assimp"; txt "z"] 1 /\ ~ is_repo ex_reg (txt "assimp").
Proof.
  split; [exact ex_unique|]. split; [exact ex_good|]. split; [reflexivity|]. split; [reflexivity|]. split; [reflexivity|]. split.
  - split; [exists (txt "assimp"); auto|]. intros [|j] x Hj Hx; [|lia]. injection Hx as <-. discriminate.
  - intros (r & [<-|[<-|[]]] & E); discriminate.
Qed.

(** A module's short name is qualified only when another repo has an *extern* of that name: it reads
    back exactly in that case, or when it happens to be unambiguous. *)
Theorem C85_short_module_partial : forall reg r t, unique_repos reg -> good_names reg -> In r reg -> In t (rtargets r) ->
  (findTarget reg (shortDepName reg (rname r) t) = Ret (Some (rname r, t)) false <->
   (exists r', In r' reg /\ r' <> r /\ In t (rexterns r')) \/
   (~ is_repo reg t /\ forall r', In r' reg -> In t (rtargets r') -> r' = r)).
Proof. exact short_target. Qed.
Print Assumptions C85_short_module_partial.
Theorem C85_short_module_refuted : shortDepName ex_reg (txt "plywood") (txt "web") = txt "web" /\
  findTarget ex_reg (txt "web") = Ret None true /\
  findTarget ex_reg (txt "plywood.web") = Ret (Some (txt "plywood", txt "web")) false.
Proof. vm_compute. repeat split. Qed.
Print Assumptions C85_short_module_refuted.

(** C85, full statement: a provider's full name, which is what a build folder records to select it,
    reads back as that provider. Proved: it does exactly when the provider's repo is not the extern's,
    or its name is no repo's name and no other repo offers the same name for that extern. *)
Theorem C85_full_provider_partial : forall reg er n i r p j, unique_repos reg -> good_names reg -> In er reg -> In r reg ->
  first_at (fun d => d = n) (rexterns er) i -> first_at (fun x => x = ((rname er, i), p)) (rproviders r) j ->
  (getExternProvider reg (provFullName (rname er) n (rname r) p) = Ret (Some (rname r, j)) false <->
   r <> er \/ (~ is_repo reg p /\ forall r', In r' reg -> In ((rname er, i), p) (rproviders r') -> r' = r)).
Proof. exact full_provider. Qed.
Print Assumptions C85_full_provider_partial.
Theorem C85_full_provider_refuted :
  nth_error (rproviders (hd (Repo [] [] [] [] []) ex_reg)) 0 = Some ((txt "plywood", 0%nat), txt "apt") /\
  provFullName (txt "plywood") (txt "zlib") (txt "plywood") (txt "apt") = txt "plywood.zlib.apt" /\
  getExternProvider ex_reg (txt "plywood.zlib.apt") = Ret None true.
Proof. vm_compute. repeat split. Qed.
Print Assumptions C85_full_provider_refuted.

(** C85. A provider's short name reads back, unless the extern or the provider is named like a repo. *)
Theorem C85_short_provider_partial : forall reg er n i r p j, unique_repos reg -> good_names reg -> In er reg -> In r reg ->
  first_at (fun d => d = n) (rexterns er) i -> first_at (fun x => x = ((rname er, i), p)) (rproviders r) j ->
  ~ is_repo reg n -> ~ is_repo reg p ->
  getExternProvider reg (shortProvName reg (rname er, i) n (rname r) p) = Ret (Some (rname r, j)) false.
Proof. exact short_provider. Qed.
Print Assumptions C85_short_provider_partial.
Example C85_short_provider_ex :
  shortProvName ex_reg (txt "plywood", 0%nat) (txt "zlib") (txt "plywood") (txt "apt") = txt "plywood.zlib.plywood.apt" /\
  getExternProvider ex_reg (txt "plywood.zlib.plywood.apt") = Ret (Some (txt "plywood", 0%nat)) false /\
  shortProvName ex_reg (txt "plywood", 1%nat) (txt "assimp") (txt "plywood") (txt "brew") = txt "assimp.brew".
Proof. vm_compute. repeat split. Qed.

(** C85. A signature is written as the 32 hexadecimal digits of its value and reads back; a text of
    any other length reads as no signature, and reading never fails. *)
Theorem C85_signature : forall hi lo, 0 <= hi < 2 ^ 64 -> 0 <= lo < 2 ^ 64 ->
  exists s, signatureToString hi lo = Some s /\ length s = 32%nat /\ denotes 16 s (hi * 2 ^ 64 + lo) /\
            parseSignatureString s = Some (hi, lo).
Proof. exact signature_roundtrip. Qed.
Print Assumptions C85_signature.
Theorem C85_signature_total : forall s,
  (length s <> 32%nat -> parseSignatureString s = Some (0, 0)) /\ parseSignatureString s <> None.
Proof. exact signature_total. Qed.
Print Assumptions C85_signature_total.
Example C85_signature_ex : signatureToString 0xabc 0xffffffffffffffff = Some (txt "0000000000000abcffffffffffffffff").
Proof. vm_compute. reflexivity. Qed.
