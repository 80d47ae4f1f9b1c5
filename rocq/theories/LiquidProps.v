(* C34: tags in a text. *)
From Coq Require Import List ZArith Lia. Import ListNotations. Open Scope Z_scope.
From Coq Require Import String.
From Verif Require Import Base Txt LiquidModel LiquidSpec LiquidProofs.

(** Every byte outside tags goes to the output, and the handler gets every tag: all of it, and the part inside, in order.
    Missing: tags with a "%" inside and an odd number of "<" before a tag (both refuted below); text that ends inside a
    tag. *)
Theorem C34_tags_partial : forall parts last,
  Forall (fun p => before_tag (fst p) /\ ~ In 37 (snd p)) parts -> never 60 37 last ->
  extractLiquidTags (render parts last) =
    mkdone (concat (map fst parts) ++ last) (map (fun p => ([60; 37] ++ snd p ++ [37; 62], snd p)) parts).
Proof. exact extract_right. Qed.
Print Assumptions C34_tags_partial.
Example C34_tags_ex : render [(txt "a<b", txt " x > y "); ([], []); (txt "<< ", txt "z<")] (txt "%>end<") = txt "a<b<% x > y %><%%><< <%z<%>%>end<" /\
  Forall (fun p => before_tag (fst p) /\ ~ In 37 (snd p)) [(txt "a<b", txt " x > y "); ([], []); (txt "<< ", txt "z<")] /\ never 60 37 (txt "%>end<").
Proof. split; [reflexivity|]. split; [|cbn; intuition discriminate]. apply Forall_cons; [|apply Forall_cons; [|apply Forall_cons; [|apply Forall_nil]]]; (split; [split; [|reflexivity]|]; cbn; intuition discriminate). Qed.

(** Every "%" inside a tag makes the handler get a byte too many. *)
Theorem C34_percent_refuted : forall t, In 37 t -> never 37 62 t ->
  exists got, extractLiquidTags ([60; 37] ++ t ++ [37; 62]) = mkdone [] [([60; 37] ++ t ++ [37; 62], got)] /\
    length got = (length t + count_occ Z.eq_dec t 37%Z)%nat /\ got <> t.
Proof. exact percent_doubled. Qed.
Print Assumptions C34_percent_refuted.
Example C34_percent_ex : extractLiquidTags (txt "<%5%3%>") = mkdone [] [(txt "<%5%3%>", txt "5%33")].
Proof. reflexivity. Qed.

(** A tag after a single "<" is not seen. *)
Theorem C34_missed_refuted : extractLiquidTags (txt "<<%tag%>") = mkdone (txt "<<%tag%>") [].
Proof. reflexivity. Qed.
Print Assumptions C34_missed_refuted.

(** At the end of the file a tag that is not closed is passed on as if it were, or dropped, according to its last byte. *)
Theorem C34_unclosed_refuted : extractLiquidTags (txt "a<%tag") = mkdone (txt "a") [(txt "<%tag", txt "tag")] /\ extractLiquidTags (txt "a<%tag%") = mkdone (txt "a") [].
Proof. split; reflexivity. Qed.
Print Assumptions C34_unclosed_refuted.
