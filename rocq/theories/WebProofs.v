(* Proofs about the web server. *)
From Coq Require Import Lia ZifyBool ZifyNat String.
From Verif Require Import StringViewProofs StringViewSpec NumTextProofs WebSpec.
Local Open Scope list_scope.
Local Notation length := List.length.
Local Notation "'do' p <- m ; k" := (match m with Some p => k | None => None end) (at level 200, p pattern, m at level 100, k at level 200).

(* ---- URLs ---- *)
Definition urlCheck (c : Z) : bool :=
  match urlByte c with
  | Some [x] => (x =? c) && urlPlain c && negb (c =? 37)
  | Some [p; h; k] => (p =? 37) && urlPlain h && urlPlain k && match hexDigit h, hexDigit k with Some a, Some b => 16 * a + b =? c | _, _ => false end
  | _ => false
  end.
Lemma urlCheck_all : forallb urlCheck (map Z.of_nat (seq 0 256)) = true.
Proof. vm_compute. reflexivity. Qed.
Lemma urlCheck_ok c : is_byte c -> urlCheck c = true.
Proof.
  intros Hc. unfold is_byte in Hc. pose proof urlCheck_all as A. rewrite forallb_forall in A. apply A. apply in_map_iff. exists (Z.to_nat c). split; [lia|]. apply in_seq. lia.
Qed.
Lemma urlPlain_unreserved c : urlPlain c = true <-> unreserved c.
Proof. unfold urlPlain, unreserved, isAsciiLetter, isDecimalDigit. lia. Qed.
Lemma urlDecode_plain c l : c <> 37 -> urlDecode (c :: l) = do r <- urlDecode l; Some (c :: r).
Proof. intros N. destruct c as [|p|p]; try reflexivity. do 6 (destruct p as [p|p|]; try reflexivity). lia. Qed.
Theorem url_ok l : bytes_ok l -> exists t, urlEscape l = Some t /\ urlDecode t = Some l /\ Forall (fun c => unreserved c \/ c = 37) t.
Proof.
  induction 1 as [|c l Hc Hl IH]; [exists []; repeat split; constructor|]. destruct IH as (t & E & D & F). cbn [urlEscape]. pose proof (urlCheck_ok c Hc) as K. unfold urlCheck in K.
  destruct (urlByte c) as [[|x [|h [|k [|y u]]]]|]; try discriminate K.
  - rewrite !andb_true_iff in K. destruct K as ((K1 & K2) & K3). apply Z.eqb_eq in K1. subst x. exists (c :: t). split; [rewrite E; reflexivity|]. split; [rewrite urlDecode_plain, D by lia; reflexivity|]. constructor; [left; apply urlPlain_unreserved, K2|exact F].
  - rewrite !andb_true_iff in K. destruct K as (((K1 & K2) & K3) & K4). apply Z.eqb_eq in K1. subst x. destruct (hexDigit h) as [a|] eqn:Ha; [|discriminate]. destruct (hexDigit k) as [b|] eqn:Hb; [|discriminate]. apply Z.eqb_eq in K4. exists (37 :: h :: k :: t). split; [rewrite E; reflexivity|]. split; [cbn [urlDecode]; rewrite Ha, Hb, D, K4; reflexivity|].
    constructor; [right; reflexivity|]. constructor; [left; apply urlPlain_unreserved, K2|]. constructor; [left; apply urlPlain_unreserved, K3|exact F].
Qed.

(* ---- the client ---- *)
Lemma line_cons c l : c <> 13 -> line (c :: l) = do (x, r) <- line l; Some (c :: x, r).
Proof. intros N. destruct c as [|p|p]; try reflexivity. do 4 (destruct p as [p|p|]; try reflexivity). lia. Qed.
Lemma line_ok x r : ~ In 13 x -> line (x ++ crlf ++ r) = Some (x, r).
Proof.
  induction x as [|c x IH]; intros N; [reflexivity|]. cbn [app]. rewrite line_cons by (intros ->; apply N; left; reflexivity). cbn [app] in IH. rewrite IH by (intros I; apply N; right; exact I). reflexivity.
Qed.
Definition linesText (ls : list (list Z)) : list Z := concat (map (fun x => x ++ crlf) ls).
Definition sane (x : list Z) : Prop := x <> [] /\ ~ In 13 x.
Lemma headers_ok ls : Forall sane ls -> forall fuel r, (length ls < fuel)%nat -> headers fuel (linesText ls ++ crlf ++ r) = Some (ls, r).
Proof.
  induction 1 as [|x ls (Hx & H13) Hls IH]; intros fuel r Hf; (destruct fuel as [|fuel]; [lia|]); cbn [headers].
  - change (linesText [] ++ crlf ++ r) with ([] ++ crlf ++ r). rewrite line_ok by intuition. reflexivity.
  - cbn [length] in Hf. change (linesText (x :: ls)) with ((x ++ crlf) ++ linesText ls). rewrite <- !app_assoc. rewrite line_ok by exact H13. destruct x as [|c x]; [contradiction|]. rewrite IH by lia. reflexivity.
Qed.
Lemma linesText_length ls : Forall sane ls -> (length ls <= length (linesText ls))%nat.
Proof. induction 1 as [|x ls (Hx & H13) Hls IH]; [reflexivity|]. change (linesText (x :: ls)) with ((x ++ crlf) ++ linesText ls). rewrite !app_length. cbn [length crlf]. lia. Qed.

Definition hexText (n : Z) : list Z := match print_u64 n 16 true with Some h => h | None => [] end.
Lemma hexDigit_char c d : char_digit c d -> d < 16 -> hexDigit c = Some d.
Proof.
  unfold char_digit, hexDigit. intros H Hd. destruct ((48 <=? c) && (c <=? 57)) eqn:E1; [f_equal; lia|]. destruct ((65 <=? c) && (c <=? 70)) eqn:E2; [f_equal; lia|]. destruct ((97 <=? c) && (c <=? 102)) eqn:E3; [f_equal; lia|]. lia.
Qed.
Lemma hexNumber_app l : forall a m, hexNumber a (l ++ m) = do b <- hexNumber a l; hexNumber b m.
Proof. induction l as [|c l IH]; intros a m; [reflexivity|]. cbn [app hexNumber]. destruct (hexDigit c); [apply IH|reflexivity]. Qed.
Lemma hexNumber_denotes l n : denotes 16 l n -> hexNumber 0 l = Some n /\ ~ In 13 l.
Proof.
  induction 1 as [|l n c d H IH Hc Hd]; [split; [reflexivity|intuition]|]. destruct IH as (IH & I13). rewrite hexNumber_app, IH. cbn [hexNumber]. rewrite (hexDigit_char c d Hc Hd). split; [f_equal; lia|]. intros I. apply in_app_iff in I. destruct I as [I|[I|[]]]; [exact (I13 I)|]. subst c. unfold char_digit in Hc. lia.
Qed.
Lemma hexText_ok n : 0 <= n < 2 ^ 64 -> print_u64 n 16 true = Some (hexText n) /\ hexText n <> [] /\ hexNumber 0 (hexText n) = Some n /\ ~ In 13 (hexText n).
Proof.
  intros Hn. destruct (print_u64_canonical n 16 true Hn ltac:(lia)) as (l & E & C). unfold hexText. rewrite E. split; [reflexivity|]. destruct (hexNumber_denotes l n (proj1 C)) as (H1 & H2). split; [|split; assumption].
  destruct C as (_ & C0 & C1). destruct (Z.eq_dec n 0) as [Z0|Z0]; [rewrite (C0 Z0); discriminate|]. destruct (C1 Z0) as (c & r & -> & _). discriminate.
Qed.
Definition chunkText (mode : bool) (bs : list Z) : list Z := if mode then hexText (zlen bs) ++ crlf ++ bs ++ crlf else bs.
Definition theEnd : list Z := txt "0" ++ crlf ++ crlf.
Lemma chunks_S fuel l : chunks (S fuel) l = do (x, r) <- line l;
    match x with
    | [] => None
    | _ =>
      do n <- hexNumber 0 x;
      if n =? 0 then match r with 13 :: 10 :: r => Some ([], r) | _ => None end else
      if zlen r <? n then None else
      match skipn (Z.to_nat n) r with
      | 13 :: 10 :: r' => do (b, r'') <- chunks fuel r'; Some (firstn (Z.to_nat n) r ++ b, r'')
      | _ => None
      end
    end.
Proof. reflexivity. Qed.
Lemma chunks_ok ps : Forall (fun p => p <> []) ps -> zlen (concat ps) < 2 ^ 64 -> forall fuel r, (length ps < fuel)%nat ->
  chunks fuel (flat_map (chunkText true) ps ++ theEnd ++ r) = Some (concat ps, r).
Proof.
  induction 1 as [|p ps Hp Hps IH]; intros Hz fuel r Hf; (destruct fuel as [|fuel]; [lia|]); rewrite chunks_S.
  - cbn [flat_map app]. unfold theEnd. rewrite <- !app_assoc. rewrite line_ok by (cbn; intros [E|[]]; discriminate). reflexivity.
  - cbn [length] in Hf. cbn [concat] in *. assert (Lp : 0 < zlen p < 2 ^ 64) by (destruct p; [contradiction|]; rewrite zlen_app in Hz; pose proof (zlen_nonneg (concat ps)); unfold zlen in *; cbn [length] in *; lia).
    destruct (hexText_ok (zlen p) ltac:(lia)) as (_ & Hn & H1 & H2). cbn [flat_map]. unfold chunkText at 1. rewrite <- !app_assoc. rewrite line_ok by exact H2. destruct (hexText (zlen p)) as [|h t] eqn:Eh; [contradiction|]. rewrite H1. replace (zlen p =? 0) with false by lia.
    replace (zlen (p ++ _) <? zlen p) with false by (rewrite zlen_app; match goal with |- context [zlen ?a + zlen ?b] => pose proof (zlen_nonneg b) end; lia). unfold zlen at 1 2. rewrite Nat2Z.id. rewrite skipn_app, skipn_all, Nat.sub_diag. cbn [skipn app]. rewrite firstn_app, firstn_all, Nat.sub_diag. cbn [firstn]. rewrite app_nil_r.
    change (crlf ++ flat_map (chunkText true) ps ++ theEnd ++ r) with (13 :: 10 :: flat_map (chunkText true) ps ++ theEnd ++ r). cbv iota. rewrite IH; [reflexivity| |lia]. rewrite zlen_app in Hz. pose proof (zlen_nonneg p). lia.
Qed.
Lemma chunks_length ps : Forall (fun p => p <> []) ps -> (length ps <= length (flat_map (chunkText true) ps))%nat.
Proof. induction 1 as [|p ps Hp Hps IH]; [reflexivity|]. cbn [flat_map length]. rewrite app_length. unfold chunkText at 1. rewrite !app_length. cbn [crlf length]. lia. Qed.

Definition keptText (a : answer) (ps : list (list Z)) : list Z :=
  statusLine (acode a) ++ crlf ++ linesText (txt "Transfer-Encoding: chunked" :: txt "Connection: keep-alive" :: alines a) ++ crlf ++ flat_map (chunkText true) ps ++ theEnd.
Definition closingText (a : answer) : list Z := statusLine (acode a) ++ crlf ++ linesText (alines a) ++ crlf ++ abody a.
Definition piecesOf (a : answer) (ps : list (list Z)) : Prop := Forall (fun p => p <> []) ps /\ concat ps = abody a.
Definition answerOk (a : answer) : Prop := Forall lineOk (alines a) /\ zlen (abody a) < 2 ^ 64.
Lemma lineOk_sane ls : Forall lineOk ls -> Forall sane ls.
Proof. apply Forall_impl. intros l (H1 & H2 & _). split; assumption. Qed.
Lemma status_sane c : ~ In 13 (statusLine c) /\ statusLine c <> [].
Proof. split; destruct c; cbn; try discriminate; intuition discriminate. Qed.
Lemma client_S fuel l : l <> [] -> client (S fuel) l =
    do (status, r) <- line l;
    do (hs, r) <- headers (S (length r)) r;
    if existsb (bytes_eqb (txt "Transfer-Encoding: chunked")) hs then
      do (body, r) <- chunks (S (length r)) r;
      do rs <- client fuel r;
      Some ((status, hs, body) :: rs)
    else Some [(status, hs, r)].
Proof. destruct l; [contradiction|reflexivity]. Qed.
Lemma client_kept a ps fuel r : answerOk a -> piecesOf a ps -> client (S fuel) (keptText a ps ++ r) = do rs <- client fuel r; Some (kept a :: rs).
Proof.
  intros (H1 & H2) (P1 & P2). destruct (status_sane (acode a)) as (S13 & S0). rewrite client_S by (unfold keptText; destruct (statusLine (acode a)); [contradiction|discriminate]). unfold keptText. rewrite <- !app_assoc. rewrite line_ok by exact S13.
  set (hs := txt "Transfer-Encoding: chunked" :: txt "Connection: keep-alive" :: alines a). assert (Hs : Forall sane hs).
  { constructor; [split; [discriminate|cbn; intuition discriminate]|]. constructor; [split; [discriminate|cbn; intuition discriminate]|]. apply lineOk_sane, H1. }
  rewrite headers_ok; [|exact Hs|pose proof (linesText_length hs Hs); rewrite app_length; lia]. replace (existsb (bytes_eqb (txt "Transfer-Encoding: chunked")) hs) with true by reflexivity.
  rewrite chunks_ok; [|exact P1|rewrite P2; exact H2|pose proof (chunks_length ps P1); rewrite app_length; lia]. rewrite P2. reflexivity.
Qed.
Lemma client_closing a fuel : answerOk a -> client (S fuel) (closingText a) = Some [closing a].
Proof.
  intros (H1 & H2). destruct (status_sane (acode a)) as (S13 & S0). rewrite client_S by (unfold closingText; destruct (statusLine (acode a)); [contradiction|discriminate]). unfold closingText. rewrite line_ok by exact S13. pose proof (lineOk_sane _ H1) as Hs.
  rewrite headers_ok; [|exact Hs|pose proof (linesText_length _ Hs); rewrite app_length; lia]. replace (existsb _ (alines a)) with false; [reflexivity|]. symmetry. apply not_true_iff_false. intros E. apply existsb_exists in E. destruct E as (x & I & E). apply bytes_eqb_eq in E. rewrite Forall_forall in H1. destruct (H1 x I) as (_ & _ & _ & N). congruence.
Qed.
(** The text on a connection. *)
Inductive sent : list Z -> list response -> Prop :=
| sent_nil : sent [] []
| sent_closing a : answerOk a -> sent (closingText a) [closing a]
| sent_kept a ps r rs : answerOk a -> piecesOf a ps -> sent r rs -> sent (keptText a ps ++ r) (kept a :: rs).
Lemma sent_length t rs : sent t rs -> (length rs <= length t)%nat.
Proof.
  induction 1 as [|a Ha|a ps r rs Ha Hp H IH]; [reflexivity| |]; destruct (status_sane (acode a)) as (_ & S0).
  - unfold closingText. rewrite app_length. destruct (statusLine (acode a)); [contradiction|cbn [length]; lia].
  - unfold keptText. rewrite !app_length. destruct (statusLine (acode a)); [contradiction|cbn [length]; lia].
Qed.
Lemma client_sent t rs : sent t rs -> forall fuel, (length rs <= fuel)%nat -> client fuel t = Some rs.
Proof.
  induction 1 as [|a Ha|a ps r rs Ha Hp H IH]; intros fuel Hf.
  - destruct fuel; reflexivity.
  - cbn [length] in Hf. destruct fuel as [|fuel]; [lia|]. apply client_closing, Ha.
  - cbn [length] in Hf. destruct fuel as [|fuel]; [lia|]. rewrite client_kept by assumption. rewrite IH by lia. reflexivity.
Qed.
Lemma received_sent t rs : sent t rs -> received t = Some rs.
Proof. intros H. apply client_sent; [exact H|apply sent_length, H]. Qed.

(* ---- responses ---- *)
Section Server.
Context (sizes : nat -> list nat).
Notation doActs := (doActs sizes).

Lemma chunkWrite_ok mode w bs : bs <> [] -> (mode = true -> zlen bs < 2 ^ 64) -> chunkWrite mode w bs = Some (w ++ chunkText mode bs).
Proof.
  intros Hb Hz. unfold chunkWrite, chunkText. destruct mode; [|reflexivity]. assert (L : 0 < zlen bs) by (destruct bs; [contradiction|unfold zlen; cbn [length]; lia]). replace (zlen bs =? 0) with false by lia. destruct (hexText_ok (zlen bs) ltac:(specialize (Hz eq_refl); lia)) as (-> & _). reflexivity.
Qed.
Lemma drain_ok ss : forall o w, (chunkMode o = true -> zlen (pending o) < 2 ^ 64) -> exists o' ps, drain ss o w = Some (o', w ++ flat_map (chunkText (chunkMode o)) ps) /\ chunkMode o' = chunkMode o /\ concat ps ++ pending o' = pending o /\ Forall (fun p => p <> []) ps.
Proof.
  induction ss as [|n ss IH]; intros o w Hz; [exists o, []; cbn; rewrite app_nil_r; repeat split; constructor|]. cbn [drain]. destruct (Z.eqb_spec (zlen (firstn n (pending o))) 0) as [E|E]; [apply IH, Hz|].
  assert (N : firstn n (pending o) <> []) by (intros F; rewrite F in E; apply E; reflexivity). pose proof (firstn_skipn n (pending o)) as FS. pose proof (f_equal zlen FS) as FL. rewrite zlen_app in FL. pose proof (zlen_nonneg (skipn n (pending o))). pose proof (zlen_nonneg (firstn n (pending o))).
  rewrite chunkWrite_ok; [|exact N|intros M; specialize (Hz M); lia]. destruct (IH (mkos (skipn n (pending o)) (chunkMode o)) (w ++ chunkText (chunkMode o) (firstn n (pending o)))) as (o' & ps & E1 & E2 & E3 & E4); [cbn [chunkMode pending]; intros M; specialize (Hz M); lia|].
  cbn [chunkMode pending] in *. exists o', (firstn n (pending o) :: ps). rewrite E1. split; [cbn [flat_map]; rewrite app_assoc; reflexivity|]. split; [exact E2|]. split; [cbn [concat]; rewrite <- app_assoc, E3; exact FS|]. constructor; assumption.
Qed.
Lemma flushMem_ok o w : (chunkMode o = true -> zlen (pending o) < 2 ^ 64) -> exists ps, flushMem o w = Some (mkos [] (chunkMode o), w ++ flat_map (chunkText (chunkMode o)) ps) /\ concat ps = pending o /\ Forall (fun p => p <> []) ps.
Proof.
  intros Hz. unfold flushMem. cbn [drain]. rewrite firstn_all, skipn_all. destruct o as [p m]. cbn [pending chunkMode] in *. destruct (Z.eqb_spec (zlen p) 0) as [E|E].
  - assert (p = []) as -> by (destruct p; [reflexivity|unfold zlen in E; cbn [length] in E; lia]). exists []. cbn. rewrite app_nil_r. repeat split. constructor.
  - rewrite chunkWrite_ok; [|intros ->; apply E; reflexivity|exact Hz]. exists [p]. cbn [flat_map concat]. rewrite !app_nil_r. repeat split. constructor; [intros ->; apply E; reflexivity|constructor].
Qed.
Lemma destroy_ok o w : chunkMode o = true -> zlen (pending o) < 2 ^ 64 -> exists ps, destroy o w = Some (w ++ flat_map (chunkText true) ps ++ theEnd) /\ concat ps = pending o /\ Forall (fun p => p <> []) ps.
Proof. intros M Hz. destruct (flushMem_ok o w) as (ps & E & C & F); [intros _; exact Hz|]. exists ps. unfold destroy. rewrite E, M. rewrite <- app_assoc. repeat split; assumption. Qed.

Lemma doActs_app l : forall i m, doActs i (l ++ m) = do i <- doActs i l; doActs i m.
Proof. induction l as [|a l IH]; intros i m; [reflexivity|]. cbn [app WebModel.doActs]. destruct (doAct sizes i a); [apply IH|reflexivity]. Qed.
Lemma outs_plain l : forall i, forallb isOut l = true -> st i <> NoResponse -> isChunked i = false -> doActs i l = Some (mki (st i) false (outsChunked i) (wire i ++ written l) (writes i)).
Proof.
  induction l as [|a l IH]; intros i Hl Hs Hc; [destruct i; cbn in *; subst; rewrite app_nil_r; reflexivity|]. cbn [forallb] in Hl. apply andb_true_iff in Hl. destruct Hl as (Ha & Hl). destruct a as [c|bs|]; try discriminate Ha. cbn [WebModel.doActs doAct]. unfold out. rewrite Hc.
  assert (E : forall X : option iface, match st i with NoResponse => None | _ => X end = X) by (destruct (st i); [contradiction|reflexivity|reflexivity]). rewrite E. rewrite IH; [|exact Hl|exact Hs|reflexivity]. cbn [st outsChunked wire writes]. unfold written. cbn [flat_map]. rewrite app_assoc. reflexivity.
Qed.
Lemma outs_chunk l : forall i o, forallb isOut l = true -> st i <> NoResponse -> isChunked i = true -> outsChunked i = Some o -> (chunkMode o = true -> zlen (pending o ++ written l) < 2 ^ 64) ->
  exists o' ps n, doActs i l = Some (mki (st i) true (Some o') (wire i ++ flat_map (chunkText (chunkMode o)) ps) n) /\ chunkMode o' = chunkMode o /\ concat ps ++ pending o' = pending o ++ written l /\ Forall (fun p => p <> []) ps.
Proof.
  induction l as [|a l IH]; intros i o Hl Hs Hc Ho Hz.
  - exists o, [], (writes i). destruct i; cbn in *. subst. rewrite !app_nil_r. repeat split. constructor.
  - cbn [forallb] in Hl. apply andb_true_iff in Hl. destruct Hl as (Ha & Hl). destruct a as [c|bs|]; try discriminate Ha. cbn [WebModel.doActs doAct]. unfold out. rewrite Hc, Ho.
    assert (E : forall X : option iface, match st i with NoResponse => None | _ => X end = X) by (destruct (st i); [contradiction|reflexivity|reflexivity]). rewrite E. unfold written in *. cbn [flat_map] in *. fold (written l) in *. rewrite app_assoc in *.
    destruct (drain_ok (sizes (writes i)) (mkos (pending o ++ bs) (chunkMode o)) (wire i)) as (o1 & ps1 & E1 & M1 & C1 & F1); cbn [chunkMode pending] in *. { intros M. specialize (Hz M). rewrite zlen_app in Hz. pose proof (zlen_nonneg (written l)). lia. }
    rewrite E1. destruct (IH (mki (st i) true (Some o1) (wire i ++ flat_map (chunkText (chunkMode o)) ps1) (S (writes i))) o1 Hl Hs eq_refl eq_refl) as (o2 & ps2 & n & E2 & M2 & C2 & F2).
    { rewrite M1. intros M. specialize (Hz M). rewrite <- C1 in Hz. rewrite !zlen_app in *. pose proof (zlen_nonneg (concat ps1)). lia. }
    cbn [st wire] in *. rewrite E2. exists o2, (ps1 ++ ps2), n. rewrite M1. split; [rewrite flat_map_app, app_assoc; reflexivity|]. split; [congruence|]. split; [|apply Forall_app; split; assumption]. rewrite concat_app, <- app_assoc, C2, app_assoc, C1. reflexivity.
Qed.
Lemma status_text c (x : list Z) : txt "HTTP/1.1 " ++ fst (description c) ++ txt " " ++ snd (description c) ++ x = statusLine c ++ x.
Proof. destruct c; reflexivity. Qed.
Definition fresh (ch : bool) (w : list Z) : iface := mki NoResponse ch None w 0.
Lemma flat_map_false ps : flat_map (chunkText false) ps = concat ps.
Proof. induction ps as [|p ps IH]; [reflexivity|]. cbn [flat_map concat]. rewrite IH. reflexivity. Qed.
Lemma gives_ok l a : gives l a -> answerOk a.
Proof. intros (hs & bs & _ & _ & _ & _ & _ & H1 & H2). split; assumption. Qed.
Lemma answer_chunk l a w : gives l a -> exists i ps, doActs (fresh true w) l = Some i /\ st i = EndedHeader /\ isChunked i = true /\ leave i = Some (w ++ keptText a ps) /\ piecesOf a ps.
Proof.
  intros (hs & bs & -> & Hh & Hb & Wh & Wb & Hl & Hz). cbn [WebModel.doActs doAct]. unfold begin, fresh. cbn [isChunked wire outsChunked writes]. rewrite status_text.
  set (w0 := _ ++ _ ++ _ ++ _ ++ _). assert (E0 : w0 = w ++ statusLine (acode a) ++ crlf ++ linesText [txt "Transfer-Encoding: chunked"; txt "Connection: keep-alive"]) by (unfold w0; rewrite <- !app_assoc; reflexivity). clearbody w0.
  rewrite doActs_app. destruct (outs_chunk hs (mki BeganResponse true (Some (mkos [] false)) w0 0) (mkos [] false) Hh) as (o1 & ps1 & n1 & E1 & M1 & C1 & F1); [discriminate|reflexivity|reflexivity|discriminate|]. rewrite E1. cbn [chunkMode pending st wire app] in *. rewrite flat_map_false.
  cbn [WebModel.doActs doAct]. unfold endHeader. cbn [isChunked outsChunked wire writes]. destruct (flushMem_ok o1 (w0 ++ concat ps1)) as (ps2 & E2 & C2 & F2); [rewrite M1; discriminate|]. rewrite E2, M1, flat_map_false, C2. cbn [pending].
  replace ((w0 ++ concat ps1) ++ pending o1) with (w0 ++ written hs) by (rewrite <- C1, app_assoc; reflexivity).
  destruct (outs_chunk bs (mki EndedHeader true (Some (mkos [] true)) (w0 ++ written hs) n1) (mkos [] true) Hb) as (o3 & ps3 & n3 & E3 & M3 & C3 & F3); [discriminate|reflexivity|reflexivity|cbn [pending app]; rewrite Wb; intros _; exact Hz|]. rewrite E3. cbn [chunkMode pending st wire app] in *.
  destruct (destroy_ok o3 ((w0 ++ written hs) ++ flat_map (chunkText true) ps3) M3) as (ps4 & E4 & C4 & F4). { rewrite <- Wb, <- C3 in Hz. rewrite zlen_app in Hz. pose proof (zlen_nonneg (concat ps3)). lia. }
  eexists _, (ps3 ++ ps4). split; [reflexivity|]. split; [reflexivity|]. split; [reflexivity|]. unfold leave. cbn [outsChunked wire]. split.
  - rewrite E4, E0, Wh. unfold keptText. rewrite flat_map_app. change (linesText (txt "Transfer-Encoding: chunked" :: txt "Connection: keep-alive" :: alines a)) with (txt "Transfer-Encoding: chunked" ++ crlf ++ txt "Connection: keep-alive" ++ crlf ++ linesText (alines a)). rewrite <- !app_assoc. reflexivity.
  - split; [apply Forall_app; split; assumption|]. rewrite concat_app, C4, C3. exact Wb.
Qed.
Lemma answer_plain l a w : gives l a -> exists i, doActs (fresh false w) l = Some i /\ st i = EndedHeader /\ isChunked i = false /\ leave i = Some (w ++ closingText a).
Proof.
  intros (hs & bs & -> & Hh & Hb & Wh & Wb & Hl & Hz). cbn [WebModel.doActs doAct]. unfold begin, fresh. cbn [isChunked wire outsChunked writes]. rewrite status_text.
  rewrite doActs_app, outs_plain; [|exact Hh|discriminate|reflexivity]. cbn [st outsChunked wire writes WebModel.doActs doAct]. unfold endHeader. cbn [isChunked outsChunked wire writes].
  rewrite outs_plain; [|exact Hb|discriminate|reflexivity]. eexists. split; [reflexivity|]. split; [reflexivity|]. split; [reflexivity|]. unfold leave. cbn [outsChunked wire]. rewrite Wh, Wb. unfold closingText. fold (linesText (alines a)). rewrite <- !app_assoc. reflexivity.
Qed.
Lemma generic_gives c : gives (respondGeneric c) (generic c).
Proof.
  exists [Out (txt "Content-Type: text/html" ++ crlf ++ crlf)], [Out (genericPage c)]. split; [reflexivity|]. split; [reflexivity|]. split; [reflexivity|]. split; [reflexivity|]. split; [unfold written; cbn [flat_map]; rewrite app_nil_r; reflexivity|]. split; [|destruct c; vm_compute; reflexivity].
  constructor; [|constructor]. split; [discriminate|]. split; [cbn; intuition discriminate|]. split; [cbn; intuition discriminate|discriminate].
Qed.

(* ---- requests ---- *)
Lemma readLine_ok x rest : ~ In 10 x -> readLine (x ++ 10 :: rest) = (x ++ [10], rest).
Proof.
  induction x as [|c x IH]; intros N; [reflexivity|]. cbn [app readLine]. destruct (Z.eqb_spec c 10) as [->|_]; [exfalso; apply N; left; reflexivity|]. rewrite IH by (intros I; apply N; right; exact I). reflexivity.
Qed.
Lemma readLine_any ins : forall l r, readLine ins = (l, r) -> ins = l ++ r /\ (ins <> [] -> l <> []).
Proof.
  induction ins as [|c ins IH]; intros l r E; cbn [readLine] in E; [injection E as <- <-; split; [reflexivity|contradiction]|]. destruct (c =? 10).
  - injection E as <- <-. split; [reflexivity|discriminate].
  - destruct (readLine ins) as [l1 r1]. injection E as <- <-. destruct (IH l1 r1 eq_refl) as (-> & _). split; [reflexivity|discriminate].
Qed.
Definition blank (l : list Z) : bool := sv_findByte l (fun u => negb (isWhite u)) 0 <? 0.
Lemma blank_hd c l : isWhite c = false -> blank (c :: l) = false.
Proof. intros H. unfold blank, sv_findByte. cbn [Z.to_nat skipn find_from]. rewrite H. reflexivity. Qed.
Lemma readLines_ok ls : Forall (fun l => (exists x, l = x ++ [10] /\ ~ In 10 x) /\ blank l = false) ls -> forall fuel rest acc, (length ls < fuel)%nat ->
  readLines fuel (concat ls ++ crlf ++ rest) acc = Some (acc ++ ls, Some rest).
Proof.
  induction 1 as [|l ls ((x & -> & Hx) & Hb) Hls IH]; intros fuel rest acc Hf; (destruct fuel as [|fuel]; [lia|]); cbn [readLines].
  - change (concat [] ++ crlf ++ rest) with ([13] ++ 10 :: rest). rewrite readLine_ok by (cbn; intuition discriminate). cbn [app]. change (zlen [13; 10] =? 0) with false. rewrite app_nil_r. reflexivity.
  - cbn [length concat] in *. rewrite <- !app_assoc. cbn [app]. rewrite readLine_ok by exact Hx. replace (zlen (x ++ [10]) =? 0) with false by (rewrite zlen_app; pose proof (zlen_nonneg x); change (zlen [10]) with 1; lia). fold (blank (x ++ [10])). rewrite Hb. rewrite IH by lia. rewrite <- app_assoc. reflexivity.
Qed.
Lemma readLines_any fuel : forall ins acc, (length ins < fuel)%nat -> exists ls rest, readLines fuel ins acc = Some (acc ++ ls, rest) /\ Forall (fun l => l <> []) ls /\ match rest with Some r => (length r < length ins)%nat | None => True end.
Proof.
  induction fuel as [|fuel IH]; intros ins acc Hf; [lia|]. cbn [readLines]. destruct (readLine ins) as [l r] eqn:E. destruct (readLine_any ins l r E) as (-> & Hn). destruct (Z.eqb_spec (zlen l) 0) as [L|L].
  - exists [], None. rewrite app_nil_r. repeat split. constructor.
  - assert (Hl : (0 < length l)%nat) by (unfold zlen in L; lia). rewrite app_length in *. destruct (_ <? 0).
    + exists [], (Some r). rewrite app_nil_r. split; [reflexivity|]. split; [constructor|lia].
    + destruct (IH r (acc ++ [l])) as (ls & rest & E1 & F & R); [lia|]. exists (l :: ls), rest. rewrite E1, <- app_assoc. split; [reflexivity|]. split; [constructor; [intros ->; cbn in Hl; lia|exact F]|]. destruct rest; [lia|exact I].
Qed.
Lemma find_range l f : -1 <= sv_findByte l f 0 < zlen l \/ sv_findByte l f 0 = -1.
Proof. destruct (sv_findByte_spec l f 0 ltac:(lia)) as [(E & _)|((A & B) & _)]; [right; exact E|left; lia]. Qed.
Lemma readFields_any ls : Forall (fun l => l <> []) ls -> exists fs, readFields ls = Some fs.
Proof.
  induction 1 as [|l ls Hl Hls IH]; [eexists; reflexivity|]. destruct IH as (fs & E). cbn [readFields]. destruct l as [|c l]; [contradiction|]. cbn [hd_error]. destruct (isWhite c); [exists fs; exact E|]. destruct (Z.ltb_spec (sv_findByte (c :: l) (fun u => u =? 58) 0) 0) as [L|L]; [exists None; reflexivity|].
  destruct (find_range (c :: l) (fun u => u =? 58)) as [R|R]; [|lia]. unfold sv_left, sv_subStr1. replace (_ <=? zlen (c :: l)) with true by lia. replace (_ + 1 <=? zlen (c :: l)) with true by lia. rewrite E. eexists. reflexivity.
Qed.

Lemma trim_skip f a s : Forall (fun c => f c = true) a -> trim_left f (a ++ s) = trim_left f s.
Proof. induction 1 as [|c a Hc Ha IH]; [reflexivity|]. cbn [app trim_left]. rewrite Hc. exact IH. Qed.
Lemma trim_none f s : f (hd 0 s) = false -> trim_left f s = s.
Proof. destruct s as [|c s]; [reflexivity|]. cbn [hd trim_left]. intros ->. reflexivity. Qed.
Lemma hd_rev (s : list Z) : hd 0 (rev s) = last s 0.
Proof. destruct s as [|x s'] using rev_ind; [reflexivity|]. rewrite rev_app_distr, last_last. reflexivity. Qed.
Lemma rtrim_ok f s b : Forall (fun c => f c = true) b -> f (last s 0) = false -> sv_trim f false true (s ++ b) = s.
Proof.
  intros Hb Hl. unfold sv_trim. rewrite rev_app_distr, trim_skip by (apply Forall_rev, Hb). rewrite trim_none by (rewrite hd_rev; exact Hl). apply rev_involutive.
Qed.
Lemma trim_ok f a s b : Forall (fun c => f c = true) a -> Forall (fun c => f c = true) b -> f (hd 0 s) = false -> f (last s 0) = false -> f 0 = false -> sv_trim f true true (a ++ s ++ b) = s.
Proof.
  intros Ha Hb Hh Hl H0. change (sv_trim f true true (a ++ s ++ b)) with (sv_trim f false true (trim_left f (a ++ s ++ b))). rewrite trim_skip by exact Ha. destruct s as [|c s].
  - cbn [app]. rewrite <- (app_nil_r b), trim_skip by exact Hb. reflexivity.
  - change ((c :: s) ++ b) with (c :: s ++ b). rewrite trim_none by exact Hh. change (c :: s ++ b) with ((c :: s) ++ b). apply rtrim_ok; assumption.
Qed.
Lemma find_colon x r : Forall (fun c => c <> 58 /\ c <> 10) x -> forall i, find_from (fun u => u =? 58) i (x ++ 58 :: r) = i + zlen x.
Proof.
  induction 1 as [|c x (Hc & _) Hx IH]; intros i; [cbn; unfold zlen; cbn; lia|]. cbn [app find_from]. replace (c =? 58) with false by lia. rewrite IH. unfold zlen. cbn [length]. lia.
Qed.
Definition fieldText (f : list Z * list Z) : list Z := fst f ++ txt ": " ++ snd f ++ crlf.
Lemma white_crlf : Forall (fun c => isWhite c = true) crlf.
Proof. repeat constructor. Qed.
Lemma field_line f : fieldOk f -> (exists x, fieldText f = x ++ [10] /\ ~ In 10 x) /\ blank (fieldText f) = false.
Proof.
  intros (H0 & H1 & H2 & H3 & _). split.
  - exists (fst f ++ txt ": " ++ snd f ++ [13]). split; [unfold fieldText; rewrite <- !app_assoc; reflexivity|]. rewrite Forall_forall in H1, H2. intros I. apply in_app_iff in I. destruct I as [I|I]; [destruct (H1 _ I); congruence|]. apply in_app_iff in I. destruct I as [I|I]; [cbn in I; intuition discriminate|]. apply in_app_iff in I. destruct I as [I|[I|[]]]; [apply (H2 _ I); reflexivity|discriminate].
  - unfold fieldText. destruct (fst f) as [|c x]; [contradiction|]. apply blank_hd. exact H3.
Qed.
Lemma readFields_ok fs : Forall fieldOk fs -> readFields (map fieldText fs) = Some (Some fs).
Proof.
  induction 1 as [|f fs Hf Hfs IH]; [reflexivity|]. destruct Hf as (H0 & H1 & H2 & H3 & H4 & H5 & H6). cbn [map readFields]. assert (Hd : hd_error (fieldText f) = Some (hd 0 (fst f))) by (unfold fieldText; destruct (fst f); [contradiction|reflexivity]). rewrite Hd, H3.
  assert (Fc : sv_findByte (fieldText f) (fun u => u =? 58) 0 = zlen (fst f)) by (unfold sv_findByte, fieldText; cbn [Z.to_nat skipn]; change (fst f ++ txt ": " ++ snd f ++ crlf) with (fst f ++ 58 :: 32 :: snd f ++ crlf); rewrite find_colon by exact H1; lia). rewrite Fc.
  pose proof (zlen_nonneg (fst f)) as Z0. replace (zlen (fst f) <? 0) with false by lia. assert (Lf : zlen (fst f) + 1 <= zlen (fieldText f)) by (unfold fieldText; rewrite !zlen_app; pose proof (zlen_nonneg (snd f)); change (zlen (txt ": ")) with 2; change (zlen crlf) with 2; lia).
  unfold sv_left, sv_subStr1. replace (zlen (fst f) <=? zlen (fieldText f)) with true by lia. replace (zlen (fst f) + 1 <=? zlen (fieldText f)) with true by lia.
  assert (E1 : firstn (Z.to_nat (zlen (fst f))) (fieldText f) = fst f) by (unfold zlen, fieldText; rewrite Nat2Z.id, firstn_app, firstn_all, Nat.sub_diag; cbn [firstn]; apply app_nil_r).
  assert (E2 : skipn (Z.to_nat (zlen (fst f) + 1)) (fieldText f) = [32] ++ snd f ++ crlf).
  { unfold zlen, fieldText. replace (Z.to_nat (Z.of_nat (length (fst f)) + 1)) with (length (fst f) + 1)%nat by lia. rewrite skipn_app, skipn_all2 by lia. cbn [app]. replace (length (fst f) + 1 - length (fst f))%nat with 1%nat by lia. reflexivity. }
  rewrite E1, E2, IH. rewrite (trim_ok isWhite [32] (snd f) crlf); [|repeat constructor|exact white_crlf|exact H5|exact H6|reflexivity]. rewrite <- (app_nil_r (fst f)) at 1. rewrite rtrim_ok; [|constructor|exact H4]. destruct f; reflexivity.
Qed.
Lemma first_line r : requestOk r -> sv_splitByte 32 (sv_trim isWhite false true (method r ++ [32] ++ uri r ++ [32] ++ version r ++ crlf)) = [method r; uri r; version r].
Proof.
  intros ((M0 & M1) & (U0 & U1) & (V0 & V1) & _). assert (NS : forall l, Forall (fun c => isWhite c = false) l -> ~ In 32 l) by (intros l F I; rewrite Forall_forall in F; specialize (F 32 I); discriminate F).
  replace (method r ++ [32] ++ uri r ++ [32] ++ version r ++ crlf) with ((method r ++ [32] ++ uri r ++ [32] ++ version r) ++ crlf) by (rewrite <- !app_assoc; reflexivity). rewrite rtrim_ok; [|exact white_crlf|].
  - change (method r ++ [32] ++ uri r ++ [32] ++ version r) with (joined [32] [method r; uri r; version r]). rewrite <- sv_join_joined. apply split_join. repeat (apply Forall_cons; [split; [assumption|apply NS; assumption]|]). apply Forall_nil.
  - rewrite !app_assoc. destruct (exists_last V0) as (x & c & E). rewrite E, app_assoc, last_last. rewrite E in V1. apply Forall_app in V1. destruct V1 as (_ & V1). apply Forall_inv in V1. exact V1.
Qed.
Definition startLine (r : request) : list Z := method r ++ [32] ++ uri r ++ [32] ++ version r ++ crlf.
Lemma start_line r : requestOk r -> (exists x, startLine r = x ++ [10] /\ ~ In 10 x) /\ blank (startLine r) = false.
Proof.
  intros ((M0 & M1) & (U0 & U1) & (V0 & V1) & _). split.
  - exists (method r ++ [32] ++ uri r ++ [32] ++ version r ++ [13]). split; [unfold startLine; rewrite <- !app_assoc; reflexivity|].
    assert (NS : forall l, Forall (fun c => isWhite c = false) l -> ~ In 10 l) by (intros l F I; rewrite Forall_forall in F; specialize (F 10 I); discriminate F). intros I. repeat (apply in_app_iff in I; destruct I as [I|I]); try (eapply NS; [|exact I]; assumption); cbn in I; intuition discriminate.
  - unfold startLine. destruct (method r) as [|c x]; [contradiction|]. apply blank_hd. apply Forall_inv in M1. exact M1.
Qed.
Lemma request_lines r rest : requestOk r -> readLines (S (length (requestText r ++ rest))) (requestText r ++ rest) [] = Some (startLine r :: map fieldText (fields r), Some rest).
Proof.
  intros H. assert (E : requestText r ++ rest = concat (startLine r :: map fieldText (fields r)) ++ crlf ++ rest).
  { unfold requestText, startLine. cbn [concat]. rewrite flat_map_concat_map. unfold fieldText. rewrite <- !app_assoc. reflexivity. }
  rewrite E at 2. rewrite readLines_ok; [reflexivity| |].
  - constructor; [apply start_line, H|]. destruct H as (_ & _ & _ & H). apply Forall_map. revert H. apply Forall_impl. intros f. apply field_line.
  - rewrite E. assert (L : forall ls, Forall (fun l : list Z => l <> []) ls -> (length ls <= length (concat ls))%nat) by (induction 1 as [|l ls Hl Hls IH]; [reflexivity|]; cbn [concat length]; rewrite app_length; destruct l; [contradiction|cbn [length]; lia]).
    specialize (L (startLine r :: map fieldText (fields r))). rewrite app_length. assert (Forall (fun l : list Z => l <> []) (startLine r :: map fieldText (fields r))); [|specialize (L H0); lia]. constructor; [unfold startLine; destruct H as ((M0 & _) & _); destruct (method r); [contradiction|discriminate]|]. apply Forall_map. apply Forall_forall. intros f _. unfold fieldText. destruct (fst f); discriminate.
Qed.

Context (handler : nat -> request -> list act).
Notation serve := (serve sizes handler).
Lemma yields_chunk l a w : yields l a -> exists i i' ps, doActs (fresh true w) l = Some i /\ handleMissing sizes i = Some (i', true) /\ isChunked i' = true /\ leave i' = Some (w ++ keptText a ps) /\ piecesOf a ps /\ answerOk a.
Proof.
  intros [G|(-> & ->)].
  - destruct (answer_chunk l a w G) as (i & ps & E & S & C & L & P). exists i, i, ps. split; [exact E|]. unfold handleMissing. rewrite S. split; [reflexivity|]. split; [exact C|]. split; [exact L|]. split; [exact P|apply (gives_ok l a G)].
  - destruct (answer_chunk _ _ w (generic_gives InternalError)) as (i & ps & E & S & C & L & P). exists (fresh true w), i, ps. split; [reflexivity|]. unfold handleMissing. cbn [st fresh]. rewrite E. split; [reflexivity|]. split; [exact C|]. split; [exact L|]. split; [exact P|apply (gives_ok _ _ (generic_gives InternalError))].
Qed.
Lemma yields_plain l a w : yields l a -> exists i i', doActs (fresh false w) l = Some i /\ handleMissing sizes i = Some (i', true) /\ isChunked i' = false /\ leave i' = Some (w ++ closingText a) /\ answerOk a.
Proof.
  intros [G|(-> & ->)].
  - destruct (answer_plain l a w G) as (i & E & S & C & L). exists i, i. split; [exact E|]. unfold handleMissing. rewrite S. split; [reflexivity|]. split; [exact C|]. split; [exact L|apply (gives_ok l a G)].
  - destruct (answer_plain _ _ w (generic_gives InternalError)) as (i & E & S & C & L). exists (fresh false w), i. split; [reflexivity|]. unfold handleMissing. cbn [st fresh]. rewrite E. split; [reflexivity|]. split; [exact C|]. split; [exact L|apply (gives_ok _ _ (generic_gives InternalError))].
Qed.
Lemma bad_ok w : (do i <- doActs (mki NoResponse false None w 0) (respondGeneric BadRequest); leave i) = Some (w ++ closingText (generic BadRequest)).
Proof. destruct (answer_plain _ _ w (generic_gives BadRequest)) as (i & E & _ & _ & L). unfold fresh in E. rewrite E. exact L. Qed.

(** Whatever is sent, what comes back are responses. *)
Lemma serve_any (H : forall k r, exists a, yields (handler k r) a) : forall fuel k ins w, (length ins < fuel)%nat ->
  exists t l last, serve fuel k ins w = Some (w ++ t) /\ sent t (map kept l ++ map closing last) /\ (length last <= 1)%nat.
Proof.
  induction fuel as [|fuel IH]; intros k ins w Hf; [lia|]. cbn [WebModel.serve].
  assert (Nothing : exists t l last, leave (mki NoResponse false None w 0) = Some (w ++ t) /\ sent t (map kept l ++ map closing last) /\ (length last <= 1)%nat) by (exists [], [], []; cbn; rewrite app_nil_r; repeat split; [constructor|lia]).
  assert (Bad : exists t l last, (do i <- doActs (mki NoResponse false None w 0) (respondGeneric BadRequest); leave i) = Some (w ++ t) /\ sent t (map kept l ++ map closing last) /\ (length last <= 1)%nat).
  { exists (closingText (generic BadRequest)), [], [generic BadRequest]. rewrite bad_ok. split; [reflexivity|]. split; [apply sent_closing, (gives_ok _ _ (generic_gives BadRequest))|cbn; lia]. }
  destruct (readLines_any (S (length ins)) ins [] ltac:(lia)) as (lines & rest & E & F & R). rewrite E. cbn [app]. destruct rest as [rest|]; [|destruct lines; assumption]. destruct lines as [|line lines]; [exact Nothing|].
  destruct (sv_splitByte 32 (sv_trim isWhite false true line)) as [|m [|u [|v [|x y]]]]; try exact Bad. apply Forall_inv_tail in F. destruct (readFields_any lines F) as (fs & ->). destruct fs as [fs|]; [|exact Bad].
  destruct (H k (mkreq m u v fs)) as (a & Y). destruct (bytes_eqb v (txt "HTTP/1.1")).
  - destruct (yields_chunk _ _ w Y) as (i & i' & ps & E1 & E2 & C & L & P & A). unfold fresh in E1. rewrite E1, E2, L, C. cbn [andb]. destruct (IH (S k) rest (w ++ keptText a ps) ltac:(lia)) as (t & l & last & E3 & S & B). exists (keptText a ps ++ t), (a :: l), last. rewrite E3, app_assoc. split; [reflexivity|]. split; [cbn [map app]; apply sent_kept; assumption|exact B].
  - destruct (yields_plain _ _ w Y) as (i & i' & E1 & E2 & C & L & A). unfold fresh in E1. rewrite E1, E2, L, C. cbn [andb]. exists (closingText a), [], [a]. split; [reflexivity|]. split; [apply sent_closing, A|cbn; lia].
Qed.
Theorem always : (forall k r, exists a, yields (handler k r) a) -> forall ins, exists wire l last, connection sizes handler ins = Some wire /\ received wire = Some (map kept l ++ map closing last) /\ (length last <= 1)%nat.
Proof.
  intros H ins. unfold connection. destruct (serve_any H (S (length ins)) 0 ins [] ltac:(lia)) as (t & l & last & E & S & B). exists t, l, last. split; [exact E|]. split; [apply received_sent, S|exact B].
Qed.

(** Requests and answers in order. *)
Lemma serve_dialogue_all : forall rs as_ k w, Forall requestOk rs -> Forall (fun r => version r = txt "HTTP/1.1") rs -> length as_ = length rs ->
  (forall i r a, nth_error rs i = Some r -> nth_error as_ i = Some a -> yields (handler (k + i) r) a) ->
  exists t, (forall t' l, sent t' l -> sent (t ++ t') (map kept as_ ++ l)) /\ forall tail fuel, (length (flat_map requestText rs ++ tail) < fuel)%nat ->
    exists fuel', serve fuel k (flat_map requestText rs ++ tail) w = serve fuel' (k + length rs) tail (w ++ t) /\ (length tail < fuel')%nat.
Proof.
  induction rs as [|r rs IH]; intros as_ k w Hr Hv La Hy.
  - destruct as_; [|discriminate La]. exists []. split; [intros t' l H; exact H|]. intros tail fuel Hf. exists fuel. cbn [flat_map app length] in *. rewrite Nat.add_0_r, app_nil_r. split; [reflexivity|exact Hf].
  - destruct as_ as [|a as_]; [discriminate La|]. injection La as La. apply Forall_cons_iff in Hr. destruct Hr as (Hr & Hrs). apply Forall_cons_iff in Hv. destruct Hv as (Hv & Hvs).
    pose proof (Hy 0%nat r a eq_refl eq_refl) as Y. rewrite Nat.add_0_r in Y. destruct (yields_chunk _ _ w Y) as (i & i' & ps & E1 & E2 & C & L & P & A). unfold fresh in E1.
    destruct (IH as_ (S k) (w ++ keptText a ps) Hrs Hvs La) as (t & S & T); [intros j r' a' Hr' Ha'; specialize (Hy (S j) r' a' Hr' Ha'); replace (S k + j)%nat with (k + S j)%nat by lia; exact Hy|].
    exists (keptText a ps ++ t). split; [intros t' l H; cbn [map app]; rewrite <- app_assoc; apply sent_kept; [exact A|exact P|apply S, H]|]. intros tail fuel Hf. destruct fuel as [|fuel]; [lia|]. cbn [flat_map] in *. rewrite <- app_assoc in *.
    cbn [WebModel.serve]. rewrite request_lines by exact Hr. fold (startLine r). unfold startLine at 1. rewrite first_line by exact Hr. rewrite readFields_ok by apply Hr. replace (mkreq (method r) (uri r) (version r) (fields r)) with r by (destruct r; reflexivity).
    replace (bytes_eqb (version r) (txt "HTTP/1.1")) with true by (rewrite Hv; reflexivity). rewrite E1, E2, L, C. cbn [andb].
    assert (Lr : (0 < length (requestText r))%nat) by (unfold requestText; destruct Hr as ((M0 & _) & _); destruct (method r); [contradiction|cbn [app length]; lia]). rewrite app_length in Hf.
    destruct (T tail fuel ltac:(lia)) as (fuel' & E3 & F). exists fuel'. rewrite E3, app_assoc. split; [cbn [length]; f_equal; lia|exact F].
Qed.
Lemma serve_dialogue rs as_ tail fuel k w : Forall requestOk rs -> Forall (fun r => version r = txt "HTTP/1.1") rs -> length as_ = length rs ->
  (forall i r a, nth_error rs i = Some r -> nth_error as_ i = Some a -> yields (handler (k + i) r) a) -> (length (flat_map requestText rs ++ tail) < fuel)%nat ->
  exists t fuel', serve fuel k (flat_map requestText rs ++ tail) w = serve fuel' (k + length rs) tail (w ++ t) /\ (length tail < fuel')%nat /\ forall t' l, sent t' l -> sent (t ++ t') (map kept as_ ++ l).
Proof.
  intros Hr Hv La Hy Hf. destruct (serve_dialogue_all rs as_ k w Hr Hv La Hy) as (t & S & T). destruct (T tail fuel Hf) as (fuel' & E & F). exists t, fuel'. auto.
Qed.
End Server.
Section Dialogues.
Context (sizes : nat -> list nat) (handler : nat -> request -> list act).
Theorem dialogue rs as_ : Forall requestOk rs -> Forall (fun r => version r = txt "HTTP/1.1") rs -> length as_ = length rs ->
  (forall i r a, nth_error rs i = Some r -> nth_error as_ i = Some a -> yields (handler i r) a) ->
  exists wire, connection sizes handler (flat_map requestText rs) = Some wire /\ received wire = Some (map kept as_).
Proof.
  intros H1 H2 H3 H4. unfold connection. destruct (serve_dialogue sizes handler rs as_ [] (S (length (flat_map requestText rs))) 0 [] H1 H2 H3 H4) as (t & fuel & E & F & S); [rewrite app_nil_r; lia|]. rewrite app_nil_r in E. exists t. rewrite E. destruct fuel as [|fuel]; [lia|]. split; [reflexivity|]. apply received_sent. rewrite <- (app_nil_r (map kept as_)), <- (app_nil_r t). apply S. constructor.
Qed.
Theorem dialogue_close rs as_ r a rest : Forall requestOk (rs ++ [r]) -> Forall (fun r => version r = txt "HTTP/1.1") rs -> version r <> txt "HTTP/1.1" -> length as_ = length rs ->
  (forall i r a, nth_error rs i = Some r -> nth_error as_ i = Some a -> yields (handler i r) a) -> yields (handler (length rs) r) a ->
  exists wire, connection sizes handler (flat_map requestText (rs ++ [r]) ++ rest) = Some wire /\ received wire = Some (map kept as_ ++ [closing a]).
Proof.
  intros H1 H2 H2' H3 H4 H5. apply Forall_app in H1. destruct H1 as (H1 & Hr). apply Forall_inv in Hr. unfold connection. rewrite flat_map_app. cbn [flat_map]. rewrite app_nil_r, <- app_assoc.
  destruct (serve_dialogue sizes handler rs as_ (requestText r ++ rest) (S (length (flat_map requestText rs ++ requestText r ++ rest))) 0 [] H1 H2 H3 H4) as (t & fuel & -> & F & S); [lia|]. destruct fuel as [|fuel]; [lia|]. cbn [serve Nat.add].
  rewrite (request_lines sizes) by exact Hr. fold (startLine r). unfold startLine at 1. rewrite first_line by exact Hr. rewrite readFields_ok by apply Hr. replace (mkreq (method r) (uri r) (version r) (fields r)) with r by (destruct r; reflexivity).
  destruct (bytes_eqb (version r) (txt "HTTP/1.1")) eqn:V; [apply bytes_eqb_eq in V; contradiction|]. cbn [app]. destruct (yields_plain sizes _ _ t H5) as (i & i' & E1 & E2 & C & L & A). unfold fresh in E1. rewrite E1, E2, L, C. cbn [andb]. exists (t ++ closingText a). split; [reflexivity|]. apply received_sent, S, sent_closing, A.
Qed.
(* ---- what ends a dialogue ---- *)
Lemma readLine_last u : ~ In 10 u -> readLine u = (u, []).
Proof. induction u as [|c u IH]; intros H; [reflexivity|]. cbn [readLine]. cbn [In] in H. replace (c =? 10) with false by lia. rewrite IH by tauto. reflexivity. Qed.
Lemma notblank l : (exists c, In c l /\ isWhite c = false) -> blank l = false.
Proof.
  intros (c & I & W). unfold blank. destruct (sv_findByte_spec l (fun u => negb (isWhite u)) 0 ltac:(lia)) as [(_ & N)|((A & B) & _)]; [|apply Z.ltb_ge; lia].
  exfalso. apply in_split in I. destruct I as (a & b & ->). specialize (N (zlen a) ltac:(unfold zlen; rewrite app_length; cbn [length]; lia)). unfold zlen in N. rewrite Nat2Z.id, app_nth2, Nat.sub_diag in N by lia. cbn [nth] in N. rewrite W in N. discriminate N.
Qed.
Lemma readLines_cut ls : Forall (fun l => (exists x, l = x ++ [10] /\ ~ In 10 x) /\ blank l = false) ls -> forall u, ~ In 10 u -> u = [] \/ blank u = false -> forall fuel acc, (S (length ls) < fuel)%nat ->
  readLines fuel (concat ls ++ u) acc = Some (acc ++ ls ++ match u with [] => [] | _ => [u] end, None).
Proof.
  induction 1 as [|l ls ((x & -> & Hx) & Hb) Hls IH]; intros u Hu Hw fuel acc Hf; (destruct fuel as [|fuel]; [lia|]); cbn [readLines].
  - change (concat [] ++ u) with u. rewrite readLine_last by exact Hu. destruct u as [|c u]; [cbn; rewrite app_nil_r; reflexivity|]. destruct Hw as [Hw|Hw]; [discriminate Hw|].
    replace (zlen (c :: u) =? 0) with false by (unfold zlen; cbn [length]; lia). fold (blank (c :: u)). rewrite Hw. cbn [length] in Hf. destruct fuel as [|fuel]; [lia|]. cbn [readLines readLine zlen]. reflexivity.
  - cbn [length concat] in *. rewrite <- !app_assoc. cbn [app]. rewrite readLine_ok by exact Hx. replace (zlen (x ++ [10]) =? 0) with false by (rewrite zlen_app; pose proof (zlen_nonneg x); change (zlen [10]) with 1; lia). fold (blank (x ++ [10])). rewrite Hb. rewrite IH by (assumption || lia). rewrite <- !app_assoc. reflexivity.
Qed.
Theorem dialogue_cut rs as_ ls u : Forall requestOk rs -> Forall (fun r => version r = txt "HTTP/1.1") rs -> length as_ = length rs ->
  (forall i r a, nth_error rs i = Some r -> nth_error as_ i = Some a -> yields (handler i r) a) ->
  Forall (fun l => ~ In 10 l /\ exists c, In c l /\ isWhite c = false) (ls ++ match u with [] => [] | _ => [u] end) -> ls ++ [u] <> [[]] ->
  exists wire, connection sizes handler (flat_map requestText rs ++ concat (map (fun l => l ++ [10]) ls) ++ u) = Some wire /\ received wire = Some (map kept as_ ++ [closing (generic BadRequest)]).
Proof.
  intros H1 H2 H3 H4 Hl Hn. unfold connection. set (tail := concat (map (fun l => l ++ [10]) ls) ++ u).
  destruct (serve_dialogue sizes handler rs as_ tail (S (length (flat_map requestText rs ++ tail))) 0 [] H1 H2 H3 H4) as (t & fuel & -> & F & S); [lia|]. destruct fuel as [|fuel]; [lia|]. cbn [serve Nat.add app].
  apply Forall_app in Hl. destruct Hl as (Hl & Hu). assert (Hu' : ~ In 10 u /\ (u = [] \/ blank u = false)).
  { destruct u as [|c u]; [split; [intros []|left; reflexivity]|]. apply Forall_inv in Hu. destruct Hu as (A & B). split; [exact A|right; apply notblank, B]. }
  assert (E : readLines (Datatypes.S (length tail)) tail [] = Some (map (fun l => l ++ [10]) ls ++ match u with [] => [] | _ => [u] end, None)).
  { unfold tail. destruct Hu' as (A & B).
    assert (L : (length ls + length u <= length (concat (map (fun l => l ++ [10%Z]) ls) ++ u))%nat) by (clear; induction ls as [|l ls IH]; [cbn; lia|]; cbn [map concat length]; rewrite !app_length in *; cbn [length]; lia).
    assert (R : forall fuel, (length ls + length u < fuel)%nat -> readLines fuel (concat (map (fun l => l ++ [10]) ls) ++ u) [] = Some (map (fun l => l ++ [10]) ls ++ match u with [] => [] | _ => [u] end, None)); [|apply R; lia].
    intros g Hg. destruct u as [|c u].
    - clear - Hl Hg. rewrite !app_nil_r. rewrite <- (app_nil_l (map (fun l => l ++ [10]) ls)) at 2. generalize (@nil (list Z)) as acc. revert g Hg. induction Hl as [|l ls (A & B) Hls IH]; intros g Hg acc; (destruct g as [|g]; [cbn in Hg; lia|]); cbn [map concat readLines]; [cbn; rewrite app_nil_r; reflexivity|].
      rewrite <- app_assoc. cbn [app]. rewrite readLine_ok by exact A. replace (zlen (l ++ [10]) =? 0) with false by (rewrite zlen_app; pose proof (zlen_nonneg l); change (zlen [10]) with 1; lia). fold (blank (l ++ [10])).
      rewrite notblank by (destruct B as (c & I & W); exists c; split; [apply in_app_iff; left; exact I|exact W]). rewrite IH by (cbn in Hg |- *; lia). rewrite <- app_assoc. reflexivity.
    - rewrite readLines_cut; [reflexivity| |exact A|exact B|rewrite map_length; cbn [length] in Hg; lia]. apply Forall_map. revert Hl. apply Forall_impl. intros l (C & D). split; [exists l; auto|]. apply notblank. destruct D as (d & I & W). exists d. split; [apply in_app_iff; left; exact I|exact W]. }
  rewrite E. replace (match map (fun l => l ++ [10]) ls ++ match u with [] => [] | _ => [u] end with [] => leave (mki NoResponse false None t 0) | _ => do i <- doActs sizes (mki NoResponse false None t 0) (respondGeneric BadRequest); leave i end)
    with (do i <- doActs sizes (mki NoResponse false None t 0) (respondGeneric BadRequest); leave i).
  - rewrite (bad_ok sizes). eexists. split; [reflexivity|]. apply received_sent, S, sent_closing, (gives_ok _ _ (generic_gives BadRequest)).
  - destruct ls as [|l ls]; [|reflexivity]. destruct u as [|c u]; [exfalso; apply Hn; reflexivity|reflexivity].
Qed.
Theorem dialogue_half rs as_ r c outs : Forall requestOk (rs ++ [r]) -> Forall (fun r => version r = txt "HTTP/1.1") rs -> length as_ = length rs ->
  (forall i r a, nth_error rs i = Some r -> nth_error as_ i = Some a -> yields (handler i r) a) -> handler (length rs) r = Begin c :: map Out outs ->
  exists t half, received t = Some (map kept as_) /\ forall rest, connection sizes handler (flat_map requestText (rs ++ [r]) ++ rest) = Some (t ++ half).
Proof.
  intros H1 H2 H3 H4 H5. apply Forall_app in H1. destruct H1 as (H1 & Hr). apply Forall_inv in Hr.
  assert (Step : forall rest fuel t, (length (requestText r ++ rest) < fuel)%nat -> serve sizes handler fuel (length rs) (requestText r ++ rest) t =
    do i <- doActs sizes (fresh (bytes_eqb (version r) (txt "HTTP/1.1")) t) (handler (length rs) r); do (i, again) <- handleMissing sizes i; do w <- leave i; if again && isChunked i then serve sizes handler (pred fuel) (S (length rs)) rest w else Some w).
  { intros rest fuel t L. destruct fuel as [|fuel]; [lia|]. cbn [serve]. rewrite (request_lines sizes) by exact Hr. fold (startLine r). unfold startLine at 1. rewrite first_line by exact Hr. rewrite readFields_ok by apply Hr. replace (mkreq (method r) (uri r) (version r) (fields r)) with r by (destruct r; reflexivity). reflexivity. }
  assert (O : forallb isOut (map Out outs) = true) by (clear; induction outs as [|o outs IH]; [reflexivity|exact IH]).
  assert (Half : forall t, exists i half, doActs sizes (fresh (bytes_eqb (version r) (txt "HTTP/1.1")) t) (handler (length rs) r) = Some i /\ st i = BeganResponse /\ leave i = Some (t ++ half)).
  { intros t. rewrite H5. cbn [WebModel.doActs doAct]. unfold begin. cbn [isChunked fresh outsChunked wire writes]. destruct (bytes_eqb _ _).
    - match goal with |- context [WebModel.doActs sizes ?j _] => destruct (outs_chunk sizes (map Out outs) j (mkos [] false) O) as (o' & ps & n & E & M & _ & _); [discriminate|reflexivity|reflexivity|discriminate|] end.
      cbn [chunkMode] in M. rewrite E. cbn [st wire]. match goal with |- context [Some (mki BeganResponse true (Some o') ?W n)] => destruct (flushMem_ok o' W) as (ps2 & E2 & _); [intros K; congruence|] end.
      eexists. eexists. split; [reflexivity|]. split; [reflexivity|]. unfold leave. cbn [outsChunked wire]. unfold destroy. rewrite E2. rewrite <- !app_assoc. reflexivity.
    - match goal with |- context [WebModel.doActs sizes ?j _] => rewrite (outs_plain sizes (map Out outs) j O) by (discriminate || reflexivity) end. eexists. eexists. split; [reflexivity|]. split; [reflexivity|]. cbn [leave outsChunked wire]. rewrite <- !app_assoc. reflexivity. }
  destruct (serve_dialogue_all sizes handler rs as_ 0 [] H1 H2 H3 H4) as (t & S0 & T). destruct (Half t) as (i & half & E1 & E2 & E3). exists t, half.
  split; [apply received_sent; rewrite <- (app_nil_r (map kept as_)), <- (app_nil_r t); apply S0; constructor|]. intros rest. unfold connection. rewrite flat_map_app. cbn [flat_map]. rewrite app_nil_r, <- app_assoc.
  destruct (T (requestText r ++ rest) (S (length (flat_map requestText rs ++ requestText r ++ rest))) ltac:(lia)) as (fuel' & -> & F). cbn [Nat.add app]. rewrite Step by exact F. rewrite E1. unfold handleMissing. rewrite E2, E3. reflexivity.
Qed.
End Dialogues.
