(* Allowing more steps never changes an outcome that is not "out of steps". *)
From Coq Require Import Lia.
From Verif Require Import CrowbarModel CrowbarSpec.

Definition later {A} (a b : outcome A) : Prop := a = OutOfSteps \/ a = b.
Lemma later_refl {A} (a : outcome A) : later a a.
Proof. right. reflexivity. Qed.
Lemma later_trans {A} (a b c : outcome A) : later a b -> later b c -> later a c.
Proof. intros [->| ->] H; [left; reflexivity | exact H]. Qed.
Lemma later_bind {A B} (a b : outcome A) (f g : A -> outcome B) :
  later a b -> (forall x, later (f x) (g x)) -> later (bind a f) (bind b g).
Proof.
  intros [->| ->] H; [left; reflexivity|]. destruct b; cbn; auto using later_refl.
Qed.
#[local] Hint Resolve later_refl : core.

Lemma pieces_later ev ev' ps : (forall e st, later (ev e st) (ev' e st)) ->
  forall acc st, later (evalPieces ev ps acc st) (evalPieces ev' ps acc st).
Proof.
  intros H. induction ps as [|[lit [e|]] ps IH]; intros acc st; cbn; auto.
  apply later_bind; auto. intros x. destruct (ret x) as [r|]; auto. destruct (valueOf x r) as [v|]; auto.
  destruct (textOf v); auto.
Qed.
Lemma args_later ev ev' args : (forall e st, later (ev e st) (ev' e st)) ->
  forall acc st, later (evalArgs ev args acc st) (evalArgs ev' args acc st).
Proof.
  intros H. induction args as [|a args IH]; intros acc st; cbn; auto.
  apply later_bind; auto. intros x. apply later_bind; auto. intros y. destruct (stk y) as [|[i v] t]; auto.
Qed.
Lemma list_later ex ex' b : (forall s fr st, later (ex s fr st) (ex' s fr st)) ->
  forall fr st, later (execList ex b fr st) (execList ex' b fr st).
Proof.
  intros H. induction b as [|s b IH]; intros fr st; cbn; auto.
  apply later_bind; auto. intros [[fl fr'] st']. destruct fl; auto.
Qed.

Lemma model_later fns k :
  (forall fr e st, later (eval k fns fr e st) (eval (S k) fns fr e st)) /\
  (forall s fr st, later (exec k fns s fr st) (exec (S k) fns s fr st)) /\
  (forall c b fr st, later (execWhile k fns c b fr st) (execWhile (S k) fns c b fr st)).
Proof.
  induction k as [|k (IHe & IHx & IHw)].
  - repeat split; intros; left; reflexivity.
  - split; [|split].
    + intros fr e st. remember (S k) as k' eqn:Ek. rewrite Ek at 1. cbn [eval]. cbv zeta.
      destruct e as [n|v|ps|e n|op l r|op e|f args]; auto.
      * apply later_bind; [apply pieces_later; auto|]. auto.
      * apply later_bind; auto.
      * apply later_bind; auto. intros x. apply later_bind; auto.
      * apply later_bind; auto.
      * apply later_bind; auto. intros x. apply later_bind; [apply args_later; auto|]. intros [ids y].
        destruct (ret x) as [[]|]; auto. destruct (_ =? _)%nat; auto. apply later_bind; auto. apply list_later; auto.
    + intros s fr st. remember (S k) as k' eqn:Ek. rewrite Ek at 1. cbn [exec]. cbv zeta.
      destruct s as [c t f|c b|l e|e|e]; auto.
      * apply later_bind; auto. intros x. apply later_bind; auto. intros [b y].
        destruct (if b then Some t else f); auto. apply list_later; auto.
      * destruct l; try (apply later_bind; auto; intros x; apply later_bind; auto).
      * apply later_bind; auto.
      * apply later_bind; auto.
    + intros c b fr st. remember (S k) as k' eqn:Ek. rewrite Ek at 1. cbn [execWhile]. cbv zeta.
      apply later_bind; auto. intros x. apply later_bind; auto. intros [go y]. destruct go; auto.
      apply later_bind; [apply list_later; auto|]. intros [[fl fr'] z]. destruct fl; auto.
Qed.

Lemma script_settles_step k fns f o : callScript k fns f = Some o -> o <> OutOfSteps -> callScript (S k) fns f = Some o.
Proof.
  unfold callScript. destruct (findVar f (functionTable fns)) as [fd|]; [|discriminate].
  intros H N. injection H as <-. f_equal. destruct (fd_params fd); auto.
  assert (L : forall st, later (execList (exec k fns) (fd_body fd) [] st) (execList (exec (S k) fns) (fd_body fd) [] st)).
  { apply list_later. apply model_later. }
  destruct (L (St [] 0 [] None)) as [E|E]; [|rewrite E; reflexivity]. exfalso. apply N. rewrite E. reflexivity.
Qed.
Theorem script_settles k k' fns f o : (k <= k')%nat -> callScript k fns f = Some o -> o <> OutOfSteps ->
  callScript k' fns f = Some o.
Proof.
  intros L H N. induction L as [|k' L IH]; auto. apply script_settles_step; auto.
Qed.
