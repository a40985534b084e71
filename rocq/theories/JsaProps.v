(** C394: the characters of JSON texts. *)
From Coq Require Import String.
From Coq Require Import List Ascii Bool Arith ZArith Lia.
From Verif Require Import PyBase PyStr MemModel JsonModel JsonSpec JsonProofs.
Import ListNotations.
Open Scope list_scope.
Open Scope nat_scope.

(** From space to tilde. *)
Definition Shown (c : ascii) : Prop := 32 <= nat_of_ascii c <= 126.
Local Notation shown := (Forall Shown).

Lemma shown_b : forall s, forallb (fun c => (32 <=? nat_of_ascii c) && (nat_of_ascii c <=? 126)) s = true -> shown s.
Proof.
  intros s H. rewrite forallb_forall in H. apply Forall_forall. intros c Hc. specialize (H c Hc).
  apply andb_true_iff in H as [A B]. apply Nat.leb_le in A, B. split; assumption.
Qed.
Lemma qchar_shown : forall c, shown (qchar c).
Proof. intros [[] [] [] [] [] [] [] []]; apply shown_b; reflexivity. Qed.
Lemma quoted_shown : forall s, shown (quoted s).
Proof.
  intro s. unfold quoted. constructor; [cbv; lia|]. apply Forall_app. split; [|apply shown_b; reflexivity].
  unfold qbody. induction s as [|c s IH]; [constructor|]. cbn [map concat]. apply Forall_app. split; [apply qchar_shown|assumption].
Qed.
Lemma digits_shown : forall s, Digits s -> shown s.
Proof.
  intros s H. unfold Digits in H. rewrite Forall_forall in *. intros c Hc. specialize (H c Hc). unfold Shown. lia.
Qed.
Lemma dec_shown : forall z, shown (dec z).
Proof.
  intros [|p|p]; cbn [dec]; try (apply digits_shown, uint_digits).
  constructor; [cbv; lia|apply digits_shown, uint_digits].
Qed.
Lemma int_shown : forall s, IntText s -> shown s.
Proof. intros s [->|(d & ds & -> & H & _)]; [apply shown_b; reflexivity|now apply digits_shown]. Qed.
Lemma float_shown : forall s, FloatText s -> shown s.
Proof.
  intros s [| | |sg ip fr ex Hsg Hi Hf He _].
  1-3: apply shown_b; reflexivity.
  apply Forall_app. split; [destruct Hsg as [<-|[<-|[]]]; apply shown_b; reflexivity|].
  apply Forall_app. split; [now apply int_shown|]. apply Forall_app. split.
  - destruct Hf as [->|(ds & -> & _ & Hd)]; [constructor|]. constructor; [cbv; lia|now apply digits_shown].
  - destruct He as [->|(sg2 & ds & -> & Hs2 & _ & Hd)]; [constructor|]. constructor; [cbv; lia|]. apply Forall_app. split; [|now apply digits_shown].
    destruct Hs2 as [<-|[<-|[<-|[]]]]; apply shown_b; reflexivity.
Qed.
Lemma commas_shown : forall l, Forall shown l -> shown (commas l).
Proof.
  induction l as [|w l IH]; intro H; [constructor|]. destruct l as [|v l]; [exact (Forall_inv H)|].
  rewrite commas_cons by discriminate. apply Forall_app. split; [exact (Forall_inv H)|].
  apply Forall_app. split; [apply shown_b; reflexivity|]. apply IH. exact (Forall_inv_tail H).
Qed.
Lemma enc_shown : forall v s, wf v -> enc v = Ok s -> shown s.
Proof.
  assert (HL : forall l parts, Forall (fun v => forall s, wf v -> enc v = Ok s -> shown s) l -> wfs l ->
      enc_list l = Ok parts -> Forall shown parts).
  { induction l as [|x l IHl]; intros parts IH W E; [injection E as <-; constructor|].
    destruct (enc_list_cons _ _ _ E) as (a & b & Ea & Eb & ->). destruct W as [W1 W2].
    constructor; [exact (Forall_inv IH a W1 Ea)|]. apply IHl; [exact (Forall_inv_tail IH)|assumption|assumption]. }
  assert (HB : forall parts (x y : ascii), Shown x -> Shown y -> Forall shown parts -> shown (x :: commas parts ++ [y])).
  { intros parts x y Hx Hy H. constructor; [assumption|]. apply Forall_app. split; [now apply commas_shown|]. constructor; [assumption|constructor]. }
  induction v as [|b|z|lit|x|x|x|z|l IH|kv IH|l IH] using av_ind'; intros s W E.
  - injection E as <-. apply shown_b; reflexivity.
  - destruct b; injection E as <-; apply shown_b; reflexivity.
  - injection E as <-. apply dec_shown.
  - injection E as <-. now apply float_shown.
  - injection E as <-. apply quoted_shown.
  - cbn [enc] in E. destruct (forallb _ x) in E; [|discriminate]. injection E as <-. apply quoted_shown.
  - injection E as <-. apply quoted_shown.
  - discriminate.
  - rewrite enc_AList in E. destruct (enc_list l) as [parts|] eqn:EL; [|discriminate]. injection E as <-.
    apply HB; [cbv; lia|cbv; lia|]. eapply HL; eauto.
  - rewrite enc_ADict in E. destruct (enc_dict kv) as [parts|] eqn:EL; [|discriminate]. injection E as <-.
    apply HB; [cbv; lia|cbv; lia|]. destruct W as [_ W]. change (wfd kv) in W.
    clear - IH W EL. revert parts EL. induction kv as [|[k x] kv IHl]; intros parts EL; [injection EL as <-; constructor|].
    destruct (enc_dict_cons _ _ _ _ EL) as (a & b & Ea & Eb & ->). destruct W as [W1 W2].
    constructor; [|apply IHl; [exact (Forall_inv_tail IH)|assumption|assumption]].
    apply Forall_app. split; [apply quoted_shown|]. apply Forall_app. split; [apply shown_b; reflexivity|].
    exact (Forall_inv IH a W1 Ea).
  - rewrite enc_AArr in E. destruct l as [|x [|y l]].
    + injection E as <-. apply shown_b; reflexivity.
    + destruct W as [W _]. exact (Forall_inv IH s W E).
    + rewrite enc_AList in E. destruct (enc_list (x :: y :: l)) as [parts|] eqn:EL; [|discriminate]. injection E as <-.
      apply HB; [cbv; lia|cbv; lia|]. eapply HL; eauto.
Qed.

(** C394 *)
Theorem C394_ascii : forall v s, wf v -> enc v = Ok s -> Forall Shown s.
Proof. exact enc_shown. Qed.
Print Assumptions C394_ascii.

(** Every other character is written as its code with four digits, in lower case; five have a letter. *)
Theorem C394_escapes : forall c, ~ Shown c -> ~ In (nat_of_ascii c) [8; 9; 10; 12; 13] ->
  exists hi lo, nth_error (list_ascii_of_string "0123456789abcdef") (nat_of_ascii c / 16) = Some hi /\
    nth_error (list_ascii_of_string "0123456789abcdef") (nat_of_ascii c mod 16) = Some lo /\
    enc (AStr [c]) = Ok (list_ascii_of_string """\u00" ++ [hi; lo] ++ list_ascii_of_string """").
Proof.
  unfold Shown. intros [[] [] [] [] [] [] [] []] H1 H2;
  try (exfalso; apply H1; cbv; lia); try (exfalso; apply H2; cbv; tauto);
  do 2 eexists; (split; [reflexivity|split; reflexivity]).
Qed.
Print Assumptions C394_escapes.

Example C394_example :
  enc (ADict [(s_ "name", AStr (ascii_of_nat 127 :: ascii_of_nat 233 :: ascii_of_nat 10 :: s_ "x"))])
  = Ok (s_ "{""name"": ""\u007f\u00e9\nx""}").
Proof. reflexivity. Qed.
