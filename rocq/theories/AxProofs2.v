From Coq Require Import List ZArith Bool Lia.
From Verif Require Import PyBase SliceModel RedModel RedProofs AxModel AxSpec AxProofs.
Import ListNotations.
Open Scope nat_scope.

Lemma nth_error_rev' : forall {A} (l : list A) j, j < length l ->
  nth_error (rev l) j = nth_error l (length l - 1 - j).
Proof.
  intros A l j H. destruct l as [|x l]; [cbn in H; lia|].
  rewrite (nth_error_nth' (rev (x :: l)) x) by (rewrite rev_length; exact H).
  rewrite rev_nth by exact H. rewrite (nth_error_nth' (x :: l) x) by lia.
  f_equal. f_equal. lia.
Qed.
Lemma right_none : forall {A} (l : list A) j, length l <= j -> right j l = None.
Proof. intros. unfold right. apply nth_error_None. rewrite rev_length. exact H. Qed.

Lemma pynth_right : forall {A} (l : list A) z j,
  (z = Z.of_nat (length l) - 1 - Z.of_nat j)%Z -> (0 <= z)%Z ->
  exists x, pynth l z = Ok x /\ right j l = Some x.
Proof.
  intros A l z j Hz H0. unfold pynth, pyaxis.
  replace ((0 <=? z)%Z && (z <? Z.of_nat (length l))%Z) with true
    by (symmetry; apply andb_true_iff; split; [apply Z.leb_le|apply Z.ltb_lt]; lia).
  unfold right. rewrite nth_error_rev' by lia.
  replace (Z.to_nat z) with (length l - 1 - j) by lia.
  destruct (nth_error l (length l - 1 - j)) as [x|] eqn:E.
  - exists x. split; reflexivity.
  - apply nth_error_None in E. lia.
Qed.

Lemma max_dims : forall ops, (exists o, In o ops /\ IsDist o) ->
  fold_right (fun o m => Z.max (op_ndim o) m) (-1)%Z ops = Z.of_nat (fold_right (fun o m => Nat.max (dims o) m) 0 ops).
Proof.
  assert (H1 : forall ops, Z.max 0 (fold_right (fun o m => Z.max (op_ndim o) m) (-1)%Z ops)
     = Z.of_nat (fold_right (fun o m => Nat.max (dims o) m) 0 ops)).
  { induction ops as [|o ops IH]; [reflexivity|]. cbn [fold_right].
    rewrite Nat2Z.inj_max, <- IH. destruct o; cbn [op_ndim dims]; lia. }
  intros ops (o & Hin & Hd). rewrite <- H1. symmetry. apply Z.max_r.
  induction ops as [|x ops IH]; [contradiction|]. cbn [fold_right].
  destruct Hin as [->|Hin].
  - destruct o; try contradiction. cbn [op_ndim]. lia.
  - pose proof (IH Hin). lia.
Qed.

Lemma fold_unit_ok : forall (f : operand -> res unit) ops acc,
  fold_left (fun acc o => rbind acc (fun _ => f o)) ops acc = Ok tt ->
  acc = Ok tt /\ Forall (fun o => f o = Ok tt) ops.
Proof.
  induction ops as [|o ops IH]; intros acc H; cbn [fold_left] in H; [split; [exact H|constructor]|].
  destruct (IH _ H) as (H1 & H2). destruct acc as [[]|e]; [|discriminate].
  cbn [rbind] in H1. split; [reflexivity|]. constructor; assumption.
Qed.
Lemma fold_unit_all : forall (f : operand -> res unit) ops,
  Forall (fun o => f o = Ok tt) ops ->
  fold_left (fun acc o => rbind acc (fun _ => f o)) ops (Ok tt) = Ok tt.
Proof.
  induction ops as [|o ops IH]; intros H; [reflexivity|]. inversion H; subst. cbn [fold_left rbind].
  rewrite H2. apply IH. assumption.
Qed.
Lemma fold_unit_err : forall (f : operand -> res unit) e ops acc,
  (acc = Ok tt \/ acc = Err e) ->
  Forall (fun o => f o = Ok tt \/ f o = Err e) ops ->
  fold_left (fun acc o => rbind acc (fun _ => f o)) ops acc = Ok tt \/
  fold_left (fun acc o => rbind acc (fun _ => f o)) ops acc = Err e.
Proof.
  induction ops as [|o ops IH]; intros acc Ha H; [exact Ha|]. inversion H; subst. cbn [fold_left].
  apply IH; [|assumption]. destruct Ha as [->| ->]; cbn [rbind]; [assumption|right; reflexivity].
Qed.

(** What one operand is tested for, position counted from the right. *)
Definition op_check (axis max_dim : Z) (glen off llen : nat) (o : operand) : res unit :=
  let cur := (axis - max_dim + op_ndim o)%Z in
  match o with
  | OpScalar => Ok tt
  | OpDist a g f _ => check_dist_axis a g f cur glen off
  | OpArr s =>
      if (0 <=? cur)%Z then
        rbind (pynth s cur) (fun n =>
        if (n =? 1)%nat then Ok tt
        else if (n =? llen)%nat then Ok tt
        else Err AxisException)
      else Ok tt
  end.

Lemma op_check_spec : forall axis max_dim glen off llen j o,
  OpWf o -> (axis - max_dim = -1 - Z.of_nat j)%Z ->
  (Aligned j glen off llen o -> op_check axis max_dim glen off llen o = Ok tt) /\
  (~ Aligned j glen off llen o -> op_check axis max_dim glen off llen o = Err AxisException).
Proof.
  intros axis max_dim glen off llen j o Hwf Hj. unfold op_check. rewrite Hj.
  destruct o as [a g f l|s|]; cbn [op_ndim Aligned OpWf] in *.
  - destruct Hwf as (Ha & Hf & Hl). unfold check_dist_axis.
    set (cur := (-1 - Z.of_nat j + Z.of_nat (length g))%Z).
    destruct (Z.eqb_spec a cur) as [E|E]; cbn [negb].
    + destruct (pynth_right g cur j) as (x & X1 & X2); [unfold cur; lia|lia|].
      destruct (pynth_right f cur j) as (y & Y1 & Y2); [unfold cur; lia|lia|].
      rewrite X1, X2, Y2. cbn [rbind]. destruct (Nat.eqb_spec x glen) as [->|Ex]; cbn [negb].
      * rewrite Y1. cbn [rbind]. destruct (Nat.eqb_spec y off) as [->|Ey]; cbn [negb].
        -- split; [reflexivity|]. intros H. exfalso. apply H. repeat split. unfold cur in E. lia.
        -- split; [|reflexivity]. intros (_ & _ & H). congruence.
      * split; [|reflexivity]. intros (_ & H & _). congruence.
    + split; [|reflexivity]. intros (H & _). exfalso. apply E. unfold cur. lia.
  - set (cur := (-1 - Z.of_nat j + Z.of_nat (length s))%Z).
    destruct (Z.leb_spec 0 cur) as [H0|H0].
    + destruct (pynth_right s cur j) as (x & X1 & X2); [unfold cur; lia|exact H0|].
      rewrite X1, X2. cbn [rbind].
      destruct (Nat.eqb_spec x 1) as [->|E1].
      { split; [reflexivity|]. intros H. exfalso. apply H. intros n Hn. injection Hn as <-. left. reflexivity. }
      destruct (Nat.eqb_spec x llen) as [->|E2].
      { split; [reflexivity|]. intros H. exfalso. apply H. intros n Hn. injection Hn as <-. right. reflexivity. }
      split; [|reflexivity]. intros H. destruct (H x eq_refl); contradiction.
    + split; [reflexivity|]. intros H. exfalso. apply H. intros n Hn.
      rewrite right_none in Hn by (unfold cur in H0; lia). discriminate.
  - split; [reflexivity|]. tauto.
Qed.

Lemma first_dist_app : forall plain a g f l rest,
  Forall (fun o => ~ IsDist o) plain ->
  first_dist (plain ++ OpDist a g f l :: rest) = Some (a, g, f, l).
Proof.
  induction plain as [|o plain IH]; intros a g f l rest H; [reflexivity|].
  inversion H; subst. cbn [app first_dist]. destruct o; [cbn in H2; tauto| |]; apply IH; assumption.
Qed.

Lemma Aligned_dec : forall j glen off llen o,
  Aligned j glen off llen o \/ ~ Aligned j glen off llen o.
Proof.
  intros. destruct o as [a g f l|s|]; cbn [Aligned].
  - destruct (Z.eq_dec a (Z.of_nat (length g) - 1 - Z.of_nat j)) as [E1|]; [|right; tauto].
    destruct (right j g) as [x|]; [|right; intros (_ & H & _); discriminate].
    destruct (right j f) as [y|]; [|right; intros (_ & _ & H); discriminate].
    destruct (Nat.eq_dec x glen) as [->|]; [|right; intros (_ & H & _); congruence].
    destruct (Nat.eq_dec y off) as [->|]; [left; tauto|right; intros (_ & _ & H); congruence].
  - destruct (right j s) as [n|]; [|left; discriminate].
    destruct (Nat.eq_dec n 1); [left; intros m Hm; injection Hm as <-; tauto|].
    destruct (Nat.eq_dec n llen); [left; intros m Hm; injection Hm as <-; tauto|].
    right. intros H. destruct (H n eq_refl); contradiction.
  - left. exact I.
Qed.

Lemma ufunc_call_ok : forall plain a g f l rest j glen off llen,
  let inputs := plain ++ OpDist a g f l :: rest in
  Forall (fun o => ~ IsDist o) plain -> Forall OpWf inputs ->
  (a = Z.of_nat (length g) - 1 - Z.of_nat j)%Z ->
  right j g = Some glen -> right j f = Some off -> right j l = Some llen ->
  (Forall (Aligned j glen off llen) inputs ->
     exists m, (forall o, In o inputs -> dims o <= m) /\ (exists o, In o inputs /\ dims o = m) /\
     ufunc_call inputs = Ok ((Z.of_nat m - 1 - Z.of_nat j)%Z, glen, off)) /\
  (~ Forall (Aligned j glen off llen) inputs -> ufunc_call inputs = Err AxisException).
Proof.
  intros plain a g f l rest j glen off llen inputs Hp Hwf Ha Hg Hf Hl.
  set (m := fold_right (fun o m => Nat.max (dims o) m) 0 inputs).
  assert (Hex : exists o, In o inputs /\ IsDist o).
  { exists (OpDist a g f l). split; [unfold inputs; apply in_or_app; right; left; reflexivity|exact I]. }
  assert (Hm : fold_right (fun o m => Z.max (op_ndim o) m) (-1)%Z inputs = Z.of_nat m)
    by (apply max_dims; exact Hex).
  assert (Hwo : OpWf (OpDist a g f l)).
  { rewrite Forall_forall in Hwf. apply Hwf. unfold inputs. apply in_or_app. right. left. reflexivity. }
  cbn [OpWf] in Hwo. destruct Hwo as (Ha0 & Hlf & Hll).
  destruct (pynth_right g a j) as (x1 & G1 & G2); [exact Ha|lia|].
  destruct (pynth_right f a j) as (x2 & F1 & F2); [rewrite Hlf; exact Ha|lia|].
  destruct (pynth_right l a j) as (x3 & L1 & L2); [rewrite Hll; exact Ha|lia|].
  assert (x1 = glen) by congruence. assert (x2 = off) by congruence. assert (x3 = llen) by congruence. subst x1 x2 x3.
  set (axis := (Z.of_nat m + a - Z.of_nat (length g))%Z).
  assert (HU : ufunc_call inputs
     = rbind (fold_left (fun acc o => rbind acc (fun _ => op_check axis (Z.of_nat m) glen off llen o)) inputs (Ok tt))
             (fun _ => Ok (axis, glen, off))).
  { unfold ufunc_call. rewrite Hm. unfold inputs at 1. rewrite first_dist_app by exact Hp.
    rewrite G1, F1, L1. cbn [rbind]. reflexivity. }
  rewrite HU. clear HU.
  assert (HC : forall o, In o inputs ->
     (Aligned j glen off llen o -> op_check axis (Z.of_nat m) glen off llen o = Ok tt) /\
     (~ Aligned j glen off llen o -> op_check axis (Z.of_nat m) glen off llen o = Err AxisException)).
  { intros o Ho. apply op_check_spec; [rewrite Forall_forall in Hwf; apply Hwf, Ho|unfold axis; lia]. }
  rewrite !Forall_forall. split.
  - intros Hal. exists m. split.
    { intros o Ho. unfold m. clear - Ho. induction inputs as [|y ops IH]; [contradiction|].
      cbn [fold_right]. destruct Ho as [->|Ho]; [lia|]. pose proof (IH Ho). lia. }
    split.
    { unfold m. clear - Hex. assert (inputs <> []) by (destruct Hex as (o & Ho & _); destruct inputs; [contradiction|discriminate]).
      clear Hex. induction inputs as [|y ops IH]; [contradiction|]. cbn [fold_right].
      destruct ops as [|z ops].
      - exists y. split; [left; reflexivity|]. cbn. lia.
      - destruct IH as (o & Ho & Hd); [discriminate|].
        destruct (Nat.max_spec (dims y) (fold_right (fun o m => Nat.max (dims o) m) 0 (z :: ops))) as [(_ & ->)|(_ & ->)].
        + exists o. split; [right; exact Ho|exact Hd].
        + exists y. split; [left; reflexivity|reflexivity]. }
    rewrite fold_unit_all; [cbn [rbind]; unfold axis; do 3 f_equal; lia|].
    apply Forall_forall. intros o Ho. apply HC; [exact Ho|apply Hal, Ho].
  - intros Hn.
    destruct (fold_unit_err (op_check axis (Z.of_nat m) glen off llen) AxisException inputs (Ok tt)) as [E|E].
    + left. reflexivity.
    + apply Forall_forall. intros o Ho. destruct (HC o Ho) as (H1 & H2).
      destruct (Aligned_dec j glen off llen o); [left; apply H1|right; apply H2]; assumption.
    + exfalso. apply Hn. intros o Ho. apply fold_unit_ok in E as (_ & E). rewrite Forall_forall in E.
      destruct (Aligned_dec j glen off llen o) as [|Hna]; [assumption|].
      destruct (HC o Ho) as (_ & H2). rewrite (E o Ho) in H2. specialize (H2 Hna). discriminate.
    + rewrite E. reflexivity.
Qed.
