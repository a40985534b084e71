(** Proofs about the moving weighted median with doubles: any finite data and weights, in two dimensions. *)
From Coq Require Import List ZArith Reals Bool Arith Permutation Lia.
From Verif Require Import PyBase MedModel MedSpec MedProofs MedProofs2 MedProofs3 MedProofs4 TruncModel TruncSpec BtModel BtSpec InvModel TfModel GqModel GqSpec GqProofs GqProofs2 GqProofs3 FtModel FtSpec FtProofs FtProofs2 FtProofs3 FtProofs4.
Import ListNotations.
Open Scope Z_scope.

Lemma shape_perm nan m w w' v : Permutation w w' -> shape_cell nan m w v -> shape_cell nan m w' v.
Proof.
  intros Q [A B]. pose proof (weighty_perm _ _ Q) as R. split.
  - intro N. destruct A as (vals & -> & V & L & F).
    + intro E0. rewrite E0 in R. apply N. exact (Permutation_nil R).
    + exists vals. split; [reflexivity|]. split; [exact V|]. split; [exact L|]. eapply Forall_impl; [|exact F].
      intros x (d & D & U). exists d. split; [|exact U]. eapply Permutation_in; [exact R|exact D].
  - intro E0. apply B. rewrite E0 in R. exact (Permutation_nil (Permutation_sym R)).
Qed.
Lemma res_map_shape A B (f : A -> res B) (P : A -> B -> Prop) l :
  (forall x, In x l -> match f x with Ok y => P x y | Err e => e = OtherException end) ->
  match res_map f l with Ok ys => Forall2 P l ys | Err e => e = OtherException end.
Proof.
  induction l as [|x l IH]; intro H; cbn [res_map]; [constructor|].
  pose proof (H x (or_introl eq_refl)) as K. destruct (f x) as [y|]; cbn [rbind]; [|exact K].
  specialize (IH (fun z Z => H z (or_intror Z))). destruct (res_map f l); cbn [rbind]; [|exact IH]. constructor; assumption.
Qed.
Lemma forall2_seq B (P : nat -> B -> Prop) n ys : Forall2 P (seq 0 n) ys ->
  length ys = n /\ forall x y, nth_error ys x = Some y -> P x y.
Proof.
  assert (G : forall k n ys, Forall2 P (seq k n) ys -> length ys = n /\ forall x y, nth_error ys x = Some y -> P (k + x)%nat y).
  { clear. intros k n. revert k. induction n as [|n IH]; intros k ys H; inversion H; subst.
    - split; [reflexivity|]. intros [|x] y E0; discriminate.
    - match goal with H : Forall2 _ (seq _ _) _ |- _ => destruct (IH _ _ H) as [L K] end. split; [cbn; congruence|].
      intros [|x] y' E0; cbn [nth_error] in E0.
      + injection E0 as <-. rewrite Nat.add_0_r. assumption.
      + replace (k + S x)%nat with (S k + x)%nat by lia. apply K. exact E0. }
  intro H. exact (G 0%nat n ys H).
Qed.
Lemma lslice_R0 fl l a b : Forall2 R0 fl l -> Forall2 R0 (lslice a b fl) (lslice a b l).
Proof.
  intro H. unfold lslice. revert a. assert (F : forall n x y, Forall2 R0 x y -> Forall2 R0 (firstn n x) (firstn n y)).
  { intros n x y Q. revert n. induction Q; intros [|n]; cbn; constructor; auto. }
  intro a. apply F. revert a. induction H; intros [|a]; cbn [skipn]; try constructor; auto.
Qed.
Lemma mwm_2D_shape : forall m fdata data len_x sy sx, Forall2 (Forall2 R0) fdata data -> rect data len_x -> data <> [] ->
  match fmwm_2D fdata len_x sy sx m with
  | Ok cols => length cols = len_x /\ forall x col, nth_error cols x = Some col -> length col = length data /\
      forall y v, nth_error col y = Some v -> shape_cell false m (window2 data (sy / 2) (sx / 2) y x) v
  | Err e => e = OtherException
  end.
Proof.
  intros m fdata data len_x sy sx H Hr Hne. unfold fmwm_2D.
  pose proof (res_map_shape _ _ (fun col => fmwm_2D_col fdata len_x sy sx col m) (fun x col => length col = length data /\
    forall y v, nth_error col y = Some v -> shape_cell false m (window2 data (sy / 2) (sx / 2) y x) v) (seq 0 len_x)) as P.
  assert (K : forall x, In x (seq 0 len_x) -> match fmwm_2D_col fdata len_x sy sx x m with Ok col => length col = length data /\
    (forall y v, nth_error col y = Some v -> shape_cell false m (window2 data (sy / 2) (sx / 2) y x) v) | Err e => e = OtherException end).
  { intros x Hx. apply in_seq in Hx. unfold fmwm_2D_col. set (up := (x - sx / 2)%nat). set (lo := Nat.min (x + sx / 2 + 1) len_x).
    assert (Hsl : forall row, In row data -> lslice up lo row = lslice (x - sx / 2) (x + sx / 2 + 1) row).
    { intros row Hin. unfold rect in Hr. rewrite Forall_forall in Hr. specialize (Hr row Hin).
      subst lo up. rewrite <- Hr. apply lslice_clip. }
    assert (Hwin : forall y, window_rows (map (lslice up lo) data) (sy / 2) y = window2 data (sy / 2) (sx / 2) y x).
    { intro y. unfold window_rows, window2. rewrite lslice_map. f_equal. apply map_ext_in.
      intros row Hin. apply Hsl. eapply in_lslice; eauto. }
    assert (H1 : Forall2 (Forall2 R0) (map (lslice up lo) fdata) (map (lslice up lo) data)).
    { clear - H. induction H; cbn [map]; constructor; auto. now apply lslice_R0. }
    assert (H2 : Forall (fun r : list datum => length r = (lo - up)%nat) (map (lslice up lo) data)).
    { apply Forall_forall. intros r Hin. apply in_map_iff in Hin as (row & <- & Hin).
      rewrite length_lslice. unfold rect in Hr. rewrite Forall_forall in Hr. rewrite (Hr row Hin). subst lo up. lia. }
    pose proof (shape_rows m _ _ (sy / 2) (lo - up) H1 H2 false ltac:(destruct data; [congruence|discriminate])) as Q.
    destruct (fmwm_rows _ _ _ _ _) as [col|]; [|exact Q]. destruct Q as [Q1 Q2]. rewrite map_length in Q1. split; [exact Q1|].
    intros y v Hv. specialize (Q2 y v Hv). rewrite Hwin in Q2. destruct (y =? 0)%nat; exact Q2. }
  specialize (P K). destruct (res_map _ _) as [cols|]; [|exact P]. apply forall2_seq in P. exact P.
Qed.
Theorem moving_2d_shape : forall fdata data len_x sy sx m, Forall2 (Row Units) fdata data -> data <> [] -> (0 < len_x)%nat -> rect data len_x ->
  Nat.odd sy = true -> Nat.odd sx = true ->
  match fmoving_2d fdata len_x sy sx m with
  | Ok rows => length rows = length data /\ forall y row, nth_error rows y = Some row -> length row = len_x /\
      forall x v, nth_error row x = Some v -> shape_cell false m (window2 data (sy / 2) (sx / 2) y x) v
  | Err e => e = OtherException
  end.
Proof.
  intros fdata data len_x sy sx m H Hne Hx0 Hr Hoy Hox. unfold fmoving_2d. rewrite <- !Nat.negb_odd, Hoy, Hox. cbn [negb orb].
  assert (H0 : Forall2 (Forall2 R0) fdata data) by exact H. assert (El : @length (list fdatum) fdata = length data) by (eapply forall2_length; exact H). rewrite El.
  destruct (sy <? sx)%nat.
  - pose proof (mwm_2D_shape m (transpose (0, 0) len_x fdata) (transpose (0, 0) len_x data) (length data) sx sy) as P.
    specialize (P (transpose_sim _ _ R0 _ _ _ _ _ R0_dummy H0) (rect_transpose data len_x)).
    specialize (P ltac:(intro E0; apply (f_equal (@length _)) in E0; rewrite length_transpose in E0; cbn in E0; lia)).
    destruct (fmwm_2D _ _ _ _ _) as [cols|]; [|exact P]. destruct P as [P1 P2]. split; [exact P1|]. intros y row Hy.
    destruct (P2 y row Hy) as [L1 O1]. rewrite length_transpose in L1. split; [exact L1|].
    intros x v Hv. eapply shape_perm; [apply window2_transpose; exact Hr|]. now apply O1.
  - pose proof (mwm_2D_shape m fdata data len_x sy sx H0 Hr Hne) as P. destruct (fmwm_2D _ _ _ _ _) as [cols|]; cbn [rbind]; [|exact P].
    destruct P as [P1 P2]. split; [apply length_transpose|]. intros y row Hy.
    assert (Hyl : (y < length data)%nat).
    { rewrite <- (length_transpose _ (@None (list Z)) (length data) cols). apply nth_error_Some. congruence. }
    unfold transpose in Hy. rewrite nth_error_map in Hy.
    destruct (nth_error (seq 0 (length data)) y) as [y'|] eqn:Ey; [|discriminate].
    apply nth_error_seq in Ey as [-> _]. cbn in Hy. injection Hy as <-.
    split; [now rewrite map_length|]. intros x v Hv. rewrite nth_error_map in Hv.
    destruct (nth_error cols x) as [col|] eqn:Ec; [|discriminate]. cbn in Hv. injection Hv as <-.
    destruct (P2 x col Ec) as [L1 O1]. apply O1. apply nth_error_nth'. lia.
Qed.
