(** [invert_no_zero]: C71 (its part) and C72. *)
From Coq Require Import List Bool Arith ZArith Lia Permutation SpecFloat.
From Verif Require Import PyBase RedModel RedSpec ArrModel ArrSpec ArrProofs.
Import ListNotations.
Open Scope nat_scope.

(** Memory in which every address holds itself, the "inverse" is the negative. *)
Definition mem0 : mem Z := fun a => a.
Definition show (r : res (view * mem Z)) (idx : list (list nat)) : list Z := match r with Ok (v, m) => map (fun i => m (addr v i)) idx | Err _ => [] end.
Definition idx23 : list (list nat) := [[0;0];[0;1];[0;2];[1;0];[1;1];[1;2]].
Definition c23 : view := mkview [2;3] [3;1]%Z 0.
Definition f23 : view := mkview [2;3] [1;2]%Z 0.
Definition c23b : view := mkview [2;3] [3;1]%Z 100.
Definition f23b : view := mkview [2;3] [1;2]%Z 100.
Definition strided : view := mkview [2;3] [12;2]%Z 100.
Definition ord6 : list nat := [3;1;0;5;2;4].

(** C72: the same layout class, [out] contiguous; [out] may be [x]. *)
Theorem C72_elementwise_partial : forall V (inv : V -> V) m x out base order, WellFormed x -> WellFormed out -> v_shape x = v_shape out ->
  is_fortran x = is_fortran out -> (f_contiguous out = true \/ c_contiguous out = true) -> Compatible x out -> Permutation order (seq 0 (count (v_shape x))) ->
  exists m', invert_no_zero inv m (FloatArray x) (Some out) base order = Ok (out, m') /\ Elementwise inv m m' x out /\ Untouched m m' out.
Proof.
  intros V inv m x out base order Wx Wo S F C D P. cbn [invert_no_zero]. unfold shape_eqb. destruct (list_eq_dec Nat.eq_dec (v_shape x) (v_shape out)) as [_|N]; [|contradiction].
  eexists. split; [reflexivity|]. apply invert_ok; auto. unfold contig, is_fortran. destruct C as [C|C]; rewrite C.
  - cbn [andb]. destruct (c_contiguous out) eqn:E; cbn; auto.
  - rewrite andb_false_r. auto.
Qed.
Print Assumptions C72_elementwise_partial.
Example C72_in_place : show (invert_no_zero Z.opp mem0 (FloatArray f23) (Some f23) 0 ord6) idx23 = [0;-2;-4;-1;-3;-5]%Z. Proof. reflexivity. Qed.
Example C72_strided_x : show (invert_no_zero Z.opp mem0 (FloatArray strided) (Some c23) 0 ord6) idx23 = [-100;-102;-104;-112;-114;-116]%Z. Proof. reflexivity. Qed.

(** Without [out] every layout is right, and Fortran arrays give Fortran arrays. *)
Theorem C72_new_array : forall V (inv : V -> V) m x base order, WellFormed x -> Fresh x base -> Permutation order (seq 0 (count (v_shape x))) ->
  exists r m', invert_no_zero inv m (FloatArray x) None base order = Ok (r, m') /\ WellFormed r /\ v_shape r = v_shape x /\ is_fortran r = is_fortran x /\ (f_contiguous r = true \/ c_contiguous r = true) /\
    Elementwise inv m m' x r /\ Untouched m m' r /\ (forall i, InShape i (v_shape r) -> base <= addr r i < base + Z.of_nat (count (v_shape x)))%Z.
Proof.
  intros V inv m x base order W Fr P. cbn [invert_no_zero]. set (r := empty_like x base). exists r. eexists. split; [reflexivity|].
  assert (Wr : WellFormed r) by apply new_view_wf. assert (Fo : is_fortran r = is_fortran x) by now apply is_fortran_new.
  assert (Cr : contig (is_fortran r) r = true) by (rewrite Fo; unfold r, empty_like; apply new_view_contig).
  assert (B : forall i, InShape i (v_shape r) -> (base <= addr r i < base + Z.of_nat (count (v_shape x)))%Z).
  { intros i Hi. rewrite (contig_addr _ r i Wr Cr Hi). change (v_off r) with base. change (v_shape r) with (v_shape x) in *. pose proof (pos_lt (is_fortran r) (v_shape x) i Hi). lia. }
  destruct (invert_ok inv m x r order) as [E U]; auto.
  { intros i j Hi Hj _ K. specialize (Fr i Hi). specialize (B j Hj). lia. }
  repeat (split; [assumption || reflexivity|]). split; [|auto]. unfold contig in Cr. destruct (is_fortran r); auto.
Qed.
Print Assumptions C72_new_array.
Example C72_new_array_used : show (invert_no_zero Z.opp mem0 (FloatArray f23) None 50 ord6) idx23 = [0;-2;-4;-1;-3;-5]%Z /\
  show (invert_no_zero Z.opp mem0 (FloatArray strided) None 50 ord6) idx23 = [-100;-102;-104;-112;-114;-116]%Z. Proof. split; reflexivity. Qed.

(** Integers give a new array. *)
Lemma fold_update : forall V (f : nat -> V) base order m0, NoDup order ->
  let m' := fold_left (fun m' k => update m' (base + Z.of_nat k)%Z (f k)) order m0 in
  (forall k, In k order -> m' (base + Z.of_nat k)%Z = f k) /\ (forall a, (forall k, In k order -> (base + Z.of_nat k)%Z <> a) -> m' a = m0 a).
Proof.
  intros V f base order m0 N. revert m0. induction N as [|k order I N IH]; intros m0 m'; cbn [fold_left] in m'; [split; [intros k []|reflexivity]|].
  destruct (IH (update m0 (base + Z.of_nat k)%Z (f k))) as [A B]. fold m' in A, B. split.
  - intros j [<-|J]; [|now apply A]. rewrite B; [unfold update; now rewrite Z.eqb_refl|]. intros j J E. apply I. now replace k with j by lia.
  - intros a H. rewrite B by (intros j J; apply H; now right). unfold update. destruct (Z.eqb_spec a (base + Z.of_nat k)) as [->|E]; [|reflexivity]. elim (H k); [now left|reflexivity].
Qed.
Theorem C72_integers : forall V (inv : V -> V) m x out base order, WellFormed x -> Permutation order (seq 0 (count (v_shape x))) ->
  exists r m', invert_no_zero inv m (IntArray x) out base order = Ok (r, m') /\ v_shape r = v_shape x /\ Elementwise inv m m' x r /\ Untouched m m' r.
Proof.
  intros V inv m x out base order W P. cbn [invert_no_zero]. set (r := new_view false (v_shape x) base). exists r. eexists. split; [reflexivity|]. split; [reflexivity|].
  assert (N : NoDup order) by (apply (Permutation_NoDup (Permutation_sym P)), seq_NoDup).
  assert (Wr : WellFormed r) by apply new_view_wf. assert (Cr : contig false r = true) by apply new_view_contig.
  destruct (fold_update V (fun k => inv (m (addr x (unravel_c (v_shape x) k)))) base order m N) as [A B]. split.
  - intros i Hi. rewrite (contig_addr false r i Wr Cr Hi). change (v_off r) with base. change (v_shape r) with (v_shape x). rewrite A.
    + f_equal. f_equal. f_equal. exact (unravel_pos false (v_shape x) i Hi).
    + apply (Permutation_in _ (Permutation_sym P)), in_seq. pose proof (pos_lt false (v_shape x) i Hi). lia.
  - intros a Ha. apply B. intros k Ik. apply (Permutation_in k P), in_seq in Ik. destruct (unravel_in false (v_shape x) k ltac:(lia)) as [I1 I2]. rewrite <- I2.
    specialize (Ha _ I1). rewrite (contig_addr false r _ Wr Cr I1) in Ha. exact Ha.
Qed.
Print Assumptions C72_integers.
Example C72_integers_used : show (invert_no_zero Z.opp mem0 (IntArray f23) None 50 ord6) idx23 = [0;-2;-4;-1;-3;-5]%Z. Proof. reflexivity. Qed.

(** The schedule of the parallel loop does not matter, right or wrong, if [x] and
    [out] share no memory. *)
Theorem C72_any_schedule : forall V (inv : V -> V) m x out base o1 o2, WellFormed x -> WellFormed out -> v_shape x = v_shape out -> Disjoint x out ->
  Permutation o1 (seq 0 (count (v_shape x))) -> Permutation o2 (seq 0 (count (v_shape x))) ->
  exists m1 m2, invert_no_zero inv m (FloatArray x) (Some out) base o1 = Ok (out, m1) /\ invert_no_zero inv m (FloatArray x) (Some out) base o2 = Ok (out, m2) /\ forall a, m1 a = m2 a.
Proof.
  intros V inv m x out base o1 o2 Wx Wo S D P1 P2. cbn [invert_no_zero]. unfold shape_eqb. destruct (list_eq_dec Nat.eq_dec (v_shape x) (v_shape out)) as [_|N]; [|contradiction].
  eexists. eexists. split; [reflexivity|]. split; [reflexivity|]. unfold invert_into. set (src := ravel_a m x).
  assert (Q : ravel_a m out = Window (v_off out) /\ contig (is_fortran out) out = true \/ exists l, ravel_a m out = Copied l).
  { unfold ravel_a, ravel, contig. destruct (if is_fortran out then f_contiguous out else c_contiguous out); eauto. }
  destruct Q as [[Q C]|[l Q]]; rewrite Q; [|intros a; now rewrite !loop_copied].
  assert (H : forall o, Permutation o (seq 0 (count (v_shape x))) -> NoDup o /\ (forall k, In k o <-> k < count (v_shape x)) /\
    forall a i j, src = Window a -> In i o -> In j o -> i <> j -> (a + Z.of_nat i <> v_off out + Z.of_nat j)%Z).
  { intros o P. assert (InO : forall k, In k o <-> k < count (v_shape x)).
    { intros k. split; intros H; [apply (Permutation_in k P), in_seq in H; lia|apply (Permutation_in k (Permutation_sym P)), in_seq; lia]. }
    split; [apply (Permutation_NoDup (Permutation_sym P)), seq_NoDup|]. split; [exact InO|]. intros a i j E Ii Ij _ K. apply InO in Ii, Ij.
    unfold src, ravel_a, ravel in E. destruct (if is_fortran x then f_contiguous x else c_contiguous x) eqn:Cx; [|discriminate]. injection E as <-.
    destruct (unravel_in (is_fortran x) (v_shape x) i Ii) as [I1 I2]. rewrite S in Ij. destruct (unravel_in (is_fortran out) (v_shape out) j Ij) as [J1 J2].
    apply (D _ _ I1 J1). rewrite (contig_addr _ x _ Wx Cx I1), (contig_addr _ out _ Wo C J1), I2, J2. exact K. }
  destruct (H o1 P1) as (N1 & I1 & K1). destruct (H o2 P2) as (N2 & I2 & K2).
  destruct (loop_window inv o1 m src (v_off out) N1 K1) as [A1 B1]. destruct (loop_window inv o2 m src (v_off out) N2 K2) as [A2 B2]. intros a.
  destruct (Z_lt_dec a (v_off out)) as [La|La].
  - rewrite B1, B2 by (intros; lia). reflexivity.
  - destruct (lt_dec (Z.to_nat (a - v_off out)) (count (v_shape x))) as [L|L].
    + replace a with (v_off out + Z.of_nat (Z.to_nat (a - v_off out)))%Z by lia. rewrite A1 by now apply I1. rewrite A2 by now apply I2. reflexivity.
    + rewrite B1, B2; [reflexivity| |]; intros k Ik E; [apply I2 in Ik|apply I1 in Ik]; lia.
Qed.
Print Assumptions C72_any_schedule.
Example C72_any_schedule_used : Permutation ord6 (seq 0 6) /\ show (invert_no_zero Z.opp mem0 (FloatArray f23) (Some f23b) 0 ord6) idx23 = show (invert_no_zero Z.opp mem0 (FloatArray f23) (Some f23b) 0 (seq 0 6)) idx23.
Proof. split; [|reflexivity]. apply NoDup_Permutation_bis; [repeat constructor; cbn; intuition discriminate|cbn; lia|]. intros k H. cbn in H. apply in_seq. lia. Qed.

(** Shapes must agree. *)
Theorem C72_shapes : forall V (inv : V -> V) m x out base order, v_shape x <> v_shape out -> invert_no_zero inv m (FloatArray x) (Some out) base order = Err ValueError.
Proof. intros V inv m x out base order N. cbn [invert_no_zero]. unfold shape_eqb. destruct (list_eq_dec Nat.eq_dec (v_shape x) (v_shape out)); [contradiction|reflexivity]. Qed.
Print Assumptions C72_shapes.
Example C72_shapes_used : invert_no_zero Z.opp mem0 (FloatArray c23) (Some (mkview [3;2] [2;1]%Z 0)) 0 ord6 = Err ValueError. Proof. reflexivity. Qed.

(** Not so for a Fortran array and a C ordered [out]: the values are scrambled. *)
Theorem C72_mixed_layouts_refuted : exists m x out base order m', WellFormed x /\ WellFormed out /\ v_shape x = v_shape out /\ Disjoint x out /\ f_contiguous x = true /\ c_contiguous out = true /\
  Permutation order (seq 0 (count (v_shape x))) /\ invert_no_zero Z.opp m (FloatArray x) (Some out) base order = Ok (out, m') /\ ~ Elementwise Z.opp m m' x out.
Proof.
  exists mem0, f23, c23b, 0%Z, (seq 0 6). eexists. repeat (split; [reflexivity|]). split.
  { intros i j Hi Hj. inversion Hi as [|a b l l' A B]; subst. inversion B as [|a' b' m m' A' B']; subst. inversion B'; subst.
    inversion Hj as [|c d k k' C D]; subst. inversion D as [|c' d' n n' C' D']; subst. inversion D'; subst. unfold addr. cbn [dot v_strides v_off f23 c23b]. lia. }
  repeat (split; [reflexivity|]). intros H. specialize (H [0;1] ltac:(repeat constructor)). cbv in H. discriminate.
Qed.
Print Assumptions C72_mixed_layouts_refuted.

(** Lists are documented as inputs, but are not accepted. *)
Theorem C72_lists_refuted : exists m out base order, invert_no_zero Z.opp m NotArray out base order = Err TypeError.
Proof. now exists mem0, None, 0%Z, []. Qed.
Print Assumptions C72_lists_refuted.

(** * Values *)
(** Zeros give zero, infinities give a zero of their sign, NaN stays. *)
Theorem C72_special_values : (forall s, inv64 (S754_zero s) = S754_zero false) /\ (forall s, inv64 (S754_infinity s) = S754_zero s) /\ inv64 S754_nan = S754_nan.
Proof. repeat split; intros; try destruct s; reflexivity. Qed.
Print Assumptions C72_special_values.
(** Any number that is not below the threshold is divided. *)
Theorem C72_divides : forall x, SFltb (SFabs x) thresh = false -> inv64 x = SFdiv 53 1024 one64 x.
Proof. intros x H. unfold inv64. now rewrite H. Qed.
Print Assumptions C72_divides.
Example C72_half : inv64 (S754_finite false 4503599627370496 (-51)) = S754_finite false 4503599627370496 (-53). Proof. vm_compute. reflexivity. Qed.
(** But some numbers that are not zero give zero instead of their inverse, which
    overflows, and others overflow. *)
Theorem C72_small_numbers_refuted : exists x y, x <> S754_zero false /\ valid_binary 53 1024 x = true /\ inv64 x = S754_zero false /\
  SFdiv 53 1024 one64 x = S754_infinity false /\ valid_binary 53 1024 y = true /\ inv64 y = S754_infinity false.
Proof. exists (S754_finite false 1 (-1074)), (S754_finite false 1125899906842624 (-1074)). repeat split; try discriminate; vm_compute; reflexivity. Qed.
Print Assumptions C72_small_numbers_refuted.

(** * C71: the array passed as [out] holds the result *)
Theorem C71_invert_out_partial : forall V (inv : V -> V) m x out base order, WellFormed x -> WellFormed out -> v_shape x = v_shape out ->
  is_fortran x = is_fortran out -> (f_contiguous out = true \/ c_contiguous out = true) -> Compatible x out -> Permutation order (seq 0 (count (v_shape x))) ->
  exists m', invert_no_zero inv m (FloatArray x) (Some out) base order = Ok (out, m') /\ forall idx, InShape idx (v_shape x) -> m' (addr out idx) = inv (m (addr x idx)).
Proof. intros V inv m x out base order Wx Wo S F C D P. destruct (C72_elementwise_partial V inv m x out base order Wx Wo S F C D P) as (m' & A & B & _). exists m'. auto. Qed.
Print Assumptions C71_invert_out_partial.
(** An [out] that is not contiguous is returned as it was, whatever [x] is. *)
Theorem C71_invert_strided : forall V (inv : V -> V) m x out base order, v_shape x = v_shape out -> c_contiguous out = false -> f_contiguous out = false ->
  invert_no_zero inv m (FloatArray x) (Some out) base order = Ok (out, m).
Proof.
  intros V inv m x out base order S C F. cbn [invert_no_zero]. unfold shape_eqb. destruct (list_eq_dec Nat.eq_dec (v_shape x) (v_shape out)) as [_|N]; [|contradiction].
  unfold invert_into. replace (ravel_a m out) with (Copied (fun k => m (addr out (unravel false (v_shape out) k)))); [now rewrite loop_copied|]. unfold ravel_a, ravel, is_fortran. rewrite F. cbn [andb]. now rewrite C.
Qed.
Print Assumptions C71_invert_strided.
Example C71_invert_strided_used : show (invert_no_zero Z.opp mem0 (FloatArray c23) (Some strided) 0 ord6) idx23 = [100;102;104;112;114;116]%Z. Proof. reflexivity. Qed.
Theorem C71_invert_strided_refuted : exists m x out base order m', WellFormed x /\ WellFormed out /\ v_shape x = v_shape out /\ Permutation order (seq 0 (count (v_shape x))) /\
  invert_no_zero Z.opp m (FloatArray x) (Some out) base order = Ok (out, m') /\ exists idx, InShape idx (v_shape x) /\ m' (addr out idx) <> Z.opp (m (addr x idx)).
Proof.
  exists mem0, c23, strided, 0%Z, (seq 0 6). eexists. repeat (split; [reflexivity || apply Permutation_refl|]). exists [0;0]. split; [repeat constructor|]. cbv. discriminate.
Qed.
Print Assumptions C71_invert_strided_refuted.
(** Integers: [out] is not used. *)
Theorem C71_invert_integers_refuted : exists m x out base order r m', v_shape x = v_shape out /\ invert_no_zero Z.opp m (IntArray x) (Some out) base order = Ok (r, m') /\ r <> out /\
  exists idx, InShape idx (v_shape x) /\ m' (addr out idx) <> Z.opp (m (addr x idx)).
Proof.
  exists mem0, c23, c23b, 50%Z, (seq 0 6). eexists. eexists. split; [reflexivity|]. split; [reflexivity|]. split; [discriminate|]. exists [0;0]. split; [repeat constructor|]. cbv. discriminate.
Qed.
Print Assumptions C71_invert_integers_refuted.
