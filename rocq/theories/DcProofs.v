From Coq Require Import List Bool Reals ZArith Arith Lia Lra Permutation.
From Verif Require Import PyBase FftModel FftProofs PfbModel PfbSpec PfbProofs PfbProofs2 DcModel.
Import ListNotations.
Open Scope R_scope.

(** * Sorting *)
Fixpoint Rising (l : list (R * R)) : Prop :=
  match l with [] => True | p :: r => (forall q, In q r -> fst p < fst q) /\ Rising r end.
Fixpoint Upward (l : list (R * R)) : Prop :=
  match l with [] => True | p :: r => (forall q, In q r -> fst p <= fst q) /\ Upward r end.
Lemma insert_perm p l : Permutation (p :: l) (insert p l).
Proof.
  induction l as [|q l IH]; cbn; [apply Permutation_refl|]. destruct (Rle_dec (fst p) (fst q)); [apply Permutation_refl|].
  eapply perm_trans; [apply perm_swap|]. now constructor.
Qed.
Lemma sort_perm l : Permutation l (sort l).
Proof. induction l as [|p l IH]; cbn; [constructor|]. eapply perm_trans; [constructor; exact IH|apply insert_perm]. Qed.
Lemma insert_up p l : Upward l -> Upward (insert p l).
Proof.
  induction l as [|q l IH]; cbn; [intros _; now split|]. intros [A B]. destruct (Rle_dec (fst p) (fst q)) as [L|L]; cbn.
  - split; [|now split]. intros x [<-|I]; [exact L|]. specialize (A x I). lra.
  - split; [|now apply IH]. intros x I. apply (Permutation_in _ (Permutation_sym (insert_perm p l))) in I as [<-|I]; [lra|now apply A].
Qed.
Lemma sort_up l : Upward (sort l).
Proof. induction l as [|p l IH]; cbn; [exact I|]. now apply insert_up. Qed.
Lemma up_unique l m : Rising m -> Upward l -> Permutation l m -> l = m.
Proof.
  revert l. induction m as [|q m IH]; intros l Rm Ul P.
  - apply Permutation_sym, Permutation_nil in P. exact P.
  - destruct l as [|p l]; [apply Permutation_nil in P; discriminate|]. destruct Rm as [R1 R2], Ul as [U1 U2].
    assert (p = q).
    { assert (Ip : In p (q :: m)) by (apply (Permutation_in _ P); now left). destruct Ip as [E|Ip]; [now symmetry|].
      assert (Iq : In q (p :: l)) by (apply (Permutation_in _ (Permutation_sym P)); now left). destruct Iq as [E|Iq]; [exact E|].
      specialize (R1 p Ip). specialize (U1 q Iq). lra. }
    subst q. f_equal. apply IH; auto. now apply Permutation_cons_inv in P.
Qed.
Lemma sort_is l m : Rising m -> Permutation l m -> sort l = m.
Proof. intros Rm P. apply up_unique; [exact Rm|apply sort_up|]. eapply perm_trans; [apply Permutation_sym, sort_perm|exact P]. Qed.

(** * Equally spaced nodes *)
Section Nodes.
Variable c : R.
Variable g : R.
Hypothesis gpos : 0 < g.
Variable y : nat -> R.
Definition node (i : nat) : R * R := ((INR i - c) / g, y i).
Lemma node_lt i j : (i < j)%nat -> fst (node i) < fst (node j).
Proof. intros L. cbn. apply lt_INR in L. apply Rmult_lt_compat_r; [now apply Rinv_0_lt_compat|lra]. Qed.
Lemma nodes_rising s n : Rising (map node (seq s n)).
Proof.
  revert s. induction n as [|n IH]; intros s; cbn [seq map Rising]; [exact I|]. split; [|apply IH].
  intros q I. apply in_map_iff in I as (i & <- & I). apply in_seq in I. apply node_lt. lia.
Qed.
Lemma segment_at fill s n i th : (s <= i)%nat -> (S i < s + n)%nat -> 0 <= th <= 1 ->
  (0 < th \/ i = s) ->
  segment fill (map node (seq s n)) ((INR i + th - c) / g) = (1 - th) * y i + th * y (S i).
Proof.
  intros A B T T0. revert s A B T0. induction n as [|n IH]; intros s A B T0; [lia|].
  destruct n as [|n]; [lia|]. cbn [seq map]. unfold node at 1 2. cbn [segment].
  assert (NZ : g <> 0) by lra.
  destruct (Rle_dec ((INR i + th - c) / g) ((INR (S s) - c) / g)) as [L|L].
  - assert (L' : INR i + th <= INR (S s)).
    { apply (Rmult_le_compat_r g) in L; [|lra]. unfold Rdiv in L. rewrite !Rmult_assoc, Rinv_l, !Rmult_1_r in L by lra. lra. }
    assert (i = s).
    { destruct T0 as [T0|T0]; [|exact T0]. destruct (Nat.eq_dec i s) as [E|E]; [exact E|]. assert (S s <= i)%nat as K by lia. apply le_INR in K. lra. }
    subst i. rewrite S_INR. field. split; lra.
  - assert (s < i)%nat.
    { destruct (Nat.eq_dec i s) as [->|E]; [|lia]. exfalso. apply L. rewrite S_INR. apply Rmult_le_compat_r; [left; now apply Rinv_0_lt_compat|lra]. }
    change ((INR (S s) - c) / g, y (S s)) with (node (S s)). change (node (S s) :: map node (seq (S (S s)) n)) with (map node (seq (S s) (S n))).
    apply IH; [lia|lia|]. destruct T0 as [T0|T0]; [now left|lia].
Qed.
Lemma segment_beyond fill s n x : (forall i, (s <= i < s + n)%nat -> fst (node i) < x) -> segment fill (map node (seq s n)) x = fill.
Proof.
  revert s. induction n as [|n IH]; intros s H; [reflexivity|]. destruct n as [|n]; [reflexivity|].
  cbn [seq map]. unfold node at 1 2. cbn [segment]. specialize (H (S s) ltac:(lia)) as H1. cbn [fst node] in H1.
  destruct (Rle_dec x ((INR (S s) - c) / g)); [lra|]. change ((INR (S s) - c) / g, y (S s)) with (node (S s)).
  change (node (S s) :: map node (seq (S (S s)) n)) with (map node (seq (S s) (S n))). apply IH. intros i Hi. apply H. lia.
Qed.
(** Between two nodes *)
Lemma interp_between fill l n i th : Permutation l (map node (seq 0 n)) -> (S i < n)%nat -> 0 <= th <= 1 ->
  interp1d fill l ((INR i + th - c) / g) = (1 - th) * y i + th * y (S i).
Proof.
  intros P B T. unfold interp1d. rewrite (sort_is _ _ (nodes_rising 0 n) P).
  destruct n as [|n]; [lia|]. cbn [seq map]. destruct (Rlt_dec _ _) as [L|L].
  - exfalso. cbn [node fst INR] in L. pose proof (pos_INR i). apply (Rmult_lt_compat_r g) in L; [|lra].
    unfold Rdiv in L. rewrite !Rmult_assoc, Rinv_l, !Rmult_1_r in L by lra. lra.
  - change (node 0 :: map node (seq 1 n)) with (map node (seq 0 (S n))).
    destruct (Req_dec th 0) as [->|T0].
    + destruct i as [|i]; [apply segment_at; [lia|lia|lra|now right]|].
      replace (INR (S i) + 0 - c) with (INR i + 1 - c) by (rewrite S_INR; lra). rewrite segment_at; [lra|lia|lia|lra|left; lra].
    + apply segment_at; [lia|lia|lra|left; lra].
Qed.
Lemma interp_outside fill l n x : Permutation l (map node (seq 0 n)) -> (0 < n)%nat ->
  x < fst (node 0) \/ fst (node (n - 1)) < x -> interp1d fill l x = fill.
Proof.
  intros P B O. unfold interp1d. rewrite (sort_is _ _ (nodes_rising 0 n) P).
  destruct n as [|n]; [lia|]. cbn [seq map]. destruct (Rlt_dec x (fst (node 0))) as [L|L]; [reflexivity|].
  destruct O as [O|O]; [lra|]. change (node 0 :: map node (seq 1 n)) with (map node (seq 0 (S n))). apply segment_beyond.
  intros i Hi. replace (S n - 1)%nat with n in O by lia. destruct (Nat.eq_dec i n) as [->|E]; [exact O|].
  pose proof (node_lt i n ltac:(lia)). lra.
Qed.
End Nodes.

(** * The nodes of the decorrelation *)
Section Ratio.
Variables (ntap lblock os : nat) (w : nat -> R).
Let N := (ntap * lblock)%nat.
Let n := npad ntap lblock os.
Hypothesis Npos : (0 < N)%nat.
Hypothesis Opos : (0 < os)%nat.
Variable h : nat.
Hypothesis Nh : n = (h + h)%nat.
(** How many nodes there are before and after zero *)
Definition lo : nat := Nat.min (N * os) h.
Definition hi : nat := Nat.min (N * os) (h - 1).
Lemma n_eq : n = (N * os * os)%nat.
Proof. unfold n, npad. fold N. cbn. lia. Qed.
Lemma h_pos : (0 < h)%nat.
Proof. pose proof n_eq. assert (0 < N * os * os)%nat by (repeat apply Nat.mul_pos_pos; lia). lia. Qed.
Lemma tau_is k : (k < n)%nat -> tau ntap lblock os k = (if (k <? h)%nat then INR k else INR k - INR n) / INR os.
Proof.
  intros K. pose proof h_pos as Hp. unfold tau, fftfreq. fold N. fold n. replace ((n - 1) / 2 + 1)%nat with h.
  - assert (E : INR n * (1 / INR (N * os)) = INR os).
    { rewrite n_eq. rewrite (mult_INR (N * os)). field. apply not_0_INR. nia. }
    now rewrite E.
  - rewrite Nh. replace (h + h - 1)%nat with (1 + (h - 1) * 2)%nat by lia. rewrite Nat.div_add by lia. cbn. lia.
Qed.
Lemma near_is k : (k < n)%nat -> near ntap lblock os k = ((k <=? hi) || (n - lo <=? k))%nat.
Proof.
  intros K. pose proof h_pos as Hp. unfold near. fold N. rewrite tau_is by assumption.
  assert (Og : 0 < INR os) by (apply lt_0_INR; lia).
  assert (D : forall x, Rabs (x / INR os) <= INR N <-> Rabs x <= INR (N * os)).
  { intros x. unfold Rdiv. rewrite Rabs_mult, (Rabs_right (/ INR os)) by (left; now apply Rinv_0_lt_compat). rewrite mult_INR. split; intros Q.
    - apply (Rmult_le_compat_r (INR os)) in Q; [|lra]. rewrite Rmult_assoc, Rinv_l, Rmult_1_r in Q by lra. exact Q.
    - apply (Rmult_le_reg_r (INR os)); [lra|]. rewrite Rmult_assoc, Rinv_l, Rmult_1_r by lra. exact Q. }
  destruct (Rle_dec (Rabs ((if (k <? h)%nat then INR k else INR k - INR n) / INR os)) (INR N)) as [Q|Q]; symmetry.
  - apply D in Q. apply orb_true_iff. rewrite !Nat.leb_le. destruct (Nat.ltb_spec k h) as [Kh|Kh].
    + rewrite Rabs_right in Q by (apply Rle_ge, pos_INR). apply INR_le in Q. left. unfold hi. lia.
    + rewrite Rabs_left1 in Q by (apply lt_INR in K; lra). rewrite Ropp_minus_distr, <- minus_INR in Q by lia. apply INR_le in Q. right. unfold lo. lia.
  - assert (Q' : ~ Rabs (if (k <? h)%nat then INR k else INR k - INR n) <= INR (N * os)) by (intros X; apply Q, D, X).
    apply orb_false_iff. rewrite !Nat.leb_gt. destruct (Nat.ltb_spec k h) as [Kh|Kh].
    + rewrite Rabs_right in Q' by (apply Rle_ge, pos_INR). assert (N * os < k)%nat by (destruct (le_lt_dec k (N * os)) as [X|X]; [apply le_INR in X; lra|exact X]).
      unfold hi, lo. lia.
    + rewrite Rabs_left1 in Q' by (apply lt_INR in K; lra). rewrite Ropp_minus_distr, <- minus_INR in Q' by lia.
      assert (N * os < n - k)%nat by (destruct (le_lt_dec (n - k) (N * os)) as [X|X]; [apply le_INR in X; lra|exact X]). unfold hi, lo. lia.
Qed.
Lemma filter_true {A} (f : A -> bool) l : (forall x, In x l -> f x = true) -> filter f l = l.
Proof. induction l as [|x l IH]; intros H; [reflexivity|]. cbn. rewrite (H x) by now left. f_equal. apply IH. intros. apply H. now right. Qed.
Lemma filter_false {A} (f : A -> bool) l : (forall x, In x l -> f x = false) -> filter f l = [].
Proof. induction l as [|x l IH]; intros H; [reflexivity|]. cbn. rewrite (H x) by now left. apply IH. intros. apply H. now right. Qed.
Lemma near_nodes : filter (near ntap lblock os) (seq 0 n) = seq 0 (S hi) ++ seq (n - lo) lo.
Proof.
  pose proof h_pos as Hp. assert (L1 : (S hi <= h)%nat) by (unfold hi; lia). assert (L2 : (lo <= h)%nat) by (unfold lo; lia).
  replace n with (S hi + ((n - lo - S hi) + lo))%nat at 1 by lia.
  rewrite seq_app, seq_app. cbn [Nat.add]. replace (S (hi + (n - lo - S hi)))%nat with (n - lo)%nat by lia.
  rewrite !filter_app. rewrite (filter_true _ (seq 0 (S hi))), (filter_false _ (seq (S hi) _)), (filter_true _ (seq (n - lo) lo)).
  - reflexivity.
  - intros k K. apply in_seq in K. rewrite near_is by lia. apply orb_true_iff. right. apply Nat.leb_le. lia.
  - intros k K. apply in_seq in K. rewrite near_is by lia. apply orb_false_iff. split; apply Nat.leb_gt; lia.
  - intros k K. apply in_seq in K. rewrite near_is by lia. apply orb_true_iff. left. apply Nat.leb_le. lia.
Qed.
Notation rt k := (ratio ntap lblock os w k).
Definition height (i : nat) : R := rt ((i + (n - lo)) mod n)%nat / rt 0.
Lemma map_seq_shift {A} (f : nat -> A) s m : map f (seq s m) = map (fun i => f (s + i)%nat) (seq 0 m).
Proof.
  revert s f. induction m as [|m IH]; intros s f; [reflexivity|]. cbn [seq map]. rewrite Nat.add_0_r. f_equal.
  rewrite (IH (S s)), (IH 1%nat). apply map_ext. intros i. f_equal. lia.
Qed.
Lemma nodes_perm : Permutation (nodes ntap lblock os w) (map (node (INR lo) (INR os) height) (seq 0 (lo + S hi))).
Proof.
  pose proof h_pos as Hp. assert (L1 : (S hi <= h)%nat) by (unfold hi; lia). assert (L2 : (lo <= h)%nat) by (unfold lo; lia).
  unfold nodes. fold n. rewrite near_nodes, map_app. eapply perm_trans; [apply Permutation_app_comm|].
  rewrite seq_app, map_app. cbn [Nat.add].
  assert (E : forall a b a' b' : list (R * R), a = a' -> b = b' -> Permutation (a ++ b) (a' ++ b')) by (intros; subst; apply Permutation_refl). apply E.
  - rewrite map_seq_shift. apply map_ext_in. intros i I. apply in_seq in I. unfold node, height. f_equal.
    + rewrite tau_is by lia. destruct (Nat.ltb_spec (n - lo + i) h); [lia|]. rewrite plus_INR, minus_INR by lia. f_equal. lra.
    + f_equal. f_equal. rewrite Nat.mod_small by lia. lia.
  - rewrite (map_seq_shift _ lo). apply map_ext_in. intros i I. apply in_seq in I. unfold node, height. f_equal.
    + rewrite tau_is by lia. destruct (Nat.ltb_spec i h); [|lia]. rewrite plus_INR. f_equal. lra.
    + f_equal. f_equal. replace (lo + i + (n - lo))%nat with (i + 1 * n)%nat by lia. rewrite Nat.mod_add by lia. rewrite Nat.mod_small by lia. reflexivity.
Qed.
Lemma nwf_len : (2 * (nwf ntap lblock os - 1) = n)%nat.
Proof. unfold nwf. fold n. rewrite Nh. replace (h + h)%nat with (h * 2)%nat by lia. rewrite Nat.div_mul by lia. lia. Qed.
Lemma ratio_mirror k : (k <= n)%nat -> rt (n - k) = rt k.
Proof.
  intros K. pose proof h_pos as Hp. unfold ratio, irfft. rewrite nwf_len. f_equal. rewrite !fst_csum. apply rsum_ext. intros i I. rewrite !fst_rc. f_equal.
  transitivity (fst (conj (root n (Z.of_nat (k * i))))); [|reflexivity]. rewrite conj_root. f_equal. apply root_eqm; [lia|].
  replace (Z.of_nat ((n - k) * i) - - Z.of_nat (k * i))%Z with (Z.of_nat i * Z.of_nat n)%Z by nia. apply Z.mod_mul. lia.
Qed.
(** The value at a number of steps from zero *)
Definition at_step (t : Z) : R := rt (Z.abs_nat t) / rt 0.
Lemma height_step i : (i <= lo + hi)%nat -> height i = at_step (Z.of_nat i - Z.of_nat lo).
Proof.
  intros I. pose proof h_pos as Hp. assert (L1 : (S hi <= h)%nat) by (unfold hi; lia). assert (L2 : (lo <= h)%nat) by (unfold lo; lia).
  unfold height, at_step. f_equal. destruct (le_lt_dec lo i) as [K|K].
  - replace (i + (n - lo))%nat with (i - lo + 1 * n)%nat by lia. rewrite Nat.mod_add by lia. rewrite Nat.mod_small by lia. f_equal. lia.
  - rewrite Nat.mod_small by lia. replace (i + (n - lo))%nat with (n - (lo - i))%nat by lia. rewrite ratio_mirror by lia. f_equal. lia.
Qed.
Lemma at_is x : decorrelation_at ntap lblock os w x = Ok (interp1d 0 (nodes ntap lblock os w) x).
Proof.
  unfold decorrelation_at. fold n. rewrite nwf_len. pose proof h_pos. destruct (Nat.eqb_spec n 0); [lia|]. rewrite Nat.eqb_refl. reflexivity.
Qed.
(** Linear between neighbours *)
Lemma at_between (t : Z) th : (- Z.of_nat lo <= t < Z.of_nat hi)%Z -> 0 <= th <= 1 ->
  decorrelation_at ntap lblock os w ((IZR t + th) / INR os) = Ok ((1 - th) * at_step t + th * at_step (t + 1)).
Proof.
  intros B T. rewrite at_is. f_equal. set (i := Z.to_nat (t + Z.of_nat lo)).
  assert (Ei : Z.of_nat i = (t + Z.of_nat lo)%Z) by (unfold i; lia).
  replace ((IZR t + th) / INR os) with ((INR i + th - INR lo) / INR os).
  - rewrite (interp_between (INR lo) (INR os) ltac:(apply lt_0_INR; lia) height 0 _ _ i th nodes_perm ltac:(lia) T).
    rewrite !height_step by lia. f_equal; f_equal; f_equal; lia.
  - f_equal. rewrite !INR_IZR_INZ, Ei, plus_IZR. lra.
Qed.
Lemma at_outside x : x < - INR lo / INR os \/ INR hi / INR os < x -> decorrelation_at ntap lblock os w x = Ok 0.
Proof.
  intros O. rewrite at_is. f_equal. apply (interp_outside (INR lo) (INR os) ltac:(apply lt_0_INR; lia) height 0 _ _ x nodes_perm); [lia|].
  destruct O as [O|O]; [left|right]; cbn [node fst].
  - change (INR 0) with 0. replace ((0 - INR lo) / INR os) with (- INR lo / INR os) by (unfold Rdiv; lra). exact O.
  - replace (lo + S hi - 1)%nat with (lo + hi)%nat by lia. rewrite plus_INR. replace (INR lo + INR hi - INR lo) with (INR hi) by lra. exact O.
Qed.
End Ratio.
