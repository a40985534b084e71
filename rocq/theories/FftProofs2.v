(** Convolution, windows and objects. *)
From Coq Require Import List Bool Reals ZArith Arith Lia Lra.
From Verif Require Import PyBase FftModel FftSpec FftProofs.
Import ListNotations.
Open Scope R_scope.
Add Ring CRing2 : C_ring.

(** The transform of a sum over [i + j = k] on one axis is a product *)
Lemma conv1 n (f : nat -> nat -> Cx) (k : Z) : (0 < n)%nat ->
  csum n (fun i => cmul (csum n (fun m => f m (Z.to_nat ((Z.of_nat i - Z.of_nat m) mod Z.of_nat n))))
                        (root n (-1 * Z.of_nat i * k)))
  = csum n (fun m => csum n (fun r => cmul (f m r) (cmul (root n (-1 * Z.of_nat m * k)) (root n (-1 * Z.of_nat r * k))))).
Proof.
  intros P.
  transitivity (csum n (fun m => csum n (fun i =>
    cmul (f m (Z.to_nat ((Z.of_nat i - Z.of_nat m) mod Z.of_nat n))) (root n (-1 * Z.of_nat i * k))))).
  { rewrite <- csum_swap. apply csum_ext. intros i _. now rewrite <- csum_scale_r. }
  apply csum_ext. intros m M.
  rewrite <- (csum_cyc n _ m). apply csum_ext. intros r L.
  assert (E: Z.of_nat ((r + m) mod n) = ((Z.of_nat r + Z.of_nat m) mod Z.of_nat n)%Z)
    by (rewrite Nat2Z.inj_mod; f_equal; lia).
  rewrite E. f_equal.
  - f_equal. rewrite Zminus_mod_idemp_l. replace (Z.of_nat r + Z.of_nat m - Z.of_nat m)%Z with (Z.of_nat r) by ring.
    rewrite Z.mod_small by lia. apply Nat2Z.id.
  - rewrite <- root_add. apply root_eqm; [assumption|].
    pose proof (Z.div_mod (Z.of_nat r + Z.of_nat m) (Z.of_nat n) ltac:(lia)) as D.
    set (q := ((Z.of_nat r + Z.of_nat m) / Z.of_nat n)%Z) in *.
    replace ((Z.of_nat r + Z.of_nat m) mod Z.of_nat n)%Z with (Z.of_nat r + Z.of_nat m - Z.of_nat n * q)%Z by lia.
    replace (-1 * (Z.of_nat r + Z.of_nat m - Z.of_nat n * q) * k - (-1 * Z.of_nat m * k + -1 * Z.of_nat r * k))%Z
      with ((q * k) * Z.of_nat n)%Z by ring.
    apply Z.mod_mul. lia.
Qed.

(** Both indices transformed, with the frequencies of the first *)
Fixpoint both (sh A : list nat) (P : list nat -> list nat -> Cx) (k j : list nat) : Cx :=
  match A with
  | [] => P k j
  | a :: r => csum (nth a sh 0%nat) (fun m => csum (nth a sh 0%nat) (fun l =>
      cmul (both sh r P (upd k a m) (upd j a l))
           (cmul (root (nth a sh 0%nat) (-1 * Z.of_nat m * Z.of_nat (nth a k 0%nat)))
                 (root (nth a sh 0%nat) (-1 * Z.of_nat l * Z.of_nat (nth a k 0%nat))))))
  end.
Definition mrg (n a : nat) (Q : list nat -> list nat -> Cx) (i j : list nat) : Cx :=
  csum n (fun m => Q (upd i a m) (upd j a (Z.to_nat ((Z.of_nat (nth a i 0%nat) - Z.of_nat m) mod Z.of_nat n)))).
Lemma mrg_ext n a Q Q' i j : (forall i j, Q i j = Q' i j) -> mrg n a Q i j = mrg n a Q' i j.
Proof. intros H. apply csum_ext. intros. apply H. Qed.
Lemma dft1_mrg n a m b Q j k : a <> b ->
  dft1 (-1) m b (fun i => mrg n a Q i j) k = mrg n a (fun i j => dft1 (-1) m b (fun i => Q i j) i) k j.
Proof.
  intros N. unfold dft1, mrg.
  transitivity (csum m (fun v => csum n (fun u =>
    cmul (Q (upd (upd k b v) a u) (upd j a (Z.to_nat ((Z.of_nat (nth a k 0%nat) - Z.of_nat u) mod Z.of_nat n))))
         (root m (-1 * Z.of_nat v * Z.of_nat (nth b k 0%nat)))))).
  { apply csum_ext. intros v _. rewrite csum_scale_r. f_equal. apply csum_ext. intros u _.
    now rewrite (upd_other k b a) by congruence. }
  rewrite csum_swap. apply csum_ext. intros u _. apply csum_ext. intros v _.
  rewrite (upd_other k a b) by congruence. now rewrite (upd_swap k a b) by congruence.
Qed.
Lemma dft_mrg n a sh A Q j k : ~ In a A ->
  dft (-1) sh A (fun i => mrg n a Q i j) k = mrg n a (fun i j => dft (-1) sh A (fun i => Q i j) i) k j.
Proof.
  revert k. induction A as [|b r IH]; intros k N; [reflexivity|]. cbn [dft].
  rewrite (dft1_feq _ _ _ _ (fun i => mrg n a (fun i j => dft (-1) sh r (fun i => Q i j) i) i j)).
  - apply dft1_mrg. intros ->. apply N. now left.
  - intros i. apply IH. intros I. apply N. now right.
Qed.
Lemma mrg_feq n a Q Q' k j : (forall i j, Q i j = Q' i j) -> mrg n a Q k j = mrg n a Q' k j.
Proof. intros H. apply csum_ext. intros; apply H. Qed.
Lemma dft_circular sh A P : NoDup A -> Forall (fun a => a < length sh)%nat A ->
  forall k j, index_of sh k -> length j = length sh ->
  dft (-1) sh A (fun i => circular sh A P i j) k = both sh A P k j.
Proof.
  intros N F. induction A as [|a r IH]; intros k j K Lj; [reflexivity|].
  apply NoDup_cons_iff in N as [N1 N2]. inversion_clear F as [|? ? F1 F2].
  set (n := nth a sh 0%nat).
  change (dft1 (-1) n a (dft (-1) sh r (fun i => mrg n a (circular sh r P) i j)) k = both sh (a :: r) P k j).
  rewrite (dft1_feq _ _ _ _ (fun i => mrg n a (fun i j => dft (-1) sh r (fun i => circular sh r P i j) i) i j))
    by (intros i; now apply dft_mrg).
  pose proof (index_nth _ _ a K F1) as Ln. pose proof (index_len _ _ K) as Lk. fold n in Ln.
  unfold dft1, mrg.
  rewrite (csum_ext n _ (fun i => cmul (csum n (fun m =>
     both sh r P (upd k a m) (upd j a (Z.to_nat ((Z.of_nat i - Z.of_nat m) mod Z.of_nat n)))))
      (root n (-1 * Z.of_nat i * Z.of_nat (nth a k 0%nat))))).
  - rewrite (conv1 n (fun m l => both sh r P (upd k a m) (upd j a l))) by lia. reflexivity.
  - intros i I. f_equal. apply csum_ext. intros m M. rewrite upd_same, upd_nth by lia.
    apply IH; auto; [now apply index_upd|now rewrite upd_len].
Qed.
(** The product of the transforms *)
Fixpoint freq (sh A : list nat) (y : fn) (k j : list nat) : Cx :=
  match A with
  | [] => y j
  | a :: r => csum (nth a sh 0%nat) (fun l =>
      cmul (freq sh r y k (upd j a l)) (root (nth a sh 0%nat) (-1 * Z.of_nat l * Z.of_nat (nth a k 0%nat))))
  end.
Lemma freq_upd sh A y k j a m : ~ In a A -> freq sh A y (upd k a m) j = freq sh A y k j.
Proof.
  revert j; induction A as [|b r IH]; intros j N; [reflexivity|]. cbn [freq].
  apply csum_ext. intros l _. rewrite IH by (intros I; apply N; now right).
  rewrite upd_other; [reflexivity|]. intros ->. apply N. now left.
Qed.
Lemma freq_dft sh A y : NoDup A -> forall k j, (forall a, In a A -> nth a k 0%nat = nth a j 0%nat) -> freq sh A y k j = dft (-1) sh A y j.
Proof.
  induction A as [|a r IH]; intros N k j H; [reflexivity|].
  apply NoDup_cons_iff in N as [N1 N2]. cbn [freq dft]. unfold dft1.
  apply csum_ext. intros l _. rewrite H by now left. f_equal. apply IH; [assumption|].
  intros b I. rewrite upd_other; [apply H; now right|]. intros ->. auto.
Qed.
Lemma both_prod sh A x y : NoDup A -> forall k j,
  both sh A (fun i j => cmul (x i) (y j)) k j = cmul (dft (-1) sh A x k) (freq sh A y k j).
Proof.
  intros N. induction A as [|a r IH]; intros k j; [reflexivity|].
  apply NoDup_cons_iff in N as [N1 N2]. cbn [both dft freq]. unfold dft1.
  rewrite <- csum_scale_r. apply csum_ext. intros m _.
  rewrite <- csum_scale. apply csum_ext. intros l _. rewrite IH by assumption.
  rewrite freq_upd by assumption. ring.
Qed.
(** The second index matters only on the other axes *)
Lemma circular_second sh A P : forall i j j', length j = length j' ->
  (forall b, ~ In b A -> nth b j 0%nat = nth b j' 0%nat) -> circular sh A P i j = circular sh A P i j'.
Proof.
  induction A as [|a r IH]; intros i j j' L H; cbn.
  - f_equal. apply (nth_ext _ _ 0%nat 0%nat); [assumption|]. intros b _. apply H. auto.
  - apply csum_ext. intros m _. apply IH; [now rewrite !upd_len|].
    intros b N. destruct (Nat.eq_dec a b) as [<-|E].
    + destruct (le_lt_dec (length j) a) as [O|O].
      * rewrite !nth_overflow; [reflexivity|rewrite upd_len; lia|rewrite upd_len; lia].
      * rewrite !upd_nth by lia. reflexivity.
    + rewrite !upd_other by assumption. apply H. intros [I|I]; auto.
Qed.
Fixpoint copy (A k j : list nat) : list nat :=
  match A with [] => j | a :: r => copy r k (upd j a (nth a k 0%nat)) end.
Lemma dft_at sh s A x y k : (forall i, length i = length k -> (forall b, ~ In b A -> nth b i 0%nat = nth b k 0%nat) -> x i = y i) ->
  dft s sh A x k = dft s sh A y k.
Proof.
  revert k; induction A as [|a r IH]; intros k H; cbn [dft].
  - apply H; auto.
  - unfold dft1. apply csum_ext. intros j _. f_equal. apply IH. intros i L Hi. rewrite upd_len in L. apply H; [assumption|].
    intros b N. rewrite Hi by (intros I; apply N; now right). apply upd_other. intros ->. apply N. now left.
Qed.
Theorem convolution sh A x y : NoDup A -> Forall (fun a => a < length sh)%nat A ->
  eqv sh (forward_dft sh A (circular_conv sh A x y)) (fun k => cmul (forward_dft sh A x k) (forward_dft sh A y k)).
Proof.
  intros N F k K. unfold forward_dft, circular_conv.
  rewrite (dft_at sh (-1) A _ (fun i => circular sh A (fun i j => cmul (x i) (y j)) i k)).
  - rewrite dft_circular; auto; [|now apply index_len]. rewrite both_prod by assumption. f_equal.
    now apply freq_dft.
  - intros i L H. apply circular_second; assumption.
Qed.
Lemma conv_back sh A x y z : NoDup A -> Forall (fun a => a < length sh)%nat A ->
  eqv sh z (fun k => cmul (forward_dft sh A x k) (forward_dft sh A y k)) ->
  eqv sh (backward_dft sh A z) (circular_conv sh A x y).
Proof.
  intros N F H k K. unfold backward_dft. rewrite (dft_eqv 1 sh A z (forward_dft sh A (circular_conv sh A x y))); [| |assumption].
  - exact (back_forth sh A (circular_conv sh A x y) N F k K).
  - intros i I. rewrite H by assumption. symmetry. now apply convolution.
Qed.

(** Linear convolution *)
Lemma circular_0 sh A P i j : (forall i' j', (forall b, ~ In b A -> nth b i' 0 = nth b i 0)%nat ->
   (forall b, ~ In b A -> nth b j' 0 = nth b j 0)%nat -> P i' j' = C0) -> circular sh A P i j = C0.
Proof.
  revert i j; induction A as [|a r IH]; intros i j H; cbn; [apply H; auto|].
  apply csum_0. intros m _. apply IH. intros i' j' Hi Hj. apply H; intros b N.
  - rewrite Hi by (intros I; apply N; now right). apply upd_other. intros ->; apply N; now left.
  - rewrite Hj by (intros I; apply N; now right). apply upd_other. intros ->; apply N; now left.
Qed.
Lemma csum_cut n m f : (m <= n)%nat -> (forall i, (m <= i < n)%nat -> f i = C0) -> csum n f = csum m f.
Proof.
  intros L H. induction n as [|n IH]; [now replace m with 0%nat by lia|].
  destruct (Nat.eq_dec m (S n)) as [->|E]; [reflexivity|].
  cbn. rewrite IH by (try lia; intros; apply H; lia). rewrite H by lia. ring.
Qed.
Lemma circular_linear sh A p q P : NoDup A -> Forall (fun a => a < length sh)%nat A ->
  (forall a, In a A -> (p a + q a <= nth a sh 0 + 1)%nat) ->
  (forall i j a, In a A -> (p a <= nth a i 0 \/ q a <= nth a j 0)%nat -> P i j = C0) ->
  forall i j, index_of sh i -> length j = length sh -> circular sh A P i j = linear A P i j.
Proof.
  intros N F Hs Hz. induction A as [|a r IH]; intros i j I Lj; [reflexivity|].
  apply NoDup_cons_iff in N as [N1 N2]. inversion_clear F as [|? ? F1 F2]. cbn [circular linear].
  set (n := nth a sh 0%nat) in *. pose proof (index_nth _ _ a I F1) as Ln. fold n in Ln.
  pose proof (index_len _ _ I) as Li. set (u := nth a i 0%nat) in *.
  rewrite (csum_cut n (S u)); [|lia|].
  2:{ intros m [M1 M2].
    apply circular_0; intros i' j' Hi Hj; specialize (Hi a N1); specialize (Hj a N1).
    rewrite upd_nth in Hi by lia; rewrite upd_nth in Hj by lia.
    apply (Hz i' j' a); [now left|]; rewrite Hi, Hj.
    specialize (Hs a (or_introl eq_refl)); fold n in Hs.
    replace ((Z.of_nat u - Z.of_nat m) mod Z.of_nat n)%Z with (Z.of_nat (u + n - m))
      by (rewrite <- (Z_mod_plus_full _ 1), Z.mod_small; lia).
    rewrite Nat2Z.id; destruct (le_lt_dec (p a) m); [now left|right; lia]. }
  apply csum_ext. intros m M.
  replace (Z.to_nat ((Z.of_nat u - Z.of_nat m) mod Z.of_nat n)) with (u - m)%nat
    by (rewrite Z.mod_small by lia; lia).
  apply IH; auto.
  - intros b B. apply Hs. now right.
  - intros i' j' b B. apply Hz. now right.
  - apply index_upd; [assumption|]. fold n. lia.
  - now rewrite upd_len.
Qed.

(** Objects *)
Lemma resolve_range n l r : resolve n l = Some r -> Forall (fun a => a < n)%nat r.
Proof.
  revert r; induction l as [|z t IH]; cbn; intros r E; [injection E as <-; constructor|].
  destruct (axis_of n z) as [a|] eqn:Ea; [|discriminate]. destruct (resolve n t) as [u|]; [|discriminate].
  injection E as <-. constructor; [|now apply IH]. unfold axis_of in Ea.
  destruct ((0 <=? _) && _)%Z eqn:B in Ea; [|discriminate]. injection Ea as <-.
  apply andb_true_iff in B as [B1 B2]. apply Z.leb_le in B1. apply Z.ltb_lt in B2. lia.
Qed.
Lemma make_ok sh c ax f b o : make sh c ax f b = Ok o ->
  pshape o = sh /\ has_fft o = f /\ has_ifft o = b /\ NoDup (paxes o) /\ Forall (fun a => a < length sh)%nat (paxes o).
Proof.
  unfold make. destruct c; [|discriminate]. cbn [negb].
  destruct (resolve _ _) as [l|] eqn:E.
  - intros H. injection H as <-. cbn. repeat split; auto; [apply NoDup_nodup|].
    apply resolve_range in E. rewrite Forall_forall in *. intros a I. apply E. now apply nodup_In in I.
  - destruct (f || b); [discriminate|]. intros H. injection H as <-. cbn. repeat split; auto; constructor.
Qed.
Lemma shape_eqb_eq a b : shape_eqb a b = true <-> a = b.
Proof. unfold shape_eqb. destruct (list_eq_dec _ a b); split; congruence. Qed.
Lemma same_refl x : same x x.
Proof. now split. Qed.
