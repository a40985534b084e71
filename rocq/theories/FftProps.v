(** Fourier transforms, C140-C144. *)
From Coq Require Import List Bool Reals ZArith Arith Lia Lra.
From Verif Require Import PyBase FftModel FftSpec FftProofs FftProofs2.
Import ListNotations.
Open Scope R_scope.
Add Ring CRing3 : C_ring.

Lemma fft_ok sh c ax b o x : make sh c ax true b = Ok o -> ashape x = sh ->
  fft o (Arr x) = Ok {| ashape := sh; aval := forward_dft sh (paxes o) (aval x) |}.
Proof.
  intros M E. apply make_ok in M as (M1 & M2 & M3 & _). unfold fft, call. rewrite M2, M1, E.
  replace (shape_eqb sh sh) with true; [reflexivity|]. symmetry. now apply shape_eqb_eq.
Qed.
Lemma ifft_ok sh c ax f o x : make sh c ax f true = Ok o -> ashape x = sh ->
  ifft o (Arr x) = Ok {| ashape := sh; aval := backward_dft sh (paxes o) (aval x) |}.
Proof.
  intros M E. apply make_ok in M as (M1 & M2 & M3 & _). unfold ifft, call. rewrite M3, M1, E.
  replace (shape_eqb sh sh) with true; [reflexivity|]. symmetry. now apply shape_eqb_eq.
Qed.

Lemma back_eqv sh A x y : eqv sh x y -> eqv sh (backward_dft sh A x) (backward_dft sh A y).
Proof. intros H k K. unfold backward_dft. f_equal. now apply (dft_eqv 1 sh). Qed.

(** C140 *)
Theorem C140_transform : forall sh c ax b o x, make sh c ax true b = Ok o -> ashape x = sh ->
  gives (fft o (Arr x)) {| ashape := sh; aval := spectrum sh (paxes o) (aval x) |}.
Proof.
  intros sh c ax b o x M E. eexists. split; [now apply (fft_ok _ _ _ _ _ _ M)|].
  split; [reflexivity|]. intros k _. cbn. symmetry. apply spectrum_dft.
Qed.
Print Assumptions C140_transform.
Theorem C140_inverse : forall sh c ax o x, make sh c ax true true = Ok o -> ashape x = sh ->
  (exists X, fft o (Arr x) = Ok X /\ gives (ifft o (Arr X)) x) /\
  (exists y, ifft o (Arr x) = Ok y /\ gives (fft o (Arr y)) x).
Proof.
  intros sh c ax o x M E. pose proof (make_ok _ _ _ _ _ _ M) as (_ & _ & _ & N & F). split.
  - eexists. split; [now apply (fft_ok _ _ _ _ _ _ M)|]. eexists. split; [now apply (ifft_ok _ _ _ _ _ _ M)|].
    split; [now rewrite E|]. intros k K. cbn in *. now apply back_forth.
  - eexists. split; [now apply (ifft_ok _ _ _ _ _ _ M)|]. eexists. split; [now apply (fft_ok _ _ _ _ _ _ M)|].
    split; [now rewrite E|]. intros k K. cbn in *. now apply forth_back.
Qed.
Print Assumptions C140_inverse.
(** The functions of the module *)
Theorem C140_functions : forall x ax X, fft_ x true ax = Ok X -> gives (ifft_ X true ax) x.
Proof.
  intros x ax X. unfold fft_, ifft_.
  destruct (make (ashape x) true ax true false) as [o|] eqn:M; [|discriminate]. cbn [rbind]. intros H.
  rewrite (fft_ok _ _ _ _ _ _ M eq_refl) in H. injection H as <-. cbn [ashape].
  unfold make in M |- *. cbn [negb] in *. destruct (resolve _ _) as [l|] eqn:R; [|discriminate].
  injection M as <-. cbn [rbind paxes]. set (A := nodup Nat.eq_dec l).
  eexists. split.
  - unfold ifft, call. cbn. replace (shape_eqb _ _) with true by (symmetry; now apply shape_eqb_eq). reflexivity.
  - split; [reflexivity|]. cbn. intros k K. apply back_forth; auto; [apply NoDup_nodup|].
    apply resolve_range in R. rewrite Forall_forall in *. intros a I. apply R. now apply nodup_In in I.
Qed.
Print Assumptions C140_functions.
(** The order of the axes, and axes given twice, do not matter. *)
Lemma dft_perm_in s sh A a x : In a A -> NoDup A ->
  feq (dft s sh A x) (dft1 s (nth a sh 0%nat) a (dft s sh (remove Nat.eq_dec a A) x)).
Proof.
  induction A as [|b r IH]; intros I N k; [destruct I|]. apply NoDup_cons_iff in N as [N1 N2]. cbn [remove].
  destruct (Nat.eq_dec a b) as [->|E].
  - rewrite notin_remove by assumption. reflexivity.
  - destruct I as [I|I]; [congruence|]. cbn [dft].
    rewrite (dft1_feq _ _ _ _ _ (IH I N2)). now apply dft1_swap; congruence.
Qed.
Lemma dft_set s sh x A : NoDup A -> forall B, NoDup B -> (forall a, In a A <-> In a B) -> feq (dft s sh A x) (dft s sh B x).
Proof.
  intros N. induction A as [|a r IH]; intros B NB H k.
  - destruct B as [|b B]; [reflexivity|]. exfalso. apply (proj2 (H b)). now left.
  - apply NoDup_cons_iff in N as [N1 N2].
    rewrite (dft_perm_in s sh B a x (proj1 (H a) (or_introl eq_refl)) NB k). cbn [dft].
    apply dft1_feq. apply IH; [assumption| |].
    + clear - NB. induction B as [|b B IH]; [constructor|]. apply NoDup_cons_iff in NB as [A1 A2]. cbn.
      destruct (Nat.eq_dec a b); [now apply IH|]. constructor; [|now apply IH]. intros I. apply in_remove in I. tauto.
    + intros b. split; intros I.
      * apply in_in_remove; [intros ->; auto|]. apply H. now right.
      * apply in_remove in I as [I J]. apply H in I. destruct I; [congruence|assumption].
Qed.
Theorem C140_axes : forall sh b ax ax' o o' x, make sh true ax true b = Ok o -> make sh true ax' true b = Ok o' ->
  (forall a, In a (paxes o) <-> In a (paxes o')) -> ashape x = sh ->
  exists X, fft o' (Arr x) = Ok X /\ gives (fft o (Arr x)) X.
Proof.
  intros sh b ax ax' o o' x M M' H E.
  eexists. split; [now apply (fft_ok _ _ _ _ _ _ M')|]. eexists. split; [now apply (fft_ok _ _ _ _ _ _ M)|].
  split; [reflexivity|]. cbn. intros k _.
  apply make_ok in M as (_ & _ & _ & N & _). apply make_ok in M' as (_ & _ & _ & N' & _). now apply dft_set.
Qed.
Print Assumptions C140_axes.
(** Which axes are transformed: all, the one, or those given; the numbers count from the end if negative. *)
Theorem C140_which : forall sh ax fw bw, (fw || bw = true)%bool ->
  let zs := match ax with AxNone => map Z.of_nat (seq 0 (length sh)) | AxInt z => [z] | AxSeq l => l end in
  let n := Z.of_nat (length sh) in
  (Forall (fun z => - n <= z < n)%Z zs -> exists o, make sh true ax fw bw = Ok o /\
     forall a, In a (paxes o) <-> (a < length sh)%nat /\ (In (Z.of_nat a) zs \/ In (Z.of_nat a - n)%Z zs)) /\
  (~ Forall (fun z => - n <= z < n)%Z zs -> make sh true ax fw bw = Err IndexError).
Proof.
  intros sh ax fw bw Hb zs n. unfold make. cbn [negb].
  change (axes_of sh ax) with zs.
  assert (R: (Forall (fun z => - n <= z < n)%Z zs -> exists l, resolve (length sh) zs = Some l /\
     forall a, In a l <-> (a < length sh)%nat /\ (In (Z.of_nat a) zs \/ In (Z.of_nat a - n)%Z zs)) /\
     (~ Forall (fun z => - n <= z < n)%Z zs -> resolve (length sh) zs = None)).
  { clearbody zs. induction zs as [|z t [IH1 IH2]]; split.
    - intros _. exists []. split; [reflexivity|]. cbn. tauto.
    - intros H. exfalso. apply H. constructor.
    - intros H. inversion_clear H as [|? ? H1 H2]. destruct (IH1 H2) as (l & El & Hl). cbn [resolve].
      rewrite El.
      assert (Ez: axis_of (length sh) z = Some (Z.to_nat (if z <? 0 then z + n else z)%Z)).
      { unfold axis_of. fold n. set (y := (if z <? 0 then z + n else z)%Z).
        assert (Y: (0 <= y < n)%Z) by (unfold y; destruct (Z.ltb_spec z 0); lia).
        destruct (Z.leb_spec 0 y); [|lia]. destruct (Z.ltb_spec y n); [reflexivity|lia]. }
      rewrite Ez. eexists. split; [reflexivity|]. intros a. cbn [In]. rewrite Hl.
      assert (T: Z.to_nat (if z <? 0 then z + n else z)%Z = a <-> (a < length sh)%nat /\ (z = Z.of_nat a \/ z = Z.of_nat a - n)%Z)
        by (destruct (Z.ltb_spec z 0); lia).
      rewrite T. tauto.
    - intros H. cbn [resolve]. unfold axis_of. fold n.
      set (y := (if z <? 0 then z + n else z)%Z). destruct ((0 <=? y) && (y <? n))%Z eqn:B; [|reflexivity]. rewrite IH2; [reflexivity|].
      intros F. apply H. constructor; [|assumption].
      apply andb_true_iff in B as [B1 B2]. apply Z.leb_le in B1. apply Z.ltb_lt in B2. unfold y in *. destruct (Z.ltb_spec z 0); lia. }
  destruct R as [R1 R2]. split; intros H.
  - destruct (R1 H) as (l & -> & Hl). eexists. split; [reflexivity|]. cbn [paxes]. intros a. now rewrite nodup_In.
  - rewrite (R2 H), Hb. reflexivity.
Qed.
Print Assumptions C140_which.
Example C140_example : exists o, make [2%nat] true AxNone true true = Ok o /\
  gives (fft o (Arr {| ashape := [2%nat]; aval := fun k => match k with [O] => (3, 1) | _ => (1, 0) end |}))
    {| ashape := [2%nat]; aval := fun k => match k with [O] => (4, 1) | _ => (2, 1) end |}.
Proof.
  eexists. split; [reflexivity|]. destruct (C140_transform [2%nat] true AxNone true _ {| ashape := [2%nat]; aval := fun k => match k with [O] => (3, 1) | _ => (1, 0) end |} eq_refl eq_refl) as (z & E & S1 & S2).
  exists z. split; [exact E|]. split; [assumption|]. intros k K. rewrite S2 by assumption. cbn [aval].
  rewrite S1 in K. cbn in K. inversion K as [|i ? l ? I L]; subst. inversion L; subst.
  assert (H1: root 2 (-1) = (-1, 0)).
  { unfold root. replace (2 * PI * -1 / INR 2) with (- PI) by (cbn; field). rewrite cos_neg, sin_neg, cos_PI, sin_PI. f_equal; lra. }
  destruct i as [|[|i]]; [| |lia]; cbn -[root]; rewrite ?root_0.
  - apply ceq; cbn; lra.
  - change (root 2 (- Z.of_nat 1)) with (root 2 (-1)). rewrite ?H1. apply ceq; cbn; lra.
Qed.

(** C141 *)
Theorem C141_circular : forall sh c ax o x y, make sh c ax true true = Ok o -> ashape x = sh -> ashape y = sh ->
  gives (fftconvolve o (Arr x) (Arr y)) {| ashape := sh; aval := circular_conv sh (paxes o) (aval x) (aval y) |}.
Proof.
  intros sh c ax o x y M Ex Ey. pose proof (make_ok _ _ _ _ _ _ M) as (_ & _ & _ & N & F).
  unfold fftconvolve. rewrite (fft_ok _ _ _ _ _ _ M Ex), (fft_ok _ _ _ _ _ _ M Ey). cbn [rbind].
  eexists. split; [now apply (ifft_ok _ _ _ _ _ _ M)|]. split; [reflexivity|]. intros k K. cbn in *.
  apply conv_back; auto. intros i _. reflexivity.
Qed.
Print Assumptions C141_circular.
Theorem C141_function : forall x y ax, ashape x = ashape y ->
  Forall (fun z => - Z.of_nat (length (ashape x)) <= z < Z.of_nat (length (ashape x)))%Z (axes_of (ashape x) ax) ->
  exists A, (forall a, In a A <-> (a < length (ashape x))%nat /\
      (In (Z.of_nat a) (axes_of (ashape x) ax) \/ In (Z.of_nat a - Z.of_nat (length (ashape x)))%Z (axes_of (ashape x) ax))) /\
    NoDup A /\
    gives (fftconvolve_ x y true ax) {| ashape := ashape x; aval := circular_conv (ashape x) A (aval x) (aval y) |}.
Proof.
  intros x y ax E H. destruct (proj1 (C140_which (ashape x) ax true true eq_refl) H) as (o & M & Ha).
  exists (paxes o). split; [exact Ha|]. split; [now apply make_ok in M|].
  unfold fftconvolve_. rewrite M. cbn [rbind]. apply (C141_circular _ _ _ _ _ _ M eq_refl (eq_sym E)).
Qed.
Print Assumptions C141_function.
(** The convolution along one axis, written out *)
Theorem C141_one_axis : forall n ax o x y, make [n] true ax true true = Ok o -> paxes o = [0%nat] ->
  ashape x = [n] -> ashape y = [n] ->
  exists z, fftconvolve o (Arr x) (Arr y) = Ok z /\ forall k, (k < n)%nat ->
    aval z [k] = csum n (fun m => cmul (aval x [m]) (aval y [if (m <=? k)%nat then (k - m)%nat else (k + n - m)%nat])).
Proof.
  intros n ax o x y M A Ex Ey. destruct (C141_circular _ _ _ _ _ _ M Ex Ey) as (z & E & S1 & S2).
  exists z. split; [assumption|]. intros k K. rewrite S2.
  - rewrite A. unfold circular_conv. cbn. apply csum_ext. intros m L. do 3 f_equal.
    destruct (Nat.leb_spec m k).
    + rewrite Z.mod_small by lia. lia.
    + rewrite <- (Z_mod_plus_full _ 1), Z.mod_small by lia. lia.
  - rewrite S1. cbn. constructor; [assumption|constructor].
Qed.
Print Assumptions C141_one_axis.
(** It is symmetric. *)
Theorem C141_symmetric : forall sh c ax o x y, make sh c ax true true = Ok o -> ashape x = sh -> ashape y = sh ->
  exists z, fftconvolve o (Arr y) (Arr x) = Ok z /\ gives (fftconvolve o (Arr x) (Arr y)) z.
Proof.
  intros sh c ax o x y M Ex Ey. pose proof (make_ok _ _ _ _ _ _ M) as (_ & _ & _ & N & F).
  unfold fftconvolve. rewrite (fft_ok _ _ _ _ _ _ M Ex), (fft_ok _ _ _ _ _ _ M Ey). cbn [rbind].
  eexists. split; [now apply (ifft_ok _ _ _ _ _ _ M)|]. eexists. split; [now apply (ifft_ok _ _ _ _ _ _ M)|].
  split; [reflexivity|]. cbn. intros k K. unfold backward_dft. f_equal. apply (dft_eqv 1 sh); [|assumption].
  intros i _. ring.
Qed.
Print Assumptions C141_symmetric.

(** C142 *)
Theorem C142_padded : forall sh c ax o x y p q, make sh c ax true true = Ok o -> ashape x = sh -> ashape y = sh ->
  supported (paxes o) p (aval x) -> supported (paxes o) q (aval y) ->
  (forall a, In a (paxes o) -> (p a + q a <= nth a sh 0 + 1)%nat) ->
  gives (fftconvolve o (Arr x) (Arr y)) {| ashape := sh; aval := linear_conv (paxes o) (aval x) (aval y) |}.
Proof.
  intros sh c ax o x y p q M Ex Ey Sx Sy H. pose proof (make_ok _ _ _ _ _ _ M) as (_ & _ & _ & N & F).
  destruct (C141_circular _ _ _ _ _ _ M Ex Ey) as (z & E & S1 & S2). exists z. split; [assumption|].
  split; [assumption|]. intros k K. rewrite S2 by assumption. cbn [aval].
  rewrite S1 in K. cbn in K. apply (circular_linear sh _ p q); auto; [|now apply index_len].
  intros i j a I [L|L]; [rewrite (Sx i a I L)|rewrite (Sy j a I L)]; ring.
Qed.
Print Assumptions C142_padded.
Definition ones2 : arr := {| ashape := [2%nat]; aval := fun _ => C1 |}.
(** The sum of three numbers [1, 2, 1] is cut to two; the first is not even the first of these. *)
Theorem C142_linear_refuted : exists x o z, make (ashape x) true AxNone true true = Ok o /\
  fftconvolve o (Arr x) (Arr x) = Ok z /\ aval z [0%nat] <> linear_conv (paxes o) (aval x) (aval x) [0%nat].
Proof.
  destruct (C141_one_axis 2 AxNone _ ones2 ones2 eq_refl eq_refl eq_refl eq_refl) as (z & E & H).
  eexists ones2, _, z. split; [reflexivity|]. split; [exact E|]. rewrite (H 0%nat) by lia.
  unfold linear_conv. cbn. intros X. injection X as X _. lra.
Qed.
Print Assumptions C142_linear_refuted.
Example C142_example :
  let x := {| ashape := [3%nat]; aval := fun k => match k with [O] | [S O] => C1 | _ => C0 end |} in
  exists o, make [3%nat] true (AxInt (-1)) true true = Ok o /\
  gives (fftconvolve o (Arr x) (Arr x))
    {| ashape := [3%nat]; aval := fun k => match k with [S O] => (2, 0) | _ => C1 end |}.
Proof.
  intros x. eexists. split; [reflexivity|].
  destruct (C142_padded [3%nat] true (AxInt (-1)) _ x x (fun _ => 2%nat) (fun _ => 2%nat) eq_refl eq_refl eq_refl) as (z & E & S1 & S2).
  - intros i a [<-|[]] L. destruct i as [|[|[|i]] [|j t]]; cbn in *; try lia; try reflexivity.
  - intros i a [<-|[]] L. destruct i as [|[|[|i]] [|j t]]; cbn in *; try lia; try reflexivity.
  - intros a [<-|[]]. cbn. lia.
  - exists z. split; [exact E|]. split; [assumption|]. intros k K. rewrite S2 by assumption.
    rewrite S1 in K. cbn in K. inversion K as [|i ? l ? I L]; subst. inversion L; subst.
    unfold linear_conv. destruct i as [|[|[|i]]]; [| | |lia]; apply ceq; cbn; lra.
Qed.

(** C143 *)
Lemma bc_at_index s w k : bc_ok s w = true -> index_of s k -> length w = length k /\ index_of w (bc_at w k).
Proof.
  revert w k; induction s as [|n s IH]; intros [|m w] k B K; cbn in *; try discriminate; inversion K; subst; cbn.
  - split; [reflexivity|constructor].
  - apply andb_true_iff in B as [B1 B2]. destruct (IH _ _ B2 H3) as [L I]. split; [congruence|].
    constructor; [|assumption]. apply orb_true_iff in B1 as [B1|B1]; apply Nat.eqb_eq in B1; subst.
    + destruct (n =? 1)%nat eqn:E; [apply Nat.eqb_eq in E; lia|assumption].
    + cbn. lia.
Qed.
Lemma index_skip n sh k : index_of sh k -> index_of (skipn n sh) (skipn n k).
Proof. intros H; revert n; induction H; intros [|n]; cbn; auto; constructor; auto. Qed.
Lemma bc_index_in sh w k : bc_fits sh w = true -> index_of sh k -> index_of w (bc_index sh w k).
Proof.
  unfold bc_fits, bc_index. intros B K. apply andb_true_iff in B as [_ B].
  apply (bc_at_index _ _ _ B). now apply index_skip.
Qed.
Theorem C143_window : forall sh c ax o x w, make sh c ax true true = Ok o -> ashape x = sh ->
  bc_fits sh (ashape w) = true ->
  exists z, fftwindow o (Arr x) w = Ok z /\
  gives (fft o (Arr z)) {| ashape := sh; aval := fun k =>
    cmul (spectrum sh (paxes o) (aval x) k) (aval w (bc_index sh (ashape w) k)) |}.
Proof.
  intros sh c ax o x w M Ex B. pose proof (make_ok _ _ _ _ _ _ M) as (_ & _ & _ & N & F).
  unfold fftwindow. rewrite (fft_ok _ _ _ _ _ _ M Ex). cbn [rbind ashape]. rewrite B.
  eexists. split; [now apply (ifft_ok _ _ _ _ _ _ M)|]. eexists. split; [now apply (fft_ok _ _ _ _ _ _ M)|].
  split; [reflexivity|]. intros k K. cbn in *. rewrite forth_back by assumption. cbn. now rewrite spectrum_dft.
Qed.
Print Assumptions C143_window.
Theorem C143_function : forall x w ax, bc_fits (ashape x) (ashape w) = true ->
  Forall (fun z => - Z.of_nat (length (ashape x)) <= z < Z.of_nat (length (ashape x)))%Z (axes_of (ashape x) ax) ->
  exists A z, (forall a, In a A <-> (a < length (ashape x))%nat /\
      (In (Z.of_nat a) (axes_of (ashape x) ax) \/ In (Z.of_nat a - Z.of_nat (length (ashape x)))%Z (axes_of (ashape x) ax))) /\
    NoDup A /\ fftwindow_ x w true ax = Ok z /\ ashape z = ashape x /\
    forall k, index_of (ashape x) k -> spectrum (ashape x) A (aval z) k =
      cmul (spectrum (ashape x) A (aval x) k) (aval w (bc_index (ashape x) (ashape w) k)).
Proof.
  intros x w ax B H. destruct (proj1 (C140_which (ashape x) ax true true eq_refl) H) as (o & M & Ha).
  destruct (C143_window _ _ _ _ _ _ M eq_refl B) as (z & E & y & Ey & S & V).
  assert (Ez : ashape z = ashape x).
  { revert E. unfold fftwindow. rewrite (fft_ok _ _ _ _ _ _ M eq_refl). cbn [rbind ashape]. rewrite B.
    rewrite (ifft_ok _ _ _ _ _ _ M) by reflexivity. intro E. injection E as <-. reflexivity. }
  exists (paxes o), z. split; [exact Ha|]. split; [now apply make_ok in M|].
  unfold fftwindow_. rewrite M. cbn [rbind]. split; [exact E|]. split; [exact Ez|]. intros k K.
  destruct (C140_transform _ _ _ _ _ _ M Ez) as (y' & Ey' & S' & V').
  assert (y' = y) by congruence. subst y'. cbn in *. rewrite <- V' by congruence. apply V. congruence.
Qed.
Print Assumptions C143_function.
Theorem C143_ones : forall sh c ax o x w, make sh c ax true true = Ok o -> ashape x = sh ->
  bc_fits sh (ashape w) = true -> (forall k, index_of (ashape w) k -> aval w k = C1) ->
  gives (fftwindow o (Arr x) w) x.
Proof.
  intros sh c ax o x w M Ex B W. pose proof (make_ok _ _ _ _ _ _ M) as (_ & _ & _ & N & F).
  unfold fftwindow. rewrite (fft_ok _ _ _ _ _ _ M Ex). cbn [rbind ashape]. rewrite B.
  eexists. split; [now apply (ifft_ok _ _ _ _ _ _ M)|]. split; [now symmetry|]. intros k K. cbn in *.
  rewrite <- (back_forth sh _ (aval x) N F k K). unfold backward_dft. f_equal.
  apply (dft_eqv 1 sh); [|assumption]. intros i I. rewrite W; [|now apply bc_index_in]. ring.
Qed.
Print Assumptions C143_ones.
Theorem C143_twice : forall sh c ax o x w v, make sh c ax true true = Ok o -> ashape x = sh -> ashape w = sh -> ashape v = sh ->
  exists y z, fftwindow o (Arr x) w = Ok y /\ fftwindow o (Arr x) (times w v) = Ok z /\ gives (fftwindow o (Arr y) v) z.
Proof.
  intros sh c ax o x w v M Ex Ew Ev. pose proof (make_ok _ _ _ _ _ _ M) as (_ & _ & _ & N & F).
  assert (Bs: bc_fits sh sh = true).
  { unfold bc_fits. rewrite Nat.leb_refl, Nat.sub_diag. cbn. clear. induction sh; cbn; [reflexivity|]. now rewrite Nat.eqb_refl. }
  assert (Bi: forall k, index_of sh k -> bc_index sh sh k = k).
  { intros k K. unfold bc_index. rewrite Nat.sub_diag. cbn. clear - K. induction K as [|i n k s L K IH]; [reflexivity|]. cbn.
    rewrite IH. destruct (Nat.eqb_spec n 1); [|reflexivity]. f_equal. lia. }
  unfold fftwindow. rewrite (fft_ok _ _ _ _ _ _ M Ex). cbn [rbind ashape times]. rewrite Ew, Bs.
  eexists _, _. split; [now apply (ifft_ok _ _ _ _ _ _ M)|]. split; [now apply (ifft_ok _ _ _ _ _ _ M)|].
  erewrite (fft_ok _ _ _ _ _ _ M) by reflexivity. cbn [rbind ashape]. rewrite Ev, Bs.
  eexists. split; [now apply (ifft_ok _ _ _ _ _ _ M)|]. split; [reflexivity|].
  intros k K. cbn in *. apply (back_eqv sh); [|assumption].
  intros i I. rewrite forth_back by assumption. cbn. rewrite ?Ew, ?Ev. fold (bc_index sh sh i). rewrite !Bi by assumption. ring.
Qed.
Print Assumptions C143_twice.
(** A window which is itself a transform: the only difference between the two functions *)
Theorem C143_convolve : forall sh c ax o x y, make sh c ax true true = Ok o -> ashape x = sh -> ashape y = sh ->
  exists w z, fft o (Arr y) = Ok w /\ fftconvolve o (Arr x) (Arr y) = Ok z /\ gives (fftwindow o (Arr x) w) z.
Proof.
  intros sh c ax o x y M Ex Ey. pose proof (make_ok _ _ _ _ _ _ M) as (_ & _ & _ & N & F).
  assert (Bs: bc_fits sh sh = true).
  { unfold bc_fits. rewrite Nat.leb_refl, Nat.sub_diag. cbn. clear. induction sh; cbn; [reflexivity|]. now rewrite Nat.eqb_refl. }
  assert (Bi: forall k, index_of sh k -> bc_index sh sh k = k).
  { intros k K. unfold bc_index. rewrite Nat.sub_diag. cbn. clear - K. induction K as [|i n k s L K IH]; [reflexivity|]. cbn.
    rewrite IH. destruct (Nat.eqb_spec n 1); [|reflexivity]. f_equal. lia. }
  exists {| ashape := sh; aval := forward_dft sh (paxes o) (aval y) |}. eexists.
  split; [now apply (fft_ok _ _ _ _ _ _ M)|].
  unfold fftconvolve, fftwindow. rewrite (fft_ok _ _ _ _ _ _ M Ex), (fft_ok _ _ _ _ _ _ M Ey). cbn [rbind ashape]. rewrite Bs.
  split; [now apply (ifft_ok _ _ _ _ _ _ M)|].
  eexists. split; [now apply (ifft_ok _ _ _ _ _ _ M)|]. split; [reflexivity|].
  intros k K. cbn in *. unfold backward_dft. f_equal. apply (dft_eqv 1 sh); [|assumption].
  intros i I. fold (bc_index sh sh i). now rewrite Bi.
Qed.
Print Assumptions C143_convolve.
Example C143_example : exists o, make [2%nat; 3%nat] true (AxInt (-1)) true true = Ok o /\
  bc_fits [2%nat; 3%nat] [3%nat] = true /\ bc_fits [2%nat; 3%nat] [2%nat] = false /\
  fftwindow o (Arr {| ashape := [2%nat; 3%nat]; aval := fun _ => C1 |}) {| ashape := [2%nat]; aval := fun _ => C1 |} = Err ValueError.
Proof. eexists. repeat split. Qed.

(** C144 *)
Theorem C144_errors : forall o x,
  fft o x = match x with
            | Arr a => if has_fft o then
                         if list_eq_dec Nat.eq_dec (ashape a) (pshape o)
                         then Ok {| ashape := ashape a; aval := forward_dft (pshape o) (paxes o) (aval a) |} else Err ValueError
                       else Err RuntimeError
            | NoShape => Err RuntimeError
            end.
Proof.
  intros o [a|]; unfold fft, call, guard, shape_eqb; destruct (has_fft o); try reflexivity.
  now destruct (list_eq_dec _ _ _).
Qed.
Print Assumptions C144_errors.
Theorem C144_dtype : forall sh ax f b, make sh false ax f b = Err TypeError.
Proof. reflexivity. Qed.
Print Assumptions C144_dtype.
(** "AttributeError: If the forward FFT is not initialized." *)
Theorem C144_documented_refuted : exists sh o x, make sh true AxNone false true = Ok o /\
  ashape x = sh /\ fft o (Arr x) = Err RuntimeError /\ fft o (Arr x) <> Err AttributeError.
Proof.
  exists [2%nat]. eexists. exists ones2. split; [reflexivity|]. split; [reflexivity|]. split; [reflexivity|discriminate].
Qed.
Print Assumptions C144_documented_refuted.
(** "Forward fft not initialised." for a transform that is. *)
Theorem C144_initialised_refuted : exists sh o, make sh true AxNone true true = Ok o /\ fft o NoShape = Err RuntimeError.
Proof. exists [2%nat]. eexists. split; reflexivity. Qed.
Print Assumptions C144_initialised_refuted.
Example C144_example : forall sh, exists o, make sh true AxNone false false = Ok o /\ fftconvolve o (Arr ones2) (Arr ones2) = Err RuntimeError.
Proof.
  intros sh. destruct (make sh true AxNone false false) as [o|e] eqn:M.
  - exists o. split; [reflexivity|]. apply make_ok in M as (_ & H & _). unfold fftconvolve. rewrite C144_errors, H. reflexivity.
  - unfold make in M. cbn in M. destruct (resolve _ _); discriminate.
Qed.
