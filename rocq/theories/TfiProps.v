(** C388-C389: truncating twice. *)
From Coq Require Import ZArith Reals List Bool Lia Lra.
From Verif Require Import PyBase TruncModel TruncSpec TruncProofs BtModel BtSpec BtProofs2 BtProofs3 BtProofs4 BtProofs5 BtProofs6
  BtProps TfiProofs.
Import ListNotations.
Open Scope Z_scope.

(** C388: truncating again with the same tolerance changes nothing. *)
Theorem C388_float : forall val err V E,
  Word 32 val -> Word 32 err ->
  ieee_units 23 8 val = Some V -> ieee_units 23 8 err = Some E -> 0 <= E ->
  Z.abs V < 2 ^ 276 -> ~ (2 ^ 44 <= Z.abs V < 2 ^ 45) ->
  bit_truncate_float (bit_truncate_float val err) err = bit_truncate_float val err.
Proof. exact float_twice. Qed.
Print Assumptions C388_float.

Theorem C388_double : forall val err V E,
  Word 64 val -> Word 64 err ->
  ieee_units 52 11 val = Some V -> ieee_units 52 11 err = Some E -> 0 <= E ->
  Z.abs V < 2 ^ 2097 -> ~ (2 ^ 102 <= Z.abs V < 2 ^ 103) ->
  bit_truncate_double (bit_truncate_double val err) err = bit_truncate_double val err.
Proof. exact double_twice. Qed.
Print Assumptions C388_double.

(** 32.1 with the tolerance 0.25 becomes 32; 1.99 with the tolerance 0.1 becomes 2. *)
Example C388_example :
  bit_truncate_float 1107322470 1048576000 = 1107296256
  /\ bit_truncate_float 1107296256 1048576000 = 1107296256
  /\ bit_truncate_float 1073657938 1036831949 = 1073741824
  /\ bit_truncate_float 1073741824 1036831949 = 1073741824.
Proof. vm_compute. auto. Qed.

(** The same for arrays with weights, none of which is zero, in any orders of the iterations. *)
Lemma nth_error_same : forall (A : Type) (l l' : list A), length l' = length l ->
  (forall i v, nth_error l i = Some v -> nth_error l' i = Some v) -> l' = l.
Proof.
  intros A l. induction l as [|x l IH]; intros [|y l'] L H; try discriminate; [reflexivity|].
  pose proof (H 0%nat x eq_refl) as H0. cbn in H0. injection H0 as ->. f_equal.
  apply IH; [now injection L|]. intros i v N. exact (H (S i) v N).
Qed.

Lemma weights_twice : forall d order order' rsqrt val inv_var fallback fallback' n,
  (d = Float32 \/ d = Float64) ->
  Plain d val n -> Plain d inv_var n -> Order n order -> Order n order' ->
  (forall i x w, nth_error (a_data val) i = Some x -> nth_error (a_data inv_var) i = Some w ->
     let f := if is_single d then weight_float else weight_double in
     f rsqrt fallback' (f rsqrt fallback x w) w = f rsqrt fallback x w) ->
  exists r, bit_truncate_weights order rsqrt val inv_var fallback = Ok r
    /\ bit_truncate_weights order' rsqrt r inv_var fallback' = Ok r.
Proof.
  intros d order order' rsqrt val inv_var fallback fallback' n Hd P Q O O' H.
  destruct (weights_run order rsqrt val inv_var fallback n d Hd P Q O) as (l & E & L1 & L2).
  exists (mkarray d [n] true l). split; [exact E|].
  assert (Ln : length l = n) by (rewrite L1; apply P).
  assert (P' : Plain d (mkarray d [n] true l) n) by (repeat split; exact Ln).
  destruct (weights_run order' rsqrt _ inv_var fallback' n d Hd P' Q O') as (l' & E' & L1' & L2').
  rewrite E'. do 2 f_equal. cbn [a_data] in *. apply nth_error_same; [exact L1'|].
  intros i v N. rewrite (L2' i v N). f_equal.
  assert (Hi : (i < n)%nat) by (rewrite <- Ln; apply nth_error_Some; congruence).
  destruct (nth_error (a_data val) i) as [x|] eqn:Nx.
  2:{ apply nth_error_None in Nx. destruct P as (_ & _ & _ & Lv). lia. }
  destruct (nth_error (a_data inv_var) i) as [k|] eqn:Nk.
  2:{ apply nth_error_None in Nk. destruct Q as (_ & _ & _ & Lv). lia. }
  pose proof (L2 i x Nx) as Ex. rewrite N in Ex. injection Ex as Ex.
  rewrite (nth_error_nth _ _ 0 Nk) in Ex |- *. rewrite Ex. exact (H i x k Nx Nk).
Qed.

Theorem C388_weights_float : forall order order' rsqrt val inv_var fallback fallback' n,
  Plain Float32 val n -> Plain Float32 inv_var n -> Order n order -> Order n order' ->
  (forall i x, nth_error (a_data val) i = Some x -> Word 32 x /\ exists V, ieee_units 23 8 x = Some V
     /\ Z.abs V < 2 ^ 276 /\ ~ (2 ^ 44 <= Z.abs V < 2 ^ 45)) ->
  (forall i w, nth_error (a_data inv_var) i = Some w -> Word 32 w /\ Word 32 (rsqrt w)
     /\ exists K E, ieee_units 23 8 w = Some K /\ K <> 0 /\ ieee_units 23 8 (rsqrt w) = Some E /\ 0 <= E) ->
  exists r, bit_truncate_weights order rsqrt val inv_var fallback = Ok r
    /\ bit_truncate_weights order' rsqrt r inv_var fallback' = Ok r.
Proof.
  intros order order' rsqrt val inv_var fallback fallback' n P Q O O' Hv Hw.
  apply (weights_twice Float32 order order' rsqrt val inv_var fallback fallback' n); auto.
  intros i x w Nx Nw f. unfold f. cbn [is_single].
  destruct (Hv i x Nx) as (Wx & V & HV & B1 & B2). destruct (Hw i w Nw) as (Ww & Wr & K & E & HK & K0 & HE & E0).
  assert (Nz : is_zero32 w = false).
  { destruct (is_zero32 w) eqn:Z0; [|reflexivity]. exfalso. apply K0.
    assert (F : IsFloat w (IZR K / 2 ^ 149)) by (exists K; auto).
    apply (zero32 w _ Ww F) in Z0. apply eq_IZR.
    assert (0 < 2 ^ 149)%R by (apply pow_lt; lra).
    apply (f_equal (fun t => t * 2 ^ 149)%R) in Z0. field_simplify in Z0; lra. }
  unfold weight_float. rewrite Nz. exact (float_twice x (rsqrt w) V E Wx Wr HV HE E0 B1 B2).
Qed.
Print Assumptions C388_weights_float.

Theorem C388_weights_double : forall order order' rsqrt val inv_var fallback fallback' n,
  Plain Float64 val n -> Plain Float64 inv_var n -> Order n order -> Order n order' ->
  (forall i x, nth_error (a_data val) i = Some x -> Word 64 x /\ exists V, ieee_units 52 11 x = Some V
     /\ Z.abs V < 2 ^ 2097 /\ ~ (2 ^ 102 <= Z.abs V < 2 ^ 103)) ->
  (forall i w, nth_error (a_data inv_var) i = Some w -> Word 64 w /\ Word 64 (rsqrt w)
     /\ exists K E, ieee_units 52 11 w = Some K /\ K <> 0 /\ ieee_units 52 11 (rsqrt w) = Some E /\ 0 <= E) ->
  exists r, bit_truncate_weights order rsqrt val inv_var fallback = Ok r
    /\ bit_truncate_weights order' rsqrt r inv_var fallback' = Ok r.
Proof.
  intros order order' rsqrt val inv_var fallback fallback' n P Q O O' Hv Hw.
  apply (weights_twice Float64 order order' rsqrt val inv_var fallback fallback' n); auto.
  intros i x w Nx Nw f. unfold f. cbn [is_single].
  destruct (Hv i x Nx) as (Wx & V & HV & B1 & B2). destruct (Hw i w Nw) as (Ww & Wr & K & E & HK & K0 & HE & E0).
  assert (Nz : is_zero64 w = false).
  { destruct (is_zero64 w) eqn:Z0; [|reflexivity]. exfalso. apply K0.
    assert (F : IsDouble w (IZR K / 2 ^ 1074)) by (exists K; auto).
    apply (zero64 w _ Ww F) in Z0. apply eq_IZR.
    assert (G : (0 < 2 ^ 1074)%R) by (apply pow_lt; lra).
    unfold Rdiv in Z0. apply Rmult_integral in Z0 as [Z0|Z0]; [exact Z0|].
    exfalso. revert Z0. apply Rinv_neq_0_compat. lra. }
  unfold weight_double. rewrite Nz. exact (double_twice x (rsqrt w) V E Wx Wr HV HE E0 B1 B2).
Qed.
Print Assumptions C388_weights_double.

(** 32.1 and 1.99 with the weight 16 (tolerance 0.25), twice *)
Example C388_example_weights :
  let inv := mkarray Float32 [2%nat] true [1098907648; 1098907648] in
  let once := Ok (mkarray Float32 [2%nat] true [1107296256; 1073741824]) in
  bit_truncate_weights [0; 1]%nat (fun _ => 1048576000) (mkarray Float32 [2%nat] true [1107322470; 1073657938]) inv 0 = once
  /\ rbind once (fun r => bit_truncate_weights [1; 0]%nat (fun _ => 1048576000) r inv 0) = once.
Proof. vm_compute. auto. Qed.

(** C389: with a relative precision (and with the fallback for weights of zero) the second time changes
    the array again: the tolerance of the rounded number can be above the next power of two. *)
Theorem C389_refuted : exists prec val once twice, Plain Float32 val 1
  /\ ieee_units 23 8 prec <> None
  /\ bit_truncate_relative [0%nat] val prec = Ok once
  /\ bit_truncate_relative [0%nat] once prec = Ok twice /\ a_data once <> a_data twice.
Proof.
  exists 981662025, (mkarray Float32 [1%nat] true [1073360888]),
    (mkarray Float32 [1%nat] true [1073364992]), (mkarray Float32 [1%nat] true [1073348608]).
  split; [repeat split|]. split; [vm_compute; discriminate|].
  split; [vm_compute; reflexivity|]. split; [vm_compute; reflexivity|]. discriminate.
Qed.
Print Assumptions C389_refuted.

Theorem C389_double_refuted : exists prec val once twice, Plain Float64 val 1
  /\ ieee_units 52 11 prec <> None
  /\ bit_truncate_relative [0%nat] val prec = Ok once
  /\ bit_truncate_relative [0%nat] once prec = Ok twice /\ a_data once <> a_data twice.
Proof.
  exists 4562251052744984808, (mkarray Float64 [1%nat] true [4611481509264621504]),
    (mkarray Float64 [1%nat] true [4611483708287877120]), (mkarray Float64 [1%nat] true [4611474912194854912]).
  split; [repeat split|]. split; [vm_compute; discriminate|].
  split; [vm_compute; reflexivity|]. split; [vm_compute; reflexivity|]. discriminate.
Qed.
Print Assumptions C389_double_refuted.
