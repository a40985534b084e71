(** C346-C352: truncation of arrays. *)
From Coq Require Import ZArith Reals List Bool Lia Lra.
From Flocq Require Import Core IEEE754.BinarySingleNaN IEEE754.Binary IEEE754.Bits.
From Verif Require Import PyBase TruncModel TruncSpec TruncProofs BtModel BtSpec BtProofs2 BtProofs3 BtProofs4 BtProofs5 BtProofs6.
Import ListNotations.
Open Scope Z_scope.

Lemma plain_view : forall d a n, Plain d a n -> view a = Ok (a_data a).
Proof. intros d a n (_ & W & S & _). unfold view. now rewrite W, S. Qed.

Lemma relative_run32 : forall order val prec n, Plain Float32 val n -> Order n order ->
  exists l, bit_truncate_relative order val prec = Ok (mkarray Float32 [n] true l)
    /\ Entrywise (fun _ => relative_float prec) (a_data val) l.
Proof.
  intros order val prec n P O. unfold bit_truncate_relative. rewrite (plain_view _ _ _ P).
  destruct P as (D & W & S & L). rewrite D. cbn [rbind]. unfold with_data. rewrite D, W, S.
  exists (prange order (fun _ => relative_float prec) (a_data val)). split; [reflexivity|].
  apply prange_entrywise. now rewrite L.
Qed.
Lemma relative_run64 : forall order val prec n, Plain Float64 val n -> Order n order ->
  exists l, bit_truncate_relative order val prec = Ok (mkarray Float64 [n] true l)
    /\ Entrywise (fun _ => relative_double prec) (a_data val) l.
Proof.
  intros order val prec n P O. unfold bit_truncate_relative. rewrite (plain_view _ _ _ P).
  destruct P as (D & W & S & L). rewrite D. cbn [rbind]. unfold with_data. rewrite D, W, S.
  exists (prange order (fun _ => relative_double prec) (a_data val)). split; [reflexivity|].
  apply prange_entrywise. now rewrite L.
Qed.

(** C346: the relative tolerance holds, with the product rounded as the processor rounds it. *)
Theorem C346_float : forall order val prec p n, Plain Float32 val n -> Order n order ->
  Word 32 prec -> IsFloat prec p ->
  exists l, bit_truncate_relative order val prec = Ok (mkarray Float32 [n] true l) /\ length l = n
    /\ forall i x v, nth_error (a_data val) i = Some x -> Word 32 x -> IsFloat x v ->
       (Rabs v < 2 ^ 127)%R -> ~ (/ 2 ^ 105 <= Rabs v < / 2 ^ 104)%R ->
       exists y r, nth_error l i = Some y /\ IsFloat y r
         /\ (Rabs (r - v) <= Rabs (p * v) * (1 + / 2 ^ 24) + / 2 ^ 150)%R /\ (y <? 0) = (x <? 0).
Proof.
  intros order val prec p n P O Wp Hp. destruct (relative_run32 order val prec n P O) as (l & E & L1 & L2).
  exists l. split; [exact E|]. split; [rewrite L1; apply P|].
  intros i x v N W V S B. destruct (relative_float_by prec x p v Wp W Hp V S B) as (r & R1 & R2 & R3).
  exists (relative_float prec x), r. split; [now apply L2|]. auto.
Qed.
Print Assumptions C346_float.
Theorem C346_double : forall order val prec p n, Plain Float64 val n -> Order n order ->
  Word 64 prec -> IsDouble prec p ->
  exists l, bit_truncate_relative order val prec = Ok (mkarray Float64 [n] true l) /\ length l = n
    /\ forall i x v, nth_error (a_data val) i = Some x -> Word 64 x -> IsDouble x v ->
       (Rabs v < 2 ^ 1023)%R -> ~ (/ 2 ^ 972 <= Rabs v < / 2 ^ 971)%R ->
       exists y r, nth_error l i = Some y /\ IsDouble y r
         /\ (Rabs (r - v) <= Rabs (p * v) * (1 + / 2 ^ 53) + / 2 ^ 1075)%R /\ (y <? 0) = (x <? 0).
Proof.
  intros order val prec p n P O Wp Hp. destruct (relative_run64 order val prec n P O) as (l & E & L1 & L2).
  exists l. split; [exact E|]. split; [rewrite L1; apply P|].
  intros i x v N W V S B. destruct (relative_double_by prec x p v Wp W Hp V S B) as (r & R1 & R2 & R3).
  exists (relative_double prec x), r. split; [now apply L2|]. auto.
Qed.
Print Assumptions C346_double.
(** 0.001 of [32.1; -7.25], in the order 1, 0: 32.1 becomes 32.125; -7.25 stays. *)
Example C346_example :
  bit_truncate_relative [1; 0]%nat (mkarray Float32 [2%nat] true [1107322470; -1058537472]) 981668463
  = Ok (mkarray Float32 [2%nat] true [1107329024; -1058537472]).
Proof. vm_compute. reflexivity. Qed.
Example C346_example_order : Order 2 [1; 0]%nat.
Proof.
  split; [repeat constructor; cbn; intuition lia|]. intros i. cbn. split; [intros [<-|[<-|[]]]; lia|lia].
Qed.

(** C347: entries that are not finite become zeros of the same sign. *)
Theorem C347_float : forall order val prec n, Plain Float32 val n -> Order n order ->
  exists l, bit_truncate_relative order val prec = Ok (mkarray Float32 [n] true l)
    /\ forall i x, nth_error (a_data val) i = Some x -> Word 32 x -> ieee_units 23 8 x = None ->
       nth_error l i = Some (if x <? 0 then - 2 ^ 31 else 0).
Proof.
  intros order val prec n P O. destruct (relative_run32 order val prec n P O) as (l & E & L1 & L2).
  exists l. split; [exact E|]. intros i x N W U. rewrite (L2 i x N). now rewrite relative_float_special.
Qed.
Print Assumptions C347_float.
Theorem C347_double : forall order val prec n, Plain Float64 val n -> Order n order ->
  exists l, bit_truncate_relative order val prec = Ok (mkarray Float64 [n] true l)
    /\ forall i x, nth_error (a_data val) i = Some x -> Word 64 x -> ieee_units 52 11 x = None ->
       nth_error l i = Some (if x <? 0 then - 2 ^ 63 else 0).
Proof.
  intros order val prec n P O. destruct (relative_run64 order val prec n P O) as (l & E & L1 & L2).
  exists l. split; [exact E|]. intros i x N W U. rewrite (L2 i x N). now rewrite relative_double_special.
Qed.
Print Assumptions C347_double.
(** Infinity, NaN, minus infinity and 1.0 *)
Example C347_example :
  bit_truncate_relative [0; 1; 2; 3]%nat (mkarray Float32 [4%nat] true [2139095040; 2143289344; -8388608; 1065353216]) 981668463
  = Ok (mkarray Float32 [4%nat] true [0; 0; - 2 ^ 31; 1065353216]).
Proof. vm_compute. reflexivity. Qed.

(** C348: truncation by weights. *)
Lemma zero32 : forall w x, Word 32 w -> IsFloat w x -> (is_zero32 w = true <-> x = 0%R).
Proof.
  intros w x W H. destruct (IsFloat_B2R w x W H) as [Fw Rw]. unfold is_zero32. subst x.
  destruct (f32 w) as [s|s|s|s m e B]; try discriminate; [split; reflexivity|].
  split; [discriminate|]. cbn [B2R]. intros Z0. apply eq_0_F2R in Z0. destruct s; discriminate.
Qed.
Lemma zero64 : forall w x, Word 64 w -> IsDouble w x -> (is_zero64 w = true <-> x = 0%R).
Proof.
  intros w x W H. destruct (IsDouble_B2R w x W H) as [Fw Rw]. unfold is_zero64. subst x.
  destruct (f64 w) as [s|s|s|s m e B]; try discriminate; [split; reflexivity|].
  split; [discriminate|]. cbn [B2R]. intros Z0. apply eq_0_F2R in Z0. destruct s; discriminate.
Qed.

Definition is_single (d : dtype) : bool := match d with Float32 => true | _ => false end.
Lemma weights_run : forall order rsqrt val inv_var fallback n d, (d = Float32 \/ d = Float64) ->
  Plain d val n -> Plain d inv_var n -> Order n order ->
  exists l, bit_truncate_weights order rsqrt val inv_var fallback = Ok (mkarray d [n] true l)
    /\ Entrywise (fun i v => (if is_single d then weight_float else weight_double) rsqrt fallback v
                                (nth i (a_data inv_var) 0)) (a_data val) l.
Proof.
  intros order rsqrt val inv_var fallback n d Hd P Q O. unfold bit_truncate_weights.
  rewrite (plain_view _ _ _ P), (plain_view _ _ _ Q). cbn [rbind].
  destruct P as (D & W & S & L), Q as (D' & W' & S' & L'). rewrite L, L', Nat.eqb_refl.
  unfold with_data. rewrite D, D', W, S.
  destruct Hd as [-> | ->]; cbn [dtype_eqb andb is_single];
    eexists; (split; [reflexivity|apply prange_entrywise; now rewrite L]).
Qed.

Theorem C348_float : forall order rsqrt val inv_var fallback n, Plain Float32 val n -> Plain Float32 inv_var n ->
  Order n order ->
  exists l, bit_truncate_weights order rsqrt val inv_var fallback = Ok (mkarray Float32 [n] true l) /\ length l = n
    /\ forall i x v w k, nth_error (a_data val) i = Some x -> nth_error (a_data inv_var) i = Some w ->
       Word 32 x -> Word 32 w -> IsFloat x v -> IsFloat w k ->
       (Rabs v < 2 ^ 127)%R -> ~ (/ 2 ^ 105 <= Rabs v < / 2 ^ 104)%R ->
       (forall t, k <> 0%R -> Word 32 (rsqrt w) -> IsFloat (rsqrt w) t -> (0 <= t)%R ->
          exists y r, nth_error l i = Some y /\ IsFloat y r /\ (Rabs (r - v) <= t)%R)
       /\ (forall f, k = 0%R -> Word 32 fallback -> IsFloat fallback f -> (0 <= f * v)%R -> (f * v < 2 ^ 127)%R ->
          exists y r, nth_error l i = Some y /\ IsFloat y r
            /\ (Rabs (r - v) <= f * v * (1 + / 2 ^ 24) + / 2 ^ 150)%R).
Proof.
  intros order rsqrt val inv_var fallback n P Q O.
  destruct (weights_run order rsqrt val inv_var fallback n Float32 (or_introl eq_refl) P Q O) as (l & E & L1 & L2).
  exists l. split; [exact E|]. split; [rewrite L1; apply P|].
  intros i x v w k Nx Nw Wx Ww Hx Hw Hs Hb. specialize (L2 i x Nx). cbn [is_single] in L2.
  rewrite (nth_error_nth _ _ 0 Nw) in L2. pose proof (zero32 w k Ww Hw) as Z32. unfold weight_float in L2. split.
  - intros t K Wr Hr T0. destruct (is_zero32 w); [now elim K; apply Z32|].
    destruct (float_by x (rsqrt w) v t Wx Wr Hx Hr T0 Hs Hb) as (r & R1 & R2 & _). eauto.
  - intros f K Wf Hf F0 F1. rewrite (proj2 Z32 K) in L2.
    pose proof (mul32_round fallback x f v Wf Wx Hf Hx ltac:(rewrite Rabs_right by lra; exact F1)) as M.
    destruct (float_by x (mul32 fallback x) v _ Wx (mul32_word _ _) Hx M (rnd32_nonneg _ F0) Hs Hb) as (r & R1 & R2 & _).
    exists (bit_truncate_float x (mul32 fallback x)), r. split; [exact L2|]. split; [exact R1|].
    pose proof (rnd32_error (f * v)) as Er. rewrite (Rabs_right (f * v)) in Er by lra. apply Rabs_le_inv in Er. lra.
Qed.
Print Assumptions C348_float.
Theorem C348_double : forall order rsqrt val inv_var fallback n, Plain Float64 val n -> Plain Float64 inv_var n ->
  Order n order ->
  exists l, bit_truncate_weights order rsqrt val inv_var fallback = Ok (mkarray Float64 [n] true l) /\ length l = n
    /\ forall i x v w k, nth_error (a_data val) i = Some x -> nth_error (a_data inv_var) i = Some w ->
       Word 64 x -> Word 64 w -> IsDouble x v -> IsDouble w k ->
       (Rabs v < 2 ^ 1023)%R -> ~ (/ 2 ^ 972 <= Rabs v < / 2 ^ 971)%R ->
       (forall t, k <> 0%R -> Word 64 (rsqrt w) -> IsDouble (rsqrt w) t -> (0 <= t)%R ->
          exists y r, nth_error l i = Some y /\ IsDouble y r /\ (Rabs (r - v) <= t)%R)
       /\ (forall f, k = 0%R -> Word 64 fallback -> IsDouble fallback f -> (0 <= f * v)%R -> (f * v < 2 ^ 1023)%R ->
          exists y r, nth_error l i = Some y /\ IsDouble y r
            /\ (Rabs (r - v) <= f * v * (1 + / 2 ^ 53) + / 2 ^ 1075)%R).
Proof.
  intros order rsqrt val inv_var fallback n P Q O.
  destruct (weights_run order rsqrt val inv_var fallback n Float64 (or_intror eq_refl) P Q O) as (l & E & L1 & L2).
  exists l. split; [exact E|]. split; [rewrite L1; apply P|].
  intros i x v w k Nx Nw Wx Ww Hx Hw Hs Hb. specialize (L2 i x Nx). cbn [is_single] in L2.
  rewrite (nth_error_nth _ _ 0 Nw) in L2. pose proof (zero64 w k Ww Hw) as Z64. unfold weight_double in L2. split.
  - intros t K Wr Hr T0. destruct (is_zero64 w); [now elim K; apply Z64|].
    destruct (double_by x (rsqrt w) v t Wx Wr Hx Hr T0 Hs Hb) as (r & R1 & R2 & _). eauto.
  - intros f K Wf Hf F0 F1. rewrite (proj2 Z64 K) in L2.
    pose proof (mul64_round fallback x f v Wf Wx Hf Hx ltac:(rewrite Rabs_right by lra; exact F1)) as M.
    destruct (double_by x (mul64 fallback x) v _ Wx (mul64_word _ _) Hx M (rnd64_nonneg _ F0) Hs Hb) as (r & R1 & R2 & _).
    exists (bit_truncate_double x (mul64 fallback x)), r. split; [exact L2|]. split; [exact R1|].
    pose proof (rnd64_error (f * v)) as Er. rewrite (Rabs_right (f * v)) in Er by lra. apply Rabs_le_inv in Er. lra.
Qed.
Print Assumptions C348_double.
(** 32.1 with the weights 16 (tolerance 1/4) and 0 (fallback 0.001) *)
Example C348_example :
  bit_truncate_weights [0; 1]%nat (fun _ => 1048576000) (mkarray Float32 [2%nat] true [1107322470; 1107322470])
    (mkarray Float32 [2%nat] true [1098907648; 0]) 981668463
  = Ok (mkarray Float32 [2%nat] true [1107296256; 1107329024]).
Proof. vm_compute. reflexivity. Qed.

(** C349: the order of the iterations does not matter; what is refused. *)
Theorem C349_order : forall o1 o2 n val inv_var prec rsqrt, length (a_data val) = n -> Order n o1 -> Order n o2 ->
  bit_truncate_relative o1 val prec = bit_truncate_relative o2 val prec
  /\ bit_truncate_weights o1 rsqrt val inv_var prec = bit_truncate_weights o2 rsqrt val inv_var prec.
Proof.
  intros o1 o2 n val inv_var prec rsqrt L O1 O2. rewrite <- L in O1, O2.
  assert (E : forall f, prange o1 f (a_data val) = prange o2 f (a_data val)).
  { intros f. apply (entrywise_unique f (a_data val)); now apply prange_entrywise. }
  assert (V : forall l, view val = Ok l -> l = a_data val).
  { intros l. unfold view. destruct (a_writeable val); [|discriminate]. destruct (a_shape val) as [|? [|]]; try discriminate.
    congruence. }
  unfold bit_truncate_relative, bit_truncate_weights.
  destruct (view val) as [l|] eqn:Ev; cbn [rbind].
  - rewrite (V l eq_refl). split.
    + destruct (a_dtype val); rewrite ?E; reflexivity.
    + destruct (view inv_var); cbn [rbind]; rewrite ?E; reflexivity.
  - split; reflexivity.
Qed.
Print Assumptions C349_order.
Theorem C349_refused : forall order val inv_var prec rsqrt,
  ((a_dtype val <> Float32 /\ a_dtype val <> Float64) -> bit_truncate_relative order val prec = Err RuntimeError)
  /\ ((a_dtype val = Float32 \/ a_dtype val = Float64) -> (a_writeable val = false \/ length (a_shape val) <> 1%nat) ->
      bit_truncate_relative order val prec = Err ValueError)
  /\ ((a_dtype val <> a_dtype inv_var \/ a_dtype val = OtherType) ->
      bit_truncate_weights order rsqrt val inv_var prec = Err RuntimeError)
  /\ ((a_dtype val = Float32 \/ a_dtype val = Float64) -> a_dtype inv_var = a_dtype val ->
      (a_writeable val = false \/ a_writeable inv_var = false
       \/ length (a_shape val) <> 1%nat \/ length (a_shape inv_var) <> 1%nat
       \/ length (a_data inv_var) <> length (a_data val)) ->
      bit_truncate_weights order rsqrt val inv_var prec = Err ValueError).
Proof.
  intros order val inv_var prec rsqrt.
  assert (V : forall a, a_writeable a = false \/ length (a_shape a) <> 1%nat -> view a = Err ValueError).
  { intros a H. unfold view. destruct (a_writeable a); [|reflexivity]. destruct H as [H|H]; [discriminate|].
    destruct (a_shape a) as [|? [|]]; try reflexivity. now elim H. }
  assert (V2 : forall a, (exists l, view a = Ok l /\ l = a_data a) \/ view a = Err ValueError).
  { intros a. unfold view. destruct (a_writeable a); [|auto]. destruct (a_shape a) as [|? [|]]; eauto. }
  split; [|split; [|split]].
  - intros [H1 H2]. unfold bit_truncate_relative. destruct (a_dtype val); congruence.
  - intros [H|H] B; unfold bit_truncate_relative; rewrite H, (V val B); reflexivity.
  - intros H. unfold bit_truncate_weights. destruct (a_dtype val), (a_dtype inv_var); cbn [dtype_eqb andb]; try reflexivity;
      destruct H; try discriminate; congruence.
  - intros D D' H. unfold bit_truncate_weights. rewrite D'.
    assert (R : forall elem, rbind (view val) (fun l => rbind (view inv_var) (fun w =>
              if (length w =? length l)%nat then Ok (with_data val (prange order (fun i v => elem prec v (nth i w 0)) l))
              else Err ValueError)) = Err ValueError).
    { intros elem.
      destruct (V2 val) as [(l & E1 & ->)|E1]; rewrite E1; cbn [rbind]; [|reflexivity].
      destruct (V2 inv_var) as [(w & E2 & ->)|E2]; rewrite E2; cbn [rbind]; [|reflexivity].
      destruct (Nat.eqb_spec (length (a_data inv_var)) (length (a_data val))) as [El|El]; [|reflexivity].
      exfalso. destruct H as [H|[H|[H|[H|H]]]]; [| | | |now apply H].
      - rewrite (V val (or_introl H)) in E1. discriminate.
      - rewrite (V inv_var (or_introl H)) in E2. discriminate.
      - rewrite (V val (or_intror H)) in E1. discriminate.
      - rewrite (V inv_var (or_intror H)) in E2. discriminate. }
    destruct D as [D|D]; rewrite D; cbn [dtype_eqb andb]; apply R.
Qed.
Print Assumptions C349_refused.
(** The scalar functions refuse a NaN and only that. *)
Theorem C349_scalar : forall val err,
  (py_truncate_float val err = Err ValueError <-> is_nan 24 128 (b32_of_bits (err mod 2 ^ 32)) = true)
  /\ (py_truncate_double val err = Err ValueError <-> is_nan 53 1024 (b64_of_bits (err mod 2 ^ 64)) = true).
Proof.
  intros val err. unfold py_truncate_float, py_truncate_double, is_nan32, is_nan64, f32, f64.
  split; (destruct (is_nan _ _ _); split; congruence).
Qed.
Print Assumptions C349_scalar.
Example C349_example :
  bit_truncate_relative [0%nat] (mkarray Float32 [1%nat; 1%nat] true [1107322470]) 981668463 = Err ValueError
  /\ py_truncate_float 1107322470 2143289344 = Err ValueError
  /\ py_truncate_float 1107322470 1048576000 = Ok 1107296256.
Proof. repeat split; vm_compute; reflexivity. Qed.

(** C350: rows of complex numbers. *)
Theorem C350_row : forall cabs prec pmax row p q M i a b x y c, (0 <= M < 2 ^ 124)%R -> Doubles row M ->
  Word 32 prec -> Word 32 pmax -> IsFloat prec p -> IsFloat pmax q -> (0 <= p <= 1)%R -> (0 <= q <= 1)%R ->
  nth_error row i = Some (a, b) -> IsDouble a x -> IsDouble b y ->
  Word 64 (cabs a b) -> IsDouble (cabs a b) c -> (0 <= c < 2 ^ 125)%R ->
  ~ (/ 2 ^ 106 <= Rabs x < / 2 ^ 103)%R -> ~ (/ 2 ^ 106 <= Rabs y < / 2 ^ 103)%R ->
  exists a' b' x' y', nth_error (truncate_row cabs prec pmax row) i = Some (a', b') /\ IsDouble a' x' /\ IsDouble b' y'
    /\ let t := (Rmax (c * p) (q * (M * (1 + / 2 ^ 51) + / 2 ^ 534)) * (1 + / 2 ^ 22) + / 2 ^ 148)%R in
       (Rabs (x' - x) <= t + Rabs x * / 2 ^ 24 + / 2 ^ 150)%R /\ (Rabs (y' - y) <= t + Rabs y * / 2 ^ 24 + / 2 ^ 150)%R.
Proof.
  intros cabs prec pmax row p q M i a b x y c HM HD Wp Wq Hp Hq Lp Lq N Ha Hb Wc Hc Lc Bx By.
  destruct (HD (a, b) (nth_error_In _ _ N)) as (Wa & Wb & x0 & y0 & Ha0 & Hb0 & Mxy). cbn [fst snd] in *.
  assert (x0 = x /\ y0 = y) as [-> ->].
  { destruct Ha as (u & U & ->), Ha0 as (u0 & U0 & ->), Hb as (z & V & ->), Hb0 as (z0 & V0 & ->).
    rewrite U in U0. rewrite V in V0. injection U0 as ->. injection V0 as ->. auto. }
  assert (Q1 : (2 ^ 125 = 2 * 2 ^ 124)%R) by (symmetry; apply tech_pow_Rmult).
  assert (Q2 : (2 ^ 126 = 2 * 2 ^ 125)%R) by (symmetry; apply tech_pow_Rmult).
  assert (Q3 : (2 <= 2 ^ 124)%R) by (rewrite <- (pow_1 2) at 1; apply Rle_pow; [lra|lia]).
  set (K := (2 ^ 124)%R) in *.
  destruct (row_max_by M row ltac:(lra) HD) as (m & Hm & Lm).
  assert (U1 : (/ 2 ^ 51 <= / 4)%R) by (replace 4%R with (2 ^ 2)%R by lra; apply pow_inv_le; lia).
  assert (U2 : (/ 2 ^ 534 <= / 4)%R) by (replace 4%R with (2 ^ 2)%R by lra; apply pow_inv_le; lia).
  pose proof (pow_inv_pos 51) as U3. pose proof (pow_inv_pos 534) as U4.
  set (G := (M * (1 + / 2 ^ 51) + / 2 ^ 534)%R) in *.
  assert (G1 : (G < 2 ^ 125)%R).
  { unfold G. assert ((M * / 2 ^ 51 <= M * / 4)%R) by (apply Rmult_le_compat_l; lra). lra. }
  destruct (precision_by cabs prec pmax (row_max row) (a, b) p q c m) as (Wt & t & Ht & Lt); auto.
  - apply sqrt64_word.
  - lra.
  - assert (Mx : forall s, (s * s <= M * M)%R -> (Rabs s < 2 ^ 126)%R).
    { intros s Hs. apply Rle_lt_trans with M; [|lra]. apply Rsqr_incr_0; [|apply Rabs_pos|lra].
      rewrite <- Rsqr_abs. exact Hs. }
    assert (T : (t <= Rmax (c * p) (q * G) * (1 + / 2 ^ 22) + / 2 ^ 148)%R).
    { eapply Rle_trans; [apply Lt|]. apply Rplus_le_compat_r. apply Rmult_le_compat_r; [pose proof (pow_inv_pos 22); lra|].
      apply Rle_max_compat_l. apply Rmult_le_compat_l; lra. }
    destruct (part_by a _ x t Wa Wt Ha Ht (proj1 Lt) (Mx x ltac:(pose proof (Rle_0_sqr y) as Y; unfold Rsqr in Y; lra)) Bx) as (x' & X1 & X2).
    destruct (part_by b _ y t Wb Wt Hb Ht (proj1 Lt) (Mx y ltac:(pose proof (Rle_0_sqr x) as Y; unfold Rsqr in Y; lra)) By) as (y' & Y1 & Y2).
    eexists _, _, x', y'. split; [|split; [exact X1|split; [exact Y1|]]].
    + unfold truncate_row. rewrite nth_error_map, N. reflexivity.
    + cbv zeta. split; lra.
Qed.
Print Assumptions C350_row.
(** [1 + 0.1j] with the relative precision 2^-10: 0.1 becomes 51/512. *)
Example C350_example : truncate_row (fun _ _ => 4607226443136827392) 981467136 0 [(4607182418800017408, 4591870180066957722)]
  = [(4607182418800017408, 4591842032569286656)].
Proof. vm_compute. reflexivity. Qed.
Example C350_example_units : ieee_units 52 11 4607182418800017408 = Some (2 ^ 1074)
  /\ ieee_units 52 11 4591842032569286656 = Some (51 * 2 ^ 1074 / 2 ^ 9) /\ ieee_units 23 8 981467136 = Some (2 ^ 139).
Proof. repeat split; vm_compute; reflexivity. Qed.

(** C351: not a number stays not a number: refuted. *)
Theorem C351_relative_refuted : exists order val prec l, Order 1 order
  /\ bit_truncate_relative order val prec = Ok (mkarray Float32 [1%nat] true l)
  /\ (exists x y, a_data val = [x] /\ l = [y] /\ ieee_units 23 8 x = None /\ ieee_units 23 8 y = Some 0).
Proof.
  exists [0%nat], (mkarray Float32 [1%nat] true [2143289344]), 981668463, [0].
  split; [split; [repeat constructor; cbn; tauto|intros i; cbn; lia]|].
  split; [vm_compute; reflexivity|]. exists 2143289344, 0. repeat split; vm_compute; reflexivity.
Qed.
Print Assumptions C351_relative_refuted.

(** C352: a precision of 0 keeps complex numbers; a number that is not finite does not spoil the others; large numbers
    keep their size: refuted. *)
Theorem C352_zero_refuted : exists x, forall cabs, cabs x 0 = x ->
  truncate_row cabs 0 0 [(x, 0)] <> [(x, 0)] /\ exists u, ieee_units 52 11 x = Some u.
Proof.
  exists 4591870180066957722. intros cabs E. unfold truncate_row, precision. cbn [map fst snd]. rewrite E. split.
  - vm_compute. discriminate.
  - vm_compute. eexists. reflexivity.
Qed.
Print Assumptions C352_zero_refuted.
Theorem C352_nan_refuted : exists x y, forall cabs, cabs x y = x ->
  truncate_row cabs 981467136 0 [(x, y)] = [(0, 0)] /\ ieee_units 52 11 y = Some (2 ^ 1074) /\ ieee_units 52 11 x = None.
Proof.
  exists 9221120237041090560, 4607182418800017408. intros cabs E. unfold truncate_row, precision. cbn [map fst snd]. rewrite E.
  repeat split; vm_compute; reflexivity.
Qed.
Print Assumptions C352_nan_refuted.
Theorem C352_large_refuted : exists x, forall cabs, cabs x 0 = x ->
  truncate_row cabs 981467136 0 [(x, 0)] = [(0, 0)] /\ exists u, ieee_units 52 11 x = Some u /\ 2 ^ (1074 + 600) < u.
Proof.
  exists 7598952565167317594. intros cabs E. unfold truncate_row, precision. cbn [map fst snd]. rewrite E. split.
  - vm_compute. reflexivity.
  - eexists. split; [vm_compute; reflexivity|]. vm_compute. reflexivity.
Qed.
Print Assumptions C352_large_refuted.
