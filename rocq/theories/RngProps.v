(** Multithreaded random numbers: C70, C71 (its part), C111. *)
From Coq Require Import String.
From Coq Require Import List Ascii Bool Arith ZArith Lia Permutation.
From Verif Require Import PyBase PyStr MemModel RedSpec ArrModel ArrSpec ArrProofs RngModel RngSpec RngProofs.
Import ListNotations.
Open Scope list_scope.
Open Scope nat_scope.

(** A generator for examples: counts on from its state. *)
Definition counter (g : Z) : Z * Z := (g, (g + 1)%Z).
Definition m0 : mem Z := fun _ => (-1)%Z.

(** C70: parts are consecutive, cover the array, and are as small as possible. *)
Theorem C70_parts : forall n threads, 0 < threads ->
  PartSize n threads (step_of n threads) /\ fst (part n (step_of n threads) 0) = 0 /\ snd (part n (step_of n threads) (threads - 1)) = n /\
  (forall i, snd (part n (step_of n threads) i) = fst (part n (step_of n threads) (S i))) /\ (forall i, fst (part n (step_of n threads) i) <= snd (part n (step_of n threads) i) <= n).
Proof.
  intros n threads H. pose proof (step_covers n threads H) as C. split; [exact C|]. destruct C as [C _]. unfold part. cbn [fst snd]. split; [lia|]. split; [replace (threads - 1 + 1) with threads by lia; lia|].
  split; [intros i; now rewrite Nat.add_1_r|]. intros i. split; [|lia]. assert (i * step_of n threads <= (i + 1) * step_of n threads) by nia. lia.
Qed.
Print Assumptions C70_parts.
Example C70_parts_used : map (part 10 (step_of 10 4)) (seq 0 4) = [(0, 3); (3, 6); (6, 9); (9, 10)]. Proof. reflexivity. Qed.
Example C70_parts_many_threads : map (part 5 (step_of 5 4)) (seq 0 4) = [(0, 2); (2, 4); (4, 5); (5, 5)]. Proof. reflexivity. Qed.

(** However the threads are interleaved: every element is written once, ... *)
Theorem C70_written_once : forall G V (draw : G -> V * G) dst m n gens sched m' ts log, 0 < length gens -> run draw dst m n gens sched = (m', ts, log) ->
  finished (m', ts, log) = true -> Permutation log (seq 0 n).
Proof. intros G V draw dst m n gens sched m' ts log P R F. pose proof (run_done draw n gens m dst sched P) as D. rewrite R in D. apply D, F. Qed.
Print Assumptions C70_written_once.
(** ... at no time twice, even in the middle, ... *)
Theorem C70_never_twice : forall G V (draw : G -> V * G) dst m n gens sched m' ts log, run draw dst m n gens sched = (m', ts, log) -> NoDup log /\ (forall k, In k log -> k < n).
Proof.
  intros G V draw dst m n gens sched m' ts log R. pose proof (inv_run draw n gens m dst sched) as I. rewrite R in I. split; [exact (inv_nodup _ _ _ _ _ _ I)|].
  intros k K. apply (inv_log _ _ _ _ _ _ I) in K as (i & t & E & B). cbn [fst snd] in E. pose proof (inv_length _ _ _ _ _ _ I) as L. cbn [fst snd] in L.
  assert (Li : i < length gens) by (rewrite <- L; apply nth_error_Some; congruence). destruct (nth_error gens i) as [g|] eqn:Eg; [|apply nth_error_None in Eg; lia].
  destruct (inv_threads _ _ _ _ _ _ I i g Eg) as (p & Ep & Bp). cbn [fst snd] in Ep. rewrite E in Ep. injection Ep as ->. cbn [t_pos] in B. lia.
Qed.
Print Assumptions C70_never_twice.
(** ... with a number that depends on the generators only; nothing else is
    written. *)
Theorem C70_values : forall G V (draw : G -> V * G) b m n gens sched m' ts log, 0 < length gens -> run draw (Window b) m n gens sched = (m', ts, log) -> finished (m', ts, log) = true ->
  forall step, PartSize n (length gens) step ->
  (forall k g, k < n -> nth_error gens (k / step) = Some g -> m' (b + Z.of_nat k)%Z = nth_draw draw g (k mod step)) /\
  (forall k, k < n -> k / step < length gens) /\
  (forall a, (a < b \/ b + Z.of_nat n <= a)%Z -> m' a = m a) /\
  (forall i g, nth_error gens i = Some g -> nth_error (map t_gen ts) i = Some (after draw g (Nat.min n ((i + 1) * step) - Nat.min n (i * step)))).
Proof.
  intros G V draw b m n gens sched m' ts log P R F step [S1 S2]. destruct (step_covers n (length gens) P) as [T1 T2].
  assert (step = step_of n (length gens)) by (apply Nat.le_antisymm; auto). subst step.
  pose proof (run_done draw n gens m (Window b) sched P) as D. rewrite R in D. specialize (D F). destruct D as (_ & D & _ & D4). destruct (D b eq_refl) as [D1 D2]. repeat split.
  - exact D1.
  - intros k K. apply Nat.div_lt_upper_bound; [intros Z; rewrite Z in S1; lia|]. lia.
  - intros a A. apply D2. intros k K. lia.
  - intros i g E. destruct (D4 i g E) as (t & E1 & E2). rewrite (map_nth_error t_gen _ _ E1). now rewrite E2.
Qed.
Print Assumptions C70_values.
Example C70_values_used : let '(m', ts, log) := run counter (Window 0) m0 7 [100; 200; 300]%Z [2;0;1;1;0;0;1;2;0] in
  map m' [-1;0;1;2;3;4;5;6;7]%Z = [-1;100;101;102;200;201;202;300;-1]%Z /\ finished (m', ts, log) = true /\ map t_gen ts = [103; 203; 301]%Z.
Proof. cbn. auto. Qed.
(** Any two schedules give the same array and leave the same generators. *)
Theorem C70_schedule : forall G V (draw : G -> V * G) dst m n gens s1 s2 m1 t1 l1 m2 t2 l2, 0 < length gens ->
  run draw dst m n gens s1 = (m1, t1, l1) -> run draw dst m n gens s2 = (m2, t2, l2) -> finished (m1, t1, l1) = true -> finished (m2, t2, l2) = true ->
  (forall a, m1 a = m2 a) /\ map t_gen t1 = map t_gen t2.
Proof.
  intros G V draw dst m n gens s1 s2 m1 t1 l1 m2 t2 l2 P R1 R2 F1 F2. pose proof (inv_run draw n gens m dst s1) as I1. pose proof (inv_run draw n gens m dst s2) as I2. rewrite R1 in I1. rewrite R2 in I2.
  pose proof (inv_length _ _ _ _ _ _ I1) as L1. pose proof (inv_length _ _ _ _ _ _ I2) as L2. cbn [fst snd] in L1, L2.
  pose proof (run_done draw n gens m dst s1 P) as D1. rewrite R1 in D1. specialize (D1 F1). pose proof (run_done draw n gens m dst s2 P) as D2. rewrite R2 in D2. specialize (D2 F2).
  destruct D1 as (_ & A1 & B1 & C1). destruct D2 as (_ & A2 & B2 & C2). split.
  - intros a. destruct dst as [b|l]; [|rewrite (B1 l eq_refl), (B2 l eq_refl); reflexivity]. destruct (A1 b eq_refl) as [X1 Y1]. destruct (A2 b eq_refl) as [X2 Y2].
    destruct (step_covers n (length gens) P) as [S1 _].
    destruct (Z_lt_dec a b); [rewrite Y1, Y2 by (intros; lia); reflexivity|]. destruct (lt_dec (Z.to_nat (a - b)) n) as [K|K]; [|rewrite Y1, Y2 by (intros; lia); reflexivity].
    replace a with (b + Z.of_nat (Z.to_nat (a - b)))%Z by lia. set (k := Z.to_nat (a - b)) in *.
    assert (L : k / step_of n (length gens) < length gens) by (apply Nat.div_lt_upper_bound; [intros Z; rewrite Z in S1; lia|lia]).
    destruct (nth_error gens (k / step_of n (length gens))) as [g|] eqn:E; [|apply nth_error_None in E; lia]. now rewrite (X1 k g K E), (X2 k g K E).
  - assert (X : forall i, nth_error (map t_gen t1) i = nth_error (map t_gen t2) i).
    { intros i. destruct (nth_error gens i) as [g|] eqn:E.
      - destruct (C1 i g E) as (u & U1 & U2). destruct (C2 i g E) as (w & W1 & W2). rewrite (map_nth_error t_gen _ _ U1), (map_nth_error t_gen _ _ W1). congruence.
      - apply nth_error_None in E. rewrite (proj2 (nth_error_None (map t_gen t1) i)) by (rewrite map_length; lia). rewrite (proj2 (nth_error_None (map t_gen t2) i)) by (rewrite map_length; lia). reflexivity. }
    clear - X. revert X. generalize (map t_gen t1) (map t_gen t2). induction l as [|x l IH]; intros [|y l'] X; [reflexivity|specialize (X 0); discriminate|specialize (X 0); discriminate|].
    f_equal; [specialize (X 0); cbn in X; congruence|]. apply IH. intros i. apply (X (S i)).
Qed.
Print Assumptions C70_schedule.
(** There is such a schedule: the threads cannot block each other. *)
Lemma drain : forall G V (draw : G -> V * G) dst k i m ts log t, nth_error ts i = Some t -> t_end t <= t_pos t + k ->
  exists m' t' log', fold_left (tstep draw dst) (repeat i k) (m, ts, log) = (m', replace ts i t', log') /\ t_end t' <= t_pos t'.
Proof.
  intros G V draw dst. induction k as [|k IH]; intros i m ts log t E L; cbn [repeat fold_left].
  - exists m, t, log. split; [|lia]. f_equal. f_equal. clear L. revert i E. induction ts as [|x ts IHt]; intros i E; [reflexivity|]. destruct i; cbn in *; [congruence|]. f_equal. auto.
  - assert (Li : i < length ts) by (apply nth_error_Some; congruence). cbn [tstep]. rewrite E. destruct (t_pos t <? t_end t) eqn:Q.
    + destruct (draw (t_gen t)) as [v g]. destruct (IH i (write m dst (t_pos t) v) (replace ts i (mkthread (S (t_pos t)) (t_end t) g)) (t_pos t :: log) _ (nth_error_replace_same _ _ _ _ Li)) as (m' & t' & log' & A & B); [cbn; lia|].
      exists m', t', log'. split; [|exact B]. rewrite A. f_equal. f_equal. clear. revert i. induction ts as [|x ts IHt]; intros i; [reflexivity|]. destruct i; cbn; [reflexivity|]. now rewrite IHt.
    + apply Nat.ltb_ge in Q. apply (IH i m ts log t E). lia.
Qed.
Theorem C70_finishes : forall G V (draw : G -> V * G) dst m n gens sched, exists more, finished (run draw dst m n gens (sched ++ more)) = true.
Proof.
  intros G V draw dst m n gens sched. unfold run. setoid_rewrite fold_left_app. generalize (fold_left (tstep draw dst) sched (m, start n gens, [])). intros [[m1 ts] log].
  assert (K : forall d, d <= length ts -> exists more, let '(m', ts', log') := fold_left (tstep draw dst) more (m1, ts, log) in length ts' = length ts /\ forall i t, i < d -> nth_error ts' i = Some t -> t_end t <= t_pos t).
  { induction d as [|d IH]; intros L; [exists []; cbn; split; [reflexivity|lia]|]. destruct (IH ltac:(lia)) as [more M]. destruct (fold_left (tstep draw dst) more (m1, ts, log)) as [[m2 ts2] log2] eqn:R. destruct M as [M1 M2].
    destruct (nth_error ts2 d) as [t|] eqn:E; [|apply nth_error_None in E; lia]. destruct (drain G V draw dst (t_end t) d m2 ts2 log2 t E ltac:(lia)) as (m3 & t' & log3 & A & B).
    exists (more ++ repeat d (t_end t)). rewrite fold_left_app, R, A. split; [now rewrite replace_length|]. intros i u Hi Eu. destruct (Nat.eq_dec d i) as [<-|N].
    - rewrite nth_error_replace_same in Eu by lia. injection Eu as <-. exact B.
    - rewrite nth_error_replace_other in Eu by exact N. apply (M2 i u); [lia|exact Eu]. }
  destruct (K (length ts) (le_n _)) as [more M]. exists more. destruct (fold_left (tstep draw dst) more (m1, ts, log)) as [[m2 ts2] log2]. destruct M as [M1 M2]. cbn [finished]. apply forallb_forall. intros t T.
  apply In_nth_error in T as [i Ei]. apply Nat.leb_le. apply (M2 i t); [|exact Ei]. rewrite <- M1. apply nth_error_Some. congruence.
Qed.
Print Assumptions C70_finishes.

(** * C71: [out] is filled *)
(** C ordered arrays, of the data type asked for, hold the numbers in C order. *)
Theorem C71_rng_out_partial : forall G V (draw : G -> V * G) s m out d base gens sched v m' gens', 0 < length gens -> WellFormed out -> c_contiguous out = true ->
  finished (run draw (ravel false m out) m (count (v_shape out)) gens sched) = true ->
  fill draw s true m (v_shape out) (VDtype d) (Some (out, d)) base gens sched = Ok (v, m', gens') ->
  v = out /\ (forall step, PartSize (count (v_shape out)) (length gens) step -> forall k, k < count (v_shape out) -> forall g, nth_error gens (k / step) = Some g ->
    m' (addr out (unravel_c (v_shape out) k)) = nth_draw draw g (k mod step)) /\ Untouched m m' out.
Proof.
  intros G V draw s m out d base gens sched v m' gens' P W C F H. unfold fill in H. destruct (dtype_eq_dec d d) as [_|N]; [|contradiction]. rewrite andb_false_r in H. cbn [negb orb] in H.
  assert (R : ravel false m out = Window (v_off out)) by (unfold ravel; now rewrite C). rewrite R in *.
  destruct (run draw (Window (v_off out)) m (count (v_shape out)) gens sched) as [[m1 ts] log] eqn:E. injection H as <- <- _. split; [reflexivity|]. split.
  - intros step S k K g Eg. destruct (unravel_in false (v_shape out) k K) as [I1 I2]. cbn [unravel] in *. rewrite (contig_addr false out _ W C I1), I2.
    apply (proj1 (C70_values G V draw (v_off out) m (count (v_shape out)) gens sched m1 ts log P E F step S)); assumption.
  - intros a A. pose proof (run_done draw (count (v_shape out)) gens m (Window (v_off out)) sched P) as D. rewrite E in D. destruct (D F) as (_ & D' & _). apply (D' (v_off out) eq_refl). intros k K Q. 
    destruct (unravel_in false (v_shape out) k K) as [I1 I2]. apply (A _ I1). rewrite (contig_addr false out _ W C I1), I2. exact Q.
Qed.
Print Assumptions C71_rng_out_partial.
(** Without [out] the new array holds them. *)
Theorem C71_rng_new : forall G V (draw : G -> V * G) s m shape dt base gens sched v m' gens', 0 < length gens ->
  finished (run draw (Window base) m (count shape) gens sched) = true -> fill draw s true m shape dt None base gens sched = Ok (v, m', gens') ->
  v_shape v = shape /\ c_contiguous v = true /\ (forall step, PartSize (count shape) (length gens) step -> forall k, k < count shape -> forall g, nth_error gens (k / step) = Some g ->
    m' (addr v (unravel_c shape k)) = nth_draw draw g (k mod step)) /\ Untouched m m' v.
Proof.
  intros G V draw s m shape dt base gens sched v m' gens' P F H. unfold fill in H.
  destruct (negb true || _) in H; [discriminate|]. set (w := new_view false shape base) in *. pose proof (new_view_contig false shape base) as C. cbn [contig] in C. fold w in C.
  assert (W : WellFormed w) by apply new_view_wf.
  assert (R : ravel false m w = Window base) by (unfold ravel; now rewrite C). rewrite R in H. destruct (run draw (Window base) m (count shape) gens sched) as [[m1 ts] log] eqn:E. injection H as <- <- _.
  split; [reflexivity|]. split; [exact C|]. split.
  - intros step S k K g Eg. destruct (unravel_in false shape k K) as [I1 I2]. cbn [unravel] in *. rewrite (contig_addr false w _ W C I1). change (v_shape w) with shape. rewrite I2. change (v_off w) with base.
    apply (proj1 (C70_values G V draw base m (count shape) gens sched m1 ts log P E F step S)); assumption.
  - intros a A. pose proof (run_done draw (count shape) gens m (Window base) sched P) as D. rewrite E in D. destruct (D F) as (_ & D' & _). apply (D' base eq_refl). intros k K Q.
    destruct (unravel_in false shape k K) as [I1 I2]. apply (A _ I1). rewrite (contig_addr false w _ W C I1). change (v_shape w) with shape. rewrite I2. exact Q.
Qed.
Print Assumptions C71_rng_new.
Example C71_rng_out_used : match fill counter (mkspec 0 float64 true true) true m0 [2;3] (VDtype float64) (Some (mkview [2;3] [3;1]%Z 100, float64)) 0 [0; 50]%Z [1;0;0;1;1;0] with
  | Ok (v, m', g) => (map (fun i => m' (addr v i)) [[0;0];[0;1];[0;2];[1;0];[1;1];[1;2]], map m' [99; 106]%Z, g) | Err _ => ([], [], []) end = ([0;1;2;50;51;52], [-1; -1], [3; 53])%Z.
Proof. reflexivity. Qed.
(** Any other array is returned as it was. *)
Theorem C71_rng_not_contiguous : forall G V (draw : G -> V * G) s m out d base gens sched, c_contiguous out = false -> 0 < length gens ->
  finished (run draw (ravel false m out) m (count (v_shape out)) gens sched) = true ->
  exists gens', fill draw s true m (v_shape out) (VDtype d) (Some (out, d)) base gens sched = Ok (out, m, gens').
Proof.
  intros G V draw s m out d base gens sched C P F. unfold fill. destruct (dtype_eq_dec d d) as [_|N]; [|contradiction]. rewrite andb_false_r. cbn [negb orb].
  assert (R : exists l, ravel false m out = Copied l) by (unfold ravel; rewrite C; eauto). destruct R as [l R]. rewrite R in *.
  pose proof (run_done draw (count (v_shape out)) gens m (Copied l) sched P F) as D. destruct (run draw (Copied l) m (count (v_shape out)) gens sched) as [[m1 ts] log]. destruct D as (_ & _ & D & _). rewrite (D l eq_refl). eauto.
Qed.
Print Assumptions C71_rng_not_contiguous.
Definition fortran_out : view := mkview [40; 30] [1; 40]%Z 0.
Definition sched_of (n : nat) (gens : nat) : list nat := flat_map (fun i => repeat i (step_of n gens)) (seq 0 gens).
Theorem C71_rng_fortran_refuted : exists out gens sched gens', f_contiguous out = true /\ 0 < length gens /\
  dispatch (mkspec 0 float64 true true) [] [(s_ "out", VArray out float64)] = Parallel [] [(s_ "dtype", VDtype float64)] (v_shape out) (VDtype float64) (Some (out, float64)) /\
  finished (run counter (ravel false m0 out) m0 (count (v_shape out)) gens sched) = true /\
  fill counter (mkspec 0 float64 true true) true m0 (v_shape out) (VDtype float64) (Some (out, float64)) 0 gens sched = Ok (out, m0, gens') /\ gens' <> gens.
Proof.
  exists fortran_out, [0; 5000]%Z, (sched_of 1200 2), [600; 5600]%Z. split; [reflexivity|]. split; [cbn; lia|]. split; [vm_compute; reflexivity|].
  assert (F : finished (run counter (ravel false m0 fortran_out) m0 (count (v_shape fortran_out)) [0; 5000]%Z (sched_of 1200 2)) = true) by (vm_compute; reflexivity). split; [exact F|]. split; [|discriminate].
  destruct (C71_rng_not_contiguous Z Z counter (mkspec 0 float64 true true) m0 fortran_out float64 0 [0; 5000]%Z (sched_of 1200 2) eq_refl ltac:(cbn; lia) F) as [g E]. rewrite E. f_equal. f_equal.
  assert (Q : match fill counter (mkspec 0 float64 true true) true m0 (v_shape fortran_out) (VDtype float64) (Some (fortran_out, float64)) 0 [0; 5000]%Z (sched_of 1200 2) with Ok (_, _, g) => g | Err _ => [] end = [600; 5600]%Z) by (vm_compute; reflexivity).
  rewrite E in Q. exact Q.
Qed.
Print Assumptions C71_rng_fortran_refuted.
(** A data type other than asked for is an error. *)
Theorem C71_rng_dtype : forall G V (draw : G -> V * G) s ok m out d dt shape base gens sched, has_out s = true -> d <> dt -> fill draw s ok m shape (VDtype dt) (Some (out, d)) base gens sched = Err RuntimeError.
Proof. intros G V draw s ok m out d dt shape base gens sched H N. unfold fill. destruct (dtype_eq_dec d dt) as [E|_]; [contradiction|]. rewrite H. cbn [negb andb]. now rewrite orb_true_r. Qed.
Print Assumptions C71_rng_dtype.
Example C71_rng_dtype_used : fill counter (mkspec 0 float64 true true) true m0 [40; 30] (VDtype float64) (Some (fortran_out, float32)) 0 [0]%Z [] = Err RuntimeError. Proof. reflexivity. Qed.

(** * C111: arguments *)
Lemma sig_facts : forall name s sig, In (name, s) PARALLEL_METHODS -> In (name, sig) signatures ->
  NoDup sig /\ nth_error sig (nparam s) = Some (s_ "size") /\ (has_dtype s = true -> nth_error sig (S (nparam s)) = Some (s_ "dtype")) /\ (has_dtype s = false -> length sig = S (nparam s)) /\
  (has_out s = true -> nth_error sig (S (S (nparam s))) = Some (s_ "out")) /\ length sig <= 3 + nparam s /\ (has_out s = false -> ~ In (s_ "out") sig) /\ (has_dtype s = false -> ~ In (s_ "dtype") sig) /\ (has_out s = true -> has_dtype s = true).
Proof.
  intros name s sig H1 H2. unfold PARALLEL_METHODS in H1. unfold signatures in H2. cbn [In] in H1, H2.
  assert (ND : forall l, (if list_eq_dec str_eq_dec (nodup str_eq_dec l) l then true else false) = true -> NoDup l).
  { intros l. destruct (list_eq_dec str_eq_dec (nodup str_eq_dec l) l) as [E|E]; [|discriminate]. intros _. rewrite <- E. apply NoDup_nodup. }
  repeat (destruct H1 as [H1|H1]; [apply pair_equal_spec in H1 as [N1 S1]|]); try contradiction;
    repeat (destruct H2 as [H2|H2]; [apply pair_equal_spec in H2 as [N2 S2]|]); try contradiction; subst name; try discriminate N2; subst s sig; cbn [nparam has_dtype has_out];
    (split; [apply ND; reflexivity|]); (split; [reflexivity|]); repeat (split; [first [reflexivity | discriminate | intros _; reflexivity | cbn; lia | (intros _ K; cbn [In] in K; repeat (destruct K as [K|K]; [discriminate K|]); exact K)]|]);
    first [reflexivity | discriminate].
Qed.
Lemma nodup_index : forall A (l : list A) i j x, NoDup l -> nth_error l i = Some x -> nth_error l j = Some x -> i = j.
Proof. intros A l i j x N Hi Hj. rewrite NoDup_nth_error in N. apply N; [apply nth_error_Some; congruence|congruence]. Qed.
Lemma nth_error_firstn : forall A (l : list A) n i, nth_error (firstn n l) i = if i <? n then nth_error l i else None.
Proof.
  induction l as [|x l IH]; intros n i; [rewrite firstn_nil; destruct (i <? n), i; reflexivity|]. destruct n; [destruct i; reflexivity|]. destruct i; [reflexivity|]. cbn [firstn nth_error]. rewrite IH. reflexivity.
Qed.
(** Every thread passes the distribution the caller asked for.  Not so with more
    positional arguments, see below. *)
Theorem C111_parameters_partial : forall name s sig args kw a k shape dt out part n, In (name, s) PARALLEL_METHODS -> In (name, sig) signatures ->
  Accepted sig args kw -> length args <= S (nparam s) + (if has_dtype s then 1 else 0) -> dispatch s args kw = Parallel a k shape dt out ->
  Accepted sig a (thread_kwargs s k part n) /\
  (forall p v, p <> s_ "size" -> p <> s_ "dtype" -> p <> s_ "out" -> (Given sig a (thread_kwargs s k part n) p v <-> Given sig args kw p v)) /\
  (forall v, Given sig a (thread_kwargs s k part n) (if has_out s then s_ "out" else s_ "size") v <-> v = if has_out s then part else VNum (Z.of_nat n)) /\
  (has_dtype s = true -> forall v, Given sig a (thread_kwargs s k part n) (s_ "dtype") v <-> v = dt).
Proof.
  intros name s sig args kw a k shape dt out part n I1 I2 [A1 A2] L D. destruct (sig_facts name s sig I1 I2) as (ND & X1 & X2 & X3 & X4 & X5 & X6 & X7 & X8).
  destruct (dispatch_parallel _ _ _ _ _ _ _ _ D) as (-> & Cn & _ & K1 & K2 & K3 & K4 & _ & _ & _).
  assert (TK : forall p, dget p (thread_kwargs s k part n) = if seqb p (if has_out s then s_ "out" else s_ "size") then Some (if has_out s then part else VNum (Z.of_nat n)) else dget p k).
  { intros p. unfold thread_kwargs. destruct (has_out s); apply dget_put. }
  assert (Sz : dget (s_ "size") k = None).
  { rewrite K2. destruct (nth_error args (nparam s)) eqn:E; [|reflexivity]. destruct (dget (s_ "size") kw) as [w|] eqn:Q; [|reflexivity]. exfalso. destruct (A2 _ _ Q) as (i & E1 & E2).
    assert (i = nparam s) by (eapply nodup_index; eauto). subst i. assert (nparam s < length args) by (apply nth_error_Some; congruence). lia. }
  assert (FL : length (firstn (nparam s) args) <= nparam s) by (rewrite firstn_length; lia).
  assert (LS : nparam s < length sig) by (apply nth_error_Some; congruence).
  assert (NP : forall p i, nth_error sig i = Some p -> i < nparam s -> p <> s_ "size" /\ p <> s_ "dtype" /\ p <> s_ "out").
  { intros p i E Li. repeat split; intros ->.
    - assert (i = nparam s) by (eapply nodup_index; eauto). lia.
    - destruct (has_dtype s); [assert (i = S (nparam s)) by (eapply nodup_index; eauto); lia|]. apply X7; [reflexivity|]. now apply nth_error_In in E.
    - destruct (has_out s); [assert (i = S (S (nparam s))) by (eapply nodup_index; eauto); lia|]. apply X6; [reflexivity|]. now apply nth_error_In in E. }
  split; [|split; [|split]].
  - split; [lia|]. intros p v H. rewrite TK in H. destruct (seqb p (if has_out s then s_ "out" else s_ "size")) eqn:Q.
    + apply seqb_eq in Q. subst p. destruct (has_out s); [exists (S (S (nparam s)))|exists (nparam s)]; (split; [auto|lia]).
    + apply seqb_neq in Q. destruct (str_eq_dec p (s_ "size")) as [->|N1]; [congruence|]. destruct (str_eq_dec p (s_ "dtype")) as [->|N2].
      * rewrite K4 in H. destruct (has_dtype s) eqn:HD; [exists (S (nparam s)); split; [auto|lia]|]. destruct (A2 _ _ H) as (i & E1 & _). exfalso. apply X7; [reflexivity|]. now apply nth_error_In in E1.
      * destruct (str_eq_dec p (s_ "out")) as [->|N3].
        -- rewrite K3 in H. destruct (has_out s); [discriminate|]. destruct (A2 _ _ H) as (i & E1 & _). exfalso. apply X6; [reflexivity|]. now apply nth_error_In in E1.
        -- rewrite (K1 p N1 N2 N3) in H. destruct (A2 _ _ H) as (i & E1 & E2). exists i. split; [exact E1|]. rewrite firstn_length. lia.
  - intros p v N1 N2 N3. unfold Given. rewrite TK. replace (seqb p (if has_out s then s_ "out" else s_ "size")) with false; [|symmetry; apply seqb_neq; destruct (has_out s); assumption]. rewrite (K1 p N1 N2 N3).
    split; intros [(i & E1 & E2)|H]; auto.
    + left. exists i. split; [exact E1|]. rewrite nth_error_firstn in E2. destruct (i <? nparam s); [exact E2|discriminate].
    + left. exists i. split; [exact E1|]. rewrite nth_error_firstn. destruct (i <? nparam s) eqn:Li; [exact E2|]. exfalso. apply Nat.ltb_ge in Li.
      assert (i < length args) by (apply nth_error_Some; congruence). assert (i <> nparam s) by congruence. destruct (has_dtype s); [assert (i = S (nparam s)) by lia; subst i; rewrite X2 in E1 by reflexivity; congruence|lia].
  - intros v. unfold Given. rewrite TK, seqb_refl. split.
    + intros [(i & E1 & E2)|H]; [|congruence]. exfalso. rewrite nth_error_firstn in E2. destruct (i <? nparam s) eqn:Li; [|discriminate]. apply Nat.ltb_lt in Li. destruct (NP _ _ E1 Li) as (P1 & P2 & P3). destruct (has_out s); congruence.
    + intros ->. now right.
  - intros HD v. unfold Given. rewrite TK. replace (seqb (s_ "dtype") (if has_out s then s_ "out" else s_ "size")) with false by (destruct (has_out s); reflexivity). rewrite K4, HD. split.
    + intros [(i & E1 & E2)|H]; [|congruence]. exfalso. rewrite nth_error_firstn in E2. destruct (i <? nparam s) eqn:Li; [|discriminate]. apply Nat.ltb_lt in Li. destruct (NP _ _ E1 Li) as (P1 & P2 & P3). congruence.
    + intros ->. now right.
Qed.
Print Assumptions C111_parameters_partial.
Example C111_parameters_used : let kw := [(s_ "endpoint", VNum 1); (s_ "size", VTuple [50; 30])] in
  dispatch (mkspec 2 int64 true false) [VNum 3; VNum 9] kw = Parallel [VNum 3; VNum 9] [(s_ "endpoint", VNum 1); (s_ "dtype", VDtype int64)] [50; 30] (VDtype int64) None. Proof. vm_compute. reflexivity. Qed.

(** The array has the size and type asked for. *)
Theorem C111_result_partial : forall name s sig args kw a k shape dt out, In (name, s) PARALLEL_METHODS -> In (name, sig) signatures ->
  Accepted sig args kw -> dispatch s args kw = Parallel a k shape dt out -> length args <= S (nparam s) + (if has_dtype s then 1 else 0) ->
  1000 <= count shape /\
  match out with
  | Some (v, d) => Given sig args kw (s_ "out") (VArray v d) /\ shape = v_shape v
  | None => (exists v, Given sig args kw (s_ "size") v /\ shape_of v = Some shape) /\ forall v, ~ Given sig args kw (s_ "out") v
  end /\
  (Given sig args kw (s_ "dtype") dt \/ (forall v, ~ Given sig args kw (s_ "dtype") v) /\ dt = VDtype (defdtype s)) /\ (name <> s_ "poisson" -> defdtype s = default_dtype name).
Proof.
  intros name s sig args kw a k shape dt out I1 I2 [A1 A2] D L. destruct (sig_facts name s sig I1 I2) as (ND & X1 & X2 & X3 & X4 & X5 & X6 & X7 & X8).
  destruct (dispatch_parallel _ _ _ _ _ _ _ _ D) as (-> & Cn & _ & K1 & K2 & K3 & K4 & K5 & K6 & K7). split; [exact Cn|].
  assert (NK : forall p v, ~ In p sig -> ~ Given sig args kw p v).
  { intros p v N [(i & E1 & _)|H]; [apply N; now apply nth_error_In in E1|]. destruct (A2 _ _ H) as (i & E1 & _). apply N. now apply nth_error_In in E1. }
  assert (NO : forall v, ~ Given sig args kw (s_ "out") v \/ dget (s_ "out") kw = Some v).
  { intros v. destruct (has_out s) eqn:HO; [|left; apply NK; auto]. destruct (dget (s_ "out") kw) as [w|] eqn:E.
    - destruct (A2 _ _ E) as (i & E1 & E2).
      assert (i = S (S (nparam s))) by (eapply nodup_index; eauto). subst i.
      assert (Q : Given sig args kw (s_ "out") v -> w = v).
      { intros [(j & J1 & J2)|J]; [|congruence]. assert (j = S (S (nparam s))) by (eapply nodup_index; eauto). subst j. assert (S (S (nparam s)) < length args) by (apply nth_error_Some; congruence). lia. }
      assert (Dec : {w = v} + {w <> v}). { assert (forall x y : Z, {x = y} + {x <> y}) by apply Z.eq_dec. assert (forall x y : list nat, {x = y} + {x <> y}) by (apply list_eq_dec, Nat.eq_dec). assert (forall x y : view, {x = y} + {x <> y}) by (repeat decide equality). repeat decide equality. }
      destruct Dec as [->|Nw]; [now right|left; auto].
    - left. intros [(j & J1 & J2)|J]; [|congruence]. assert (j = S (S (nparam s))) by (eapply nodup_index; eauto). subst j. assert (S (S (nparam s)) < length args) by (apply nth_error_Some; congruence). rewrite X8 in L by reflexivity. lia. }
  split; [|split].
  - destruct (has_out s) eqn:HO.
    + destruct (dget (s_ "out") kw) as [w|] eqn:E.
      * destruct K5 as (w' & d & -> & -> & ->). split; [|reflexivity]. now right.
      * destruct K5 as (-> & v & S & V). split; [|intros w; destruct (NO w) as [N|N]; [exact N|congruence]]. exists v. split; [|exact S]. destruct V as [V|[_ V]]; [left; eauto|now right].
    + destruct K5 as (-> & v & S & V). split; [|intros w; apply NK; auto]. exists v. split; [|exact S]. destruct V as [V|[_ V]]; [left; eauto|now right].
  - destruct (has_dtype s) eqn:HD.
    + destruct (K6 eq_refl) as [E|[E [E1|[E1 E2]]]]; [left; left; eauto|left; now right|]. right. split; [|exact E2]. intros v [(j & J1 & J2)|J]; [|congruence]. assert (j = S (nparam s)) by (eapply nodup_index; eauto). congruence.
    + right. split; [intros v; apply NK; auto|]. now apply K7.
  - intros NP. clear - I1 NP. cbn [PARALLEL_METHODS In] in I1. repeat (destruct I1 as [I1|I1]; [apply pair_equal_spec in I1 as [<- <-]; try reflexivity|]); [contradiction NP; reflexivity|contradiction].
Qed.
Print Assumptions C111_result_partial.

(** Otherwise the call goes to NumPy as it was. *)
Theorem C111_direct : forall s args kw a k, dispatch s args kw = Direct a k -> a = args /\ k = kw.
Proof.
  intros s args kw a k H. unfold dispatch in H. repeat match type of H with context [match ?x with _ => _ end] => destruct x end; try discriminate; injection H as <- <-; auto.
Qed.
Print Assumptions C111_direct.
Example C111_direct_used : dispatch (mkspec 2 float64 false false) [VNum 0; VNum 1; VNum 999] [] = Direct [VNum 0; VNum 1; VNum 999] [] /\ dispatch (mkspec 1 float64 false false) [VArray fortran_out float64] [(s_ "size", VTuple [40; 30])] = Direct [VArray fortran_out float64] [(s_ "size", VTuple [40; 30])].
Proof. split; vm_compute; reflexivity. Qed.
(** Arrays as parameters, and calls without a size, always go to NumPy. *)
Theorem C111_broadcast : forall s args kw a k shape dt out, dispatch s args kw = Parallel a k shape dt out -> forall v i, nth_error args i = Some v -> i < nparam s -> isscalar v = true.
Proof.
  intros s args kw a k shape dt out D v i E L. destruct (dispatch_parallel _ _ _ _ _ _ _ _ D) as (-> & _ & S & _). rewrite forallb_forall in S. apply S. apply (nth_error_In _ i). rewrite nth_error_firstn. apply Nat.ltb_lt in L. now rewrite L.
Qed.
Print Assumptions C111_broadcast.

(** But: [endpoint] as the fifth argument is dropped, ... *)
Theorem C111_endpoint_refuted : exists args a k shape dt out, Accepted (nth 1 (map snd signatures) []) args [] /\ Given (nth 1 (map snd signatures) []) args [] (s_ "endpoint") (VNum 1) /\
  dispatch (mkspec 2 int64 true false) args [] = Parallel a k shape dt out /\ forall part n v, ~ Given (nth 1 (map snd signatures) []) a (thread_kwargs (mkspec 2 int64 true false) k part n) (s_ "endpoint") v.
Proof.
  exists [VNum 0; VNum 10; VTuple [2000]; VDtype int64; VNum 1]. eexists. eexists. eexists. eexists. eexists. split; [split; [cbn; lia|discriminate]|]. split; [left; exists 4; split; reflexivity|].
  split; [vm_compute; reflexivity|]. intros part n v [(i & E1 & E2)|H]; [|discriminate H]. destruct i as [|[|[|i]]]; [discriminate E1|discriminate E1|discriminate E2|destruct i; discriminate E2].
Qed.
Print Assumptions C111_endpoint_refuted.
(** ... [out] as the third one is not filled, ... *)
Theorem C111_positional_out_refuted : exists args a k shape dt v d, Accepted (nth 0 (map snd signatures) []) args [] /\ Given (nth 0 (map snd signatures) []) args [] (s_ "out") (VArray v d) /\
  dispatch (mkspec 0 float64 true true) args [] = Parallel a k shape dt None.
Proof.
  exists [VTuple [40; 30]; VDtype float64; VArray fortran_out float64]. do 4 eexists. exists fortran_out, float64. split; [split; [cbn; lia|discriminate]|]. split; [left; exists 2; split; reflexivity|]. vm_compute. reflexivity.
Qed.
Print Assumptions C111_positional_out_refuted.
(** ... [out=None] fails, ... *)
Theorem C111_out_none_refuted : exists args kw, Accepted (nth 0 (map snd signatures) []) args kw /\ dispatch (mkspec 0 float64 true true) args kw = Fails AttributeError.
Proof. exists [VNum 10], [(s_ "out", VNone)]. split; [|reflexivity]. split; [cbn; lia|]. intros k v H. cbn [dget] in H. destruct (seqb k (s_ "out")) eqn:E; [|discriminate]. apply seqb_eq in E. subst k. exists 2. split; [reflexivity|cbn; lia]. Qed.
Print Assumptions C111_out_none_refuted.
(** ... [size] next to an [out] of another shape is not checked, ... *)
Theorem C111_size_and_out_refuted : exists kw a k shape dt v d sh, Given (nth 0 (map snd signatures) []) [] kw (s_ "size") (VTuple sh) /\ sh <> v_shape v /\ dispatch (mkspec 0 float64 true true) [] kw = Parallel a k shape dt (Some (v, d)).
Proof. exists [(s_ "size", VTuple [7]); (s_ "out", VArray fortran_out float64)]. do 4 eexists. exists fortran_out, float64, [7]. split; [right; reflexivity|]. split; [discriminate|]. vm_compute. reflexivity. Qed.
Print Assumptions C111_size_and_out_refuted.
(** ... and large Poisson samples are floating point numbers. *)
Theorem C111_poisson_refuted : exists s args a k shape, In (s_ "poisson", s) PARALLEL_METHODS /\ dispatch s args [] = Parallel a k shape (VDtype float64) None /\ default_dtype (s_ "poisson") = int64.
Proof. exists (mkspec 1 float64 false false), [VNum 4; VNum 5000]. do 3 eexists. split; [cbn; tauto|]. split; [vm_compute; reflexivity|reflexivity]. Qed.
Print Assumptions C111_poisson_refuted.
