(** C390-C391: accumulations over other axes than one; arrays [allreduce] refuses. *)
From Coq Require Import List Arith ZArith Bool Lia.
From Verif Require Import PyBase PartSpec PartModel SliceModel RedModel RedSpec RedProofs AxModel AxSpec AxProofs DuModel DuSpec DuProofs DuProofs2 DuProofs3 DuProofs5 DuProofs6 DuProofs7 DuProofs8 DuProps.
Import ListNotations.
Open Scope nat_scope.

(** C265: an array with other than one element on this rank. *)
Theorem C265_refused : forall A (op : A -> A -> A) zero ds m r,
  d_lshape (ds r) <> [1] -> allreduce op zero ds m r = Err ValueError.
Proof.
  intros A op zero ds m r H. unfold allreduce.
  destruct (shape_eqb (d_lshape (ds r)) [1]) eqn:E; [|reflexivity].
  exfalso. apply H. now apply shape_eqb_iff.
Qed.
Print Assumptions C265_refused.

(** C390: without an axis TypeError is raised, for several ValueError. *)
Theorem C390_no_axis : forall A c k (G : nd A) d u kw,
  Part c k G d -> k_where kw <> Some WOther -> k_axis kw = None ->
  array_ufunc u MAccumulate [InDist d] kw = Err TypeError.
Proof.
  intros A c k G d u kw HP Hw Ha. pose proof HP as (_ & E1 & E2 & E3 & E4 & E5).
  unfold array_ufunc. cbn [common_comm validate]. rewrite E5. cbn [rbind]. rewrite Ha. cbn [rbind].
  destruct (k_where kw) as [[]|]; congruence.
Qed.
Print Assumptions C390_no_axis.

Lemma accumulate_axes : forall A c k (G : nd A) d u kw axes, Part c k G d -> k_where kw <> Some WOther -> k_out kw = None ->
  k_axis kw = Some axes -> (forall z, axes <> Some [z]) ->
  array_ufunc u MAccumulate [InDist d] kw =
  rbind (np_accumulate_axes u (d_data d) (Some axes) None) (fun results =>
    rsequence (map (fun r => view_from_data_and_params (as_vector r) (Z.of_nat k) (nth k (shp G) 0)
                               (start c (nth k (shp G) 0)) (Some c)) results)).
Proof.
  intros A c k G d u kw axes HP Hw Ho Ha Hz. pose proof HP as (_ & E1 & E2 & E3 & E4 & E5).
  rewrite (ufunc_head u MAccumulate [InDist d] kw c (Z.of_nat k, nth k (shp G) 0, start c (nth k (shp G) 0))).
  - cbv beta iota. rewrite Ho. cbn [numpy_ufunc local_of]. rewrite Ha. reflexivity.
  - discriminate.
  - exact Hw.
  - cbn [common_comm]. now rewrite E5.
  - cbn [validate]. rewrite Ha, E1.
    destruct axes as [[|z [|z' l]]|]; try (apply (dist_params_part c k G d _ HP)).
    exfalso. now apply (Hz z).
Qed.

Theorem C390_several : forall A c k (G : nd A) d u kw axes,
  Part c k G d -> k_where kw <> Some WOther -> k_out kw = None -> k_axis kw = Some (Some axes) -> length axes <> 1 ->
  array_ufunc u MAccumulate [InDist d] kw = Err ValueError.
Proof.
  intros A c k G d u kw axes HP Hw Ho Ha Hl.
  rewrite (accumulate_axes A c k G d u kw (Some axes) HP Hw Ho Ha).
  - destruct HP as ((K & S1 & _) & _). unfold np_accumulate_axes. rewrite S1.
    destruct (set_nth k _ (shp G)) as [|n sh] eqn:E.
    + apply (f_equal (@length nat)) in E. rewrite length_set_nth in E. cbn in E. lia.
    + destruct axes as [|z [|z' l]]; try reflexivity. now elim Hl.
  - intros z E. injection E as ->. now apply Hl.
Qed.
Print Assumptions C390_several.

Theorem C390_all : forall A c k (G : nd A) d u kw,
  Part c k G d -> k_where kw <> Some WOther -> k_out kw = None -> k_axis kw = Some None -> 2 <= length (shp G) ->
  array_ufunc u MAccumulate [InDist d] kw = Err ValueError.
Proof.
  intros A c k G d u kw HP Hw Ho Ha Hl.
  rewrite (accumulate_axes A c k G d u kw None HP Hw Ho Ha) by discriminate.
  destruct HP as ((K & S1 & _) & _). unfold np_accumulate_axes. rewrite S1.
  destruct (set_nth k _ (shp G)) as [|n [|n' sh]] eqn:E; try reflexivity;
    apply (f_equal (@length nat)) in E; rewrite length_set_nth in E; cbn in E; lia.
Qed.
Print Assumptions C390_all.

Example C390_example :
  let kw a := mkkwargs None a false None in
  array_ufunc uadd MAccumulate [InDist (piece c0 0 G32)] (kw None) = Err TypeError
  /\ array_ufunc uadd MAccumulate [InDist (piece c0 0 G32)] (kw (Some (Some [0; 1]%Z))) = Err ValueError
  /\ array_ufunc uadd MAccumulate [InDist (piece c0 0 G32)] (kw (Some None)) = Err ValueError.
Proof. repeat split. Qed.

(** C391: with [axis=None] an array of one axis, the distributed one, is not refused; each rank
    accumulates its own elements only. *)
Theorem C391_refuted : exists (G : nd nat) c d u kw R d',
  c_rank c < c_size c /\ Part c 0 G d /\ k_where kw = None /\ k_out kw = None /\ k_axis kw = Some None
  /\ Accumulation (u_red u) 0 G R
  /\ array_ufunc u MAccumulate [InDist d] kw = Ok [d'] /\ ~ Part c 0 R d'.
Proof.
  pose (ones := mknd [2] (fun _ : list nat => 1)).
  exists ones, c1, (piece c1 0 ones), uadd, (mkkwargs None (Some None) false None),
    (mknd [2] (fun i => fold_right Nat.add 0 (map (fun j => elt ones (set_nth 0 j i)) (seq 0 (S (nth 0 i 0)))))).
  eexists. split; [cbn; lia|]. split; [apply piece_part; cbn; lia|]. do 3 (split; [reflexivity|]).
  split; [split; [reflexivity|reflexivity]|]. split; [reflexivity|]. intros ((K & _ & S2) & _). cbn in K, S2.
  specialize (S2 [0]). cbn in S2. assert (X : 1 = 2); [|discriminate]. apply S2. repeat constructor.
Qed.
Print Assumptions C391_refuted.
