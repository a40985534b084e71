(** C24-C27, C78-C80: bookkeeping of the distributed axis. *)
From Coq Require Import List ZArith Bool Lia Permutation.
From Verif Require Import PyBase SliceModel RedModel AxModel AxSpec AxProofs AxProofs2 AxProofs3.
Import ListNotations.
Open Scope nat_scope.

(** C24, for a stored axis number in 0 .. ndim-1. *)
Theorem C24_reduce_partial : forall ndim k axes red keep,
  k < ndim -> Forall2 (AxisName ndim) axes red ->
  (In k red -> ufunc_reduce ndim (Z.of_nat k) axes keep = Err AxisException) /\
  (~ In k red -> forall out, AxesOfReduction ndim red keep out ->
     exists p, ufunc_reduce ndim (Z.of_nat k) axes keep = Ok (Z.of_nat p)
               /\ nth_error out p = Some k).
Proof. exact reduce_ok. Qed.
Print Assumptions C24_reduce_partial.

(** An array made with axis=-1 keeps that number; the reduction over its
    distributed axis is then not rejected. *)
Theorem C24_reduce_refuted : exists ndim self_axis k axes,
  AxisName ndim self_axis k /\ Forall2 (AxisName ndim) axes [k] /\
  ufunc_reduce ndim self_axis axes false <> Err AxisException.
Proof.
  exists 2, (-1)%Z, 1, [1%Z]. repeat split; try lia; try discriminate.
  repeat constructor; lia.
Qed.
Print Assumptions C24_reduce_refuted.

Example C24_example : ufunc_reduce 4 2 [0; -1]%Z false = Ok 1%Z
  /\ ufunc_reduce 4 2 [0; -1]%Z true = Ok 2%Z
  /\ ufunc_reduce 4 2 [0; -2]%Z false = Err AxisException.
Proof. vm_compute. auto. Qed.

(** C25 *)
Theorem C25_accumulate_partial : forall k a : nat,
  (a = k -> ufunc_accumulate (Z.of_nat k) (Z.of_nat a) = Err AxisException) /\
  (a <> k -> ufunc_accumulate (Z.of_nat k) (Z.of_nat a) = Ok (Z.of_nat k)).
Proof.
  intros k a. unfold ufunc_accumulate. destruct (Z.eqb_spec (Z.of_nat a) (Z.of_nat k)); split; intros;
    (reflexivity || lia).
Qed.
Print Assumptions C25_accumulate_partial.

Theorem C25_accumulate_refuted : exists ndim k axis,
  AxisName ndim axis k /\ ufunc_accumulate (Z.of_nat k) axis <> Err AxisException.
Proof. exists 2, 1, (-1)%Z. split; [split; lia|discriminate]. Qed.
Print Assumptions C25_accumulate_refuted.

(** Every negative name of the distributed axis is missed. *)
Theorem C25_accumulate_negative_missed : forall ndim k, k < ndim ->
  AxisName ndim (Z.of_nat k - Z.of_nat ndim) k /\
  ufunc_accumulate (Z.of_nat k) (Z.of_nat k - Z.of_nat ndim) = Ok (Z.of_nat k).
Proof.
  intros ndim k H. split; [split; [exact H|lia]|]. unfold ufunc_accumulate.
  destruct (Z.eqb_spec (Z.of_nat k - Z.of_nat ndim) (Z.of_nat k)); [lia|reflexivity].
Qed.
Print Assumptions C25_accumulate_negative_missed.

Example C25_example : ufunc_accumulate 1 1 = Err AxisException /\ ufunc_accumulate 1 0 = Ok 1%Z.
Proof. vm_compute. auto. Qed.

(** C26 *)
Theorem C26_getitem : forall idx n axis len,
  IndexOk idx n -> axis < n ->
  exists e, In (Some axis, e) (np_items idx (seq 0 n)) /\
  (forall f, In (Some axis, f) (np_items idx (seq 0 n)) -> f = e) /\
  (Whole e len -> exists p, mpi_getitem idx n axis len = Ok (ToDist p)
                            /\ nth_error (np_out idx n) p = Some (Some axis)) /\
  (~ Whole e len -> mpi_getitem idx n axis len = Ok ToLocal).
Proof. exact getitem_ok. Qed.
Print Assumptions C26_getitem.

Theorem C26_getitem_rejects : forall idx n axis len,
  ~ IndexOk idx n -> mpi_getitem idx n axis len = Err IndexError.
Proof. exact getitem_bad. Qed.
Print Assumptions C26_getitem_rejects.

Example C26_example :
  mpi_getitem [IInt 3; INew; IEll; ISl (mkslice None (Some 2) None)]%Z 4 2 7 = Ok (ToDist 2)
  /\ np_out [IInt 3; INew; IEll; ISl (mkslice None (Some 2) None)]%Z 4 = [None; Some 1; Some 2; Some 3]
  /\ mpi_getitem [IEll; IInt 0]%Z 3 2 7 = Ok ToLocal
  /\ mpi_getitem [IInt 0; IInt 0; IInt 0]%Z 2 1 7 = Err IndexError.
Proof. vm_compute. auto. Qed.

(** C27 *)
Theorem C27_reshape_accepts_partial : forall pre L post shape out na, (0 < L)%Z ->
  mpi_reshape (pre ++ L :: post) (length pre) shape = Ok (out, na) <->
  exists preq postq pre' post',
    shape = map Some preq ++ None :: map Some postq /\ na = length preq
    /\ out = pre' ++ L :: post'
    /\ Filled pre preq pre' /\ Filled post postq post'.
Proof. exact reshape_iff. Qed.
Print Assumptions C27_reshape_accepts_partial.

Theorem C27_reshape_order : forall pre L post pre' post' ip d iq ip' d' iq' N off,
  prodZ pre' = prodZ pre -> prodZ post' = prodZ post ->
  length ip = length pre -> length ip' = length pre' ->
  InRange (pre ++ L :: post) (ip ++ d :: iq) ->
  InRange (pre' ++ L :: post') (ip' ++ d' :: iq') ->
  flat (pre ++ L :: post) (ip ++ d :: iq) = flat (pre' ++ L :: post') (ip' ++ d' :: iq') ->
  d' = d /\
  flat (pre ++ N :: post) (ip ++ (off + d)%Z :: iq) = flat (pre' ++ N :: post') (ip' ++ (off + d')%Z :: iq').
Proof. exact reshape_order. Qed.
Print Assumptions C27_reshape_order.

(** On a rank that holds no elements the same request fails, or an
    incompatible one is accepted. *)
Theorem C27_reshape_refuted :
  (exists post shape pre' post' preq postq L,
     shape = map Some preq ++ None :: map Some postq /\ Filled [] preq pre' /\ Filled post postq post'
     /\ mpi_reshape (L :: post) 0 shape = Err ZeroDivisionError
     /\ exists L', mpi_reshape (L' :: post) 0 shape = Ok (pre' ++ L' :: post', length preq))
  /\ (exists post postq, ~ (exists post', Filled post postq post')
     /\ exists r, mpi_reshape (0%Z :: post) 0 (None :: map Some postq) = Ok r).
Proof.
  split.
  - exists [4%Z; 3%Z], [None; Some (-1)%Z], [], [12%Z], [], [(-1)%Z], 0%Z.
    split; [reflexivity|]. split; [|split].
    + split; [constructor|]. split; [constructor|]. split; [reflexivity|]. left. reflexivity.
    + split; [repeat constructor|]. split; [repeat constructor; lia|]. split; [reflexivity|].
      right. split; [reflexivity|]. vm_compute. discriminate.
    + split; [reflexivity|]. exists 5%Z. reflexivity.
  - exists [4%Z], [3%Z]. split.
    + intros (post' & F). destruct F as (F & _ & P & _). inversion F; subst. inversion H3; subst.
      destruct H1 as [H1| ->]; [discriminate|]. vm_compute in P. discriminate.
    + eexists. reflexivity.
Qed.
Print Assumptions C27_reshape_refuted.

Example C27_example :
  mpi_reshape [6; 5; 4; 3]%Z 1 [Some 2; Some (-1); None; Some 12]%Z = Ok ([2; 3; 5; 12]%Z, 2)
  /\ mpi_reshape [6; 5; 4; 3]%Z 1 [Some 5; Some (-1); None; Some 12]%Z = Err ValueError
  /\ flat [6; 5; 4; 3]%Z [4; 2; 1; 2]%Z = flat [2; 3; 5; 12]%Z [1; 1; 2; 5]%Z.
Proof. vm_compute. auto. Qed.

(** C78 *)
Theorem C78_transpose_partial : forall ndim k gshape axes perm a,
  k < ndim ->
  (a = TEmpty /\ perm = rev (seq 0 ndim)) \/ (a = TAxes axes /\ axes = map Z.of_nat perm) ->
  Permutation perm (seq 0 ndim) ->
  exists p, mpi_transpose ndim (Z.of_nat k) gshape a
            = Ok (Z.of_nat p, map (fun i => nth i gshape 0) perm)
            /\ nth_error perm p = Some k.
Proof. exact transpose_ok. Qed.
Print Assumptions C78_transpose_partial.

Theorem C78_transpose_refuted : exists axes perm, Forall2 (AxisName 2) axes perm /\ Permutation perm (seq 0 2)
     /\ mpi_transpose 2 1 [3; 4] (TAxes axes) = Err ValueError.
Proof.
  exists [(-1)%Z; 0%Z], [1; 0]. split; [repeat constructor; lia|]. split; [apply perm_swap|reflexivity].
Qed.
Print Assumptions C78_transpose_refuted.

(** None always fails, and so does every argument that does not spell the
    distributed axis with its stored number. *)
Theorem C78_transpose_fails :
  (forall ndim k gshape, mpi_transpose ndim k gshape TNone = Err TypeError) /\
  (forall ndim k gshape axes, k < ndim -> ~ In (Z.of_nat k) axes ->
     mpi_transpose ndim (Z.of_nat k) gshape (TAxes axes) = Err ValueError).
Proof.
  split; [reflexivity|].
  intros ndim k gshape axes H Hn. cbn [mpi_transpose].
  match goal with |- (if ?b then _ else _) = _ => destruct b end; [reflexivity|].
  destruct (index_of (Z.of_nat k) axes) as [p|] eqn:E; [|reflexivity].
  apply index_of_spec, nth_error_In in E. contradiction.
Qed.
Print Assumptions C78_transpose_fails.

Example C78_example : mpi_transpose 3 1 [5; 6; 7] (TAxes [1; 2; 0]%Z) = Ok (0%Z, [6; 7; 5])
  /\ mpi_transpose 3 0 [5; 6; 7] TEmpty = Ok (2%Z, [7; 6; 5]).
Proof. vm_compute. auto. Qed.

(** C79 *)
Theorem C79_ufunc_call : forall plain a g f l rest j glen off llen,
  let inputs := plain ++ OpDist a g f l :: rest in
  Forall (fun o => ~ IsDist o) plain -> Forall OpWf inputs ->
  (a = Z.of_nat (length g) - 1 - Z.of_nat j)%Z ->
  right j g = Some glen -> right j f = Some off -> right j l = Some llen ->
  (Forall (Aligned j glen off llen) inputs ->
     exists m, (forall o, In o inputs -> dims o <= m) /\ (exists o, In o inputs /\ dims o = m) /\
     ufunc_call inputs = Ok ((Z.of_nat m - 1 - Z.of_nat j)%Z, glen, off)) /\
  (~ Forall (Aligned j glen off llen) inputs -> ufunc_call inputs = Err AxisException).
Proof. exact ufunc_call_ok. Qed.
Print Assumptions C79_ufunc_call.

Example C79_example :
  ufunc_call [OpArr [2; 3; 1; 7]; OpDist 0 [9; 7] [4; 0] [5; 7]; OpScalar; OpDist 1 [1; 9; 1] [0; 4; 0] [1; 5; 1]; OpArr [7]]
    = Ok (2%Z, 9, 4)
  /\ ufunc_call [OpDist 0 [9; 7] [4; 0] [5; 7]; OpArr [9; 7]] = Err AxisException
  /\ ufunc_call [OpDist 0 [9; 7] [4; 0] [5; 7]; OpDist 0 [9] [4] [5]] = Err AxisException.
Proof. vm_compute. auto. Qed.

(** C80: ranks agree on whether the result is distributed, if they hold the
    same length or the index does not spell out a local length. *)
Theorem C80_ranks_agree_partial : forall idx n axis len1 len2,
  IndexOk idx n -> axis < n ->
  (forall m, m = len1 \/ m = len2 ->
     ~ In (Some axis, ISl (mkslice (Some 0%Z) (Some (Z.of_nat m)) None)) (np_items idx (seq 0 n))) ->
  mpi_getitem idx n axis len1 = mpi_getitem idx n axis len2.
Proof.
  intros idx n axis len1 len2 HO Ha Hn.
  destruct (sanitize_form _ _ HO) as (sl & Hs & Hell & Hc & Hit).
  assert (HL : consumed sl = length (seq 0 n)) by (rewrite seq_length; exact Hc).
  destruct (items_lookup sl (seq 0 n) 0 axis Hell HL) as (d & e & A & B & C);
    [rewrite seq_length; exact Ha|].
  rewrite nth_error_nth' with (d := 0) in C by (rewrite seq_length; exact Ha).
  rewrite seq_nth in C by exact Ha. rewrite Hit in Hn. apply nth_error_In in C. cbn [Nat.add] in A, C.
  unfold mpi_getitem. rewrite Hs. cbn [rbind]. rewrite A, B.
  destruct e as [|i|s|]; try reflexivity.
  destruct (slice_is s (Some 0%Z) (Some (Z.of_nat len1))) eqn:E1.
  { apply slice_is_spec in E1. subst s. exfalso. apply (Hn len1); [left; reflexivity|exact C]. }
  destruct (slice_is s (Some 0%Z) (Some (Z.of_nat len2))) eqn:E2.
  { apply slice_is_spec in E2. subst s. exfalso. apply (Hn len2); [right; reflexivity|exact C]. }
  reflexivity.
Qed.
Print Assumptions C80_ranks_agree_partial.

(** arr[0:5] of 9 elements on two ranks (5 and 4): distributed on one only. *)
Theorem C80_ranks_agree_refuted : exists idx n axis len1 len2,
  IndexOk idx n /\ axis < n /\
  mpi_getitem idx n axis len1 = Ok (ToDist 0) /\ mpi_getitem idx n axis len2 = Ok ToLocal.
Proof.
  exists [ISl (mkslice (Some 0%Z) (Some 5%Z) None)], 1, 0, 5, 4.
  repeat split; cbn; lia.
Qed.
Print Assumptions C80_ranks_agree_refuted.

Example C80_example : mpi_getitem [ISl full_slice; IInt 2]%Z 2 0 5 = mpi_getitem [ISl full_slice; IInt 2]%Z 2 0 4.
Proof. reflexivity. Qed.
