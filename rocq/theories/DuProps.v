(** Computing with distributed arrays: properties C261-C279. *)
From Coq Require Import List Arith ZArith Bool Lia Sorted Permutation.
From Verif Require Import PyBase PartSpec PartModel SliceModel RedModel RedSpec RedProofs AxModel AxSpec AxProofs DuModel DuSpec DuProofs DuProofs2 DuProofs3 DuProofs5 DuProofs6 DuProofs7 DuProofs8.
Import ListNotations.
Open Scope nat_scope.

(** Used in the examples: two ranks, sums, the largest element, quotient and
    remainder; the piece of an array that a rank has, and all elements of a small
    array. *)
Definition c0 : comm := mkcomm 7 2 0.
Definition c1 : comm := mkcomm 7 2 1.
Definition uadd : ufunc nat := mkufunc 1 (fun _ => fold_right Nat.add 0) (fold_right Nat.add 0) true.
Definition umax : ufunc nat := mkufunc 1 (fun _ => fold_right Nat.max 0) (fold_right Nat.max 0) false.
Definition udivmod : ufunc nat :=
  mkufunc 2 (fun i l => match i, l with 0, [x; y] => x / y | _, [x; y] => x mod y | _, _ => 0 end) (fun _ => 0) false.
Definition piece {A} (c : comm) (k : nat) (G : nd A) : darr A :=
  mkpart c k (shp G) (mknd (set_nth k (part c (nth k (shp G) 0)) (shp G)) (fun i => elt G (shift k (start c (nth k (shp G) 0)) i))).
Lemma piece_part : forall A c k (G : nd A), k < length (shp G) -> Part c k G (piece c k G).
Proof. intros A c k G K. apply mkpart_part. split; [exact K|]. split; [reflexivity|]. intros idx _. reflexivity. Qed.
Fixpoint all_of (sh : list nat) : list (list nat) :=
  match sh with [] => [[]] | n :: sh => flat_map (fun i => map (cons i) (all_of sh)) (seq 0 n) end.
Definition show {A} (d : darr A) : Z * list nat * list nat * list A := (d_axis d, d_gshape d, d_lshape d, map (elt (d_data d)) (all_of (shp (d_data d)))).
Definition rshow {A} (r : res (list (darr A))) := rbind r (fun l => Ok (map show l)).
(** 0 1 / 10 11 / 20 21 *)
Definition G32 : nd nat := mknd [3; 2] (fun i => 10 * nth 0 i 0 + nth 1 i 0).
Definition G3 : nd nat := mknd [3] (fun i => 100 * nth 0 i 0).
Definition kw0 : kwargs nat := mkkwargs None None false None.

(** ** C261: elementwise operations *)
Theorem C261_parts : forall A c j n (inputs : list (input A)) Gs u kw sh,
  c_rank c < c_size c -> Forall2 (StandsFor c j n) inputs Gs -> (exists d, In (InDist d) inputs) ->
  k_where kw <> Some WOther -> k_out kw = None -> Broadcast (map shp Gs) sh ->
  exists ds, array_ufunc u MCall inputs kw = Ok ds /\ length ds = u_nout u /\
  forall i R, i < u_nout u -> Elementwise (u_elem u i) Gs R ->
    exists d, nth_error ds i = Some d /\ Part c (length (shp R) - S j) R d.
Proof. intros. now apply (call_ok c j n inputs Gs u kw) with (sh := sh). Qed.
Print Assumptions C261_parts.

Theorem C261_refused : forall A c j n (inputs : list (input A)) Gs u kw,
  c_rank c < c_size c -> Forall2 (StandsFor c j n) inputs Gs -> (exists d, In (InDist d) inputs) ->
  k_where kw <> Some WOther -> k_out kw = None -> (forall sh, ~ Broadcast (map shp Gs) sh) ->
  array_ufunc u MCall inputs kw = Err ValueError.
Proof. intros. now apply (call_bad c j n inputs Gs u kw). Qed.
Print Assumptions C261_refused.

(** Whether arrays can be combined is the same on all ranks. *)
Theorem C261_ranks_agree : forall A c c' j n (inputs inputs' : list (input A)) Gs u kw,
  c_rank c < c_size c -> c_rank c' < c_size c' ->
  Forall2 (StandsFor c j n) inputs Gs -> Forall2 (StandsFor c' j n) inputs' Gs ->
  (exists d, In (InDist d) inputs) -> (exists d, In (InDist d) inputs') ->
  k_where kw <> Some WOther -> k_out kw = None ->
  (exists ds ds', array_ufunc u MCall inputs kw = Ok ds /\ array_ufunc u MCall inputs' kw = Ok ds')
  \/ (array_ufunc u MCall inputs kw = Err ValueError /\ array_ufunc u MCall inputs' kw = Err ValueError).
Proof.
  intros A c c' j n inputs inputs' Gs u kw Hc Hc' SF SF' HD HD' HW HO.
  destruct (bshape (map shp Gs)) as [sh|] eqn:E.
  - apply bshape_iff in E. left.
    destruct (call_ok c j n inputs Gs u kw Hc SF HD HW sh HO E) as (ds & E1 & _).
    destruct (call_ok c' j n inputs' Gs u kw Hc' SF' HD' HW sh HO E) as (ds' & E2 & _). eauto.
  - right. pose proof (proj2 (bshape_none _) E) as NB. split; [apply (call_bad c j n inputs Gs)|apply (call_bad c' j n inputs' Gs)]; auto.
Qed.
Print Assumptions C261_ranks_agree.

(** The matrix and the vector are both distributed over the last axis. *)
Example C261_example :
  let M := mknd [2; 3] (fun i => 10 * nth 0 i 0 + nth 1 i 0) in
  rshow (array_ufunc uadd MCall [InDist (piece c0 1 M); InDist (piece c0 0 G3); InScalar 5] kw0)
    = Ok [(1%Z, [2; 3], [2; 2], [5; 106; 15; 116])]
  /\ rshow (array_ufunc uadd MCall [InDist (piece c1 1 M); InDist (piece c1 0 G3); InScalar 5] kw0)
    = Ok [(1%Z, [2; 3], [2; 1], [207; 217])]
  /\ rshow (array_ufunc uadd MCall [InDist (piece c0 0 G32); InDist (piece c0 0 G3)] kw0) = Err AxisException.
Proof. repeat split. Qed.

(** ** C262: reductions *)
Theorem C262_parts : forall A c k (G : nd A) d u kw axes red R,
  c_rank c < c_size c -> Part c k G d -> k_where kw <> Some WOther -> k_out kw = None -> k_axis kw = Some (Some axes) ->
  Forall2 (AxisName (length (shp G))) axes red -> NoDup red -> ~ In k red ->
  (u_ident u = true \/ forall a, In a red -> nth a (shp G) 0 <> 0) ->
  Reduction (u_red u) red (k_keepdims kw) G R ->
  exists d' p, array_ufunc u MReduce [InDist d] kw = Ok [d'] /\ Part c p R d'
    /\ nth_error (if k_keepdims kw then seq 0 (length (shp G)) else kept (length (shp G)) red) p = Some k.
Proof. intros. eapply reduce_data; eassumption. Qed.
Print Assumptions C262_parts.

Theorem C262_refused : forall A c k (G : nd A) d u kw axes red,
  Part c k G d -> k_where kw <> Some WOther -> k_axis kw = Some (Some axes) ->
  Forall2 (AxisName (length (shp G))) axes red -> In k red ->
  array_ufunc u MReduce [InDist d] kw = Err AxisException.
Proof. intros. eapply reduce_refused; eassumption. Qed.
Print Assumptions C262_refused.

Example C262_example :
  let G := mknd [2; 3; 2] (fun i => 100 * nth 0 i 0 + 10 * nth 1 i 0 + nth 2 i 0) in
  let kw axes keep := mkkwargs None (Some (Some axes)) keep None in
  rshow (array_ufunc uadd MReduce [InDist (piece c0 1 G)] (kw [0%Z; (-1)%Z] false)) = Ok [(0%Z, [3], [2], [202; 242])]
  /\ rshow (array_ufunc uadd MReduce [InDist (piece c1 1 G)] (kw [0%Z; (-1)%Z] true)) = Ok [(1%Z, [1; 3; 1], [1; 1; 1], [282])]
  /\ array_ufunc uadd MReduce [InDist (piece c0 1 G)] (kw [(-2)%Z] false) = Err AxisException.
Proof. repeat split. Qed.

(** ** C263: accumulations *)
Theorem C263_parts : forall A c k (G : nd A) d u kw z a R,
  c_rank c < c_size c -> Part c k G d -> k_where kw <> Some WOther -> k_out kw = None -> k_axis kw = Some (Some [z]) ->
  AxisName (length (shp G)) z a -> a <> k -> Accumulation (u_red u) a G R ->
  exists d', array_ufunc u MAccumulate [InDist d] kw = Ok [d'] /\ Part c k R d'.
Proof. intros. eapply accumulate_data; eassumption. Qed.
Print Assumptions C263_parts.

Theorem C263_refused : forall A c k (G : nd A) d u kw,
  Part c k G d -> k_where kw <> Some WOther -> k_axis kw = Some (Some [Z.of_nat k]) ->
  array_ufunc u MAccumulate [InDist d] kw = Err AxisException.
Proof. intros. eapply accumulate_refused; eassumption. Qed.
Print Assumptions C263_refused.

Example C263_example :
  let kw z := mkkwargs None (Some (Some [z])) false None in
  rshow (array_ufunc uadd MAccumulate [InDist (piece c0 0 G32)] (kw 1%Z)) = Ok [(0%Z, [3; 2], [2; 2], [0; 1; 10; 21])]
  /\ rshow (array_ufunc uadd MAccumulate [InDist (piece c1 0 G32)] (kw (-1)%Z)) = Ok [(0%Z, [3; 2], [1; 2], [20; 41])]
  /\ array_ufunc uadd MAccumulate [InDist (piece c1 0 G32)] (kw 0%Z) = Err AxisException.
Proof. repeat split. Qed.

(** ** C264: accumulation along the distributed axis, counted from the end *)
Theorem C264_refuted : exists c k (G : nd nat) d u kw z R d',
  c_rank c < c_size c /\ Part c k G d /\ k_axis kw = Some (Some [z]) /\ AxisName (length (shp G)) z k
  /\ Accumulation (u_red u) k G R
  /\ array_ufunc u MAccumulate [InDist d] kw = Ok [d'] /\ ~ exists p, Part c p R d'.
Proof.
  pose (ones := mknd [2] (fun _ : list nat => 1)).
  exists c1, 0, ones, (piece c1 0 ones), uadd, (mkkwargs None (Some (Some [(-1)%Z])) false None), (-1)%Z,
    (mknd [2] (fun i => fold_right Nat.add 0 (map (fun j => elt ones (set_nth 0 j i)) (seq 0 (S (nth 0 i 0)))))).
  eexists. split; [cbn; lia|]. split; [apply piece_part; cbn; lia|]. split; [reflexivity|]. split; [split; [cbn; lia|right; reflexivity]|].
  split; [split; [reflexivity|reflexivity]|]. split; [reflexivity|]. intros (p & (K & _ & S2) & _). cbn in K, S2. destruct p as [|p]; [|lia].
  specialize (S2 [0]). cbn in S2. assert (X : 1 = 2); [|discriminate]. apply S2. repeat constructor.
Qed.
Print Assumptions C264_refuted.

(** ** C265: reductions over all axes *)
Theorem C265_vector : forall A c k (G : nd A) d u kw,
  c_rank c < c_size c -> Part c k G d -> k_where kw <> Some WOther -> k_out kw = None -> k_axis kw = Some None -> k_keepdims kw = false ->
  (u_ident u = true \/ ~ In 0 (shp (d_data d))) ->
  exists d' L, array_ufunc u MReduce [InDist d] kw = Ok [d']
    /\ StronglySorted LexLt L
    /\ (forall i, In i L <-> InShape i (shp G) /\ start c (nth k (shp G) 0) <= nth k i 0 < start c (nth k (shp G) 0) + part c (nth k (shp G) 0))
    /\ forall V, shp V = [c_size c] -> elt V [c_rank c] = u_red u (map (elt G) L) -> Part c 0 V d'.
Proof.
  intros A c k G d u kw Hc HP HW HO Ha Hk HI.
  destruct (total_ok c k G d u kw) as (d' & E & H); auto.
  { destruct HI as [HI|HI]; [now left|right]. intros Z. apply HI. now apply nsize_zero. }
  exists d', (own_indices c k (shp G)). split; [exact E|]. split; [apply own_sorted|]. split; [|exact H].
  intros i. apply in_own; [exact Hc|]. destruct HP as ((K & _) & _). exact K.
Qed.
Print Assumptions C265_vector.

Theorem C265_allreduce : forall A id m k (G : nd A) ds u kw op zero L rs r,
  (forall q, q < m -> Part (mkcomm id m q) k G (ds q)) -> r < m ->
  k_where kw <> Some WOther -> k_out kw = None -> k_axis kw = Some None -> k_keepdims kw = false -> u_ident u = true ->
  (forall l, u_red u l = fold_right op zero l) ->
  (forall a b c, op a (op b c) = op (op a b) c) -> (forall a b, op a b = op b a) -> (forall a, op zero a = a) ->
  Lists (shp G) L ->
  (forall q, q < m -> array_ufunc u MReduce [InDist (ds q)] kw = Ok [rs q]) ->
  allreduce op zero rs m r = Ok (fold_right op zero (map (elt G) L)).
Proof. intros. eapply total_allreduce; eassumption. Qed.
Print Assumptions C265_allreduce.

Example C265_example :
  let kw := mkkwargs None (Some None) false None in
  let part_sum c := array_ufunc uadd MReduce [InDist (piece c 0 G32)] kw in
  let rs q := match part_sum (mkcomm 7 2 q) with Ok [d] => d | _ => piece c0 0 G32 end in
  rshow (part_sum c0) = Ok [(0%Z, [2], [1], [22])] /\ rshow (part_sum c1) = Ok [(0%Z, [2], [1], [41])]
  /\ allreduce Nat.add 0 rs 2 1 = Ok (0 + 1 + 10 + 11 + 20 + 21)
  /\ allreduce Nat.add 0 (fun q => piece (mkcomm 7 2 q) 0 G32) 2 1 = Err ValueError.
Proof. repeat split. Qed.

(** ** C266: arrays to write to *)
Theorem C266_out : forall A c j n (inputs : list (input A)) Gs u kw sh outs Os,
  c_rank c < c_size c -> Forall2 (StandsFor c j n) inputs Gs -> (exists d, In (InDist d) inputs) ->
  k_where kw <> Some WOther -> Broadcast (map shp Gs) sh ->
  k_out kw = Some (map (fun d => Some (InDist d)) outs) -> length outs = u_nout u ->
  Forall2 (fun d O => Part c (length sh - S j) O d /\ shp O = sh) outs Os ->
  exists ds, array_ufunc u MCall inputs kw = Ok ds /\ length ds = u_nout u /\
  forall i R, i < u_nout u -> Elementwise (u_elem u i) Gs R ->
    exists d, nth_error ds i = Some d /\ Part c (length sh - S j) R d.
Proof. intros. eapply call_out; eassumption. Qed.
Print Assumptions C266_out.

Theorem C266_plain : forall A c j n (inputs : list (input A)) Gs u kw sh l,
  c_rank c < c_size c -> Forall2 (StandsFor c j n) inputs Gs -> (exists d, In (InDist d) inputs) ->
  k_where kw <> Some WOther -> Broadcast (map shp Gs) sh ->
  k_out kw = Some l -> (exists o, In (Some o) l /\ forall d, o <> InDist d) ->
  array_ufunc u MCall inputs kw = Err TypeError.
Proof.
  intros A c j n inputs Gs u kw sh l Hc SF HD HW B HO (o & Ho & No).
  destruct (inputs_validate0 c j n inputs Gs Hc SF HD) as (m & _ & _ & E).
  erewrite (ufunc_head u MCall); [|discriminate|exact HW|exact (inputs_comm c j n inputs Gs SF HD)|exact E].
  rewrite HO. replace (dist_outs l) with (@Err (list (darr A)) TypeError); [reflexivity|].
  clear -Ho No. symmetry. induction l as [|x l IH]; [contradiction|]. destruct Ho as [->|Ho].
  - destruct o as [d| |]; [now destruct (No d)|reflexivity|reflexivity].
  - cbn [dist_outs]. destruct x as [[d| |]|]; try reflexivity. now rewrite (IH Ho).
Qed.
Print Assumptions C266_plain.

Example C266_example :
  let kw o := mkkwargs None None false (Some [Some o]) in
  let zero := mknd [3; 2] (fun _ : list nat => 0) in
  rshow (array_ufunc uadd MCall [InDist (piece c1 0 G32); InScalar 1] (kw (InDist (piece c1 0 zero))))
    = Ok [(0%Z, [3; 2], [1; 2], [21; 22])]
  /\ array_ufunc uadd MCall [InDist (piece c1 0 G32); InScalar 1] (kw (InDist (piece c1 1 zero))) = Err ValueError
  /\ array_ufunc uadd MCall [InDist (piece c1 0 G32); InScalar 1] (kw (InArr zero)) = Err TypeError.
Proof. repeat split. Qed.

(** ** C267: arrays to write to with more axes than the inputs *)
Theorem C267_refuted : exists c (G O : nd nat) d o u,
  c_rank c < c_size c /\ Part c 0 G d /\ Part c 0 O o
  /\ (forall sh, Broadcast [shp G; shp O] sh -> sh <> shp O)
  /\ exists ds, array_ufunc u MCall [InDist d] (mkkwargs None None false (Some [Some (InDist o)])) = Ok ds.
Proof.
  pose (G := mknd [2] (fun i => 5 + nth 0 i 0)). pose (O := mknd [2; 1] (fun _ : list nat => 0)).
  exists c0, G, O, (piece c0 0 G), (piece c0 0 O), uadd. split; [cbn; lia|]. split; [apply piece_part; cbn; lia|].
  split; [apply piece_part; cbn; lia|]. split.
  - intros sh B ->. destruct B as (_ & _ & B). destruct (B 0 1 eq_refl) as [B' _]. destruct (B' [2] 2 (or_introl eq_refl) eq_refl); discriminate.
  - eexists. reflexivity.
Qed.
Print Assumptions C267_refuted.

(** ** C268: a plain array with as many elements as one of the ranks has *)
Theorem C268_refuted : exists (G : nd nat) a u,
  (exists ds, array_ufunc u MCall [InDist (piece c0 0 G); InArr a] kw0 = Ok ds)
  /\ array_ufunc u MCall [InDist (piece c1 0 G); InArr a] kw0 = Err AxisException
  /\ Part c0 0 G (piece c0 0 G) /\ Part c1 0 G (piece c1 0 G).
Proof.
  exists G3, (mknd [2] (fun _ => 1)), uadd. split; [eexists; reflexivity|]. split; [reflexivity|].
  split; apply piece_part; cbn; lia.
Qed.
Print Assumptions C268_refuted.

(** ** C269: arrays distributed over an axis counted from the end *)
Theorem C269_refuted : exists c (G : nd nat) a d u R d',
  c_rank c < c_size c
  /\ wrap (fun q => d_data (piece (mkcomm (c_id c) (c_size c) q) 1 G)) (-1) (Some c) = Ok d
  /\ Elementwise (u_elem u 0) [G; a] R
  /\ array_ufunc u MCall [InDist d; InArr a] kw0 = Ok [d'] /\ d_gshape d' <> shp R /\ d_axis d' <> 2%Z /\ d_axis d' <> (-1)%Z.
Proof.
  pose (G := mknd [1; 2] (fun i => nth 1 i 0)). pose (a := mknd [1; 1; 1] (fun _ : list nat => 10)).
  exists c0, G, a. eexists. exists uadd, (mknd [1; 1; 2] (fun i => elt G (bindex [1; 2] i) + (elt a (bindex [1; 1; 1] i) + 0))). eexists.
  split; [cbn; lia|]. split; [reflexivity|]. split.
  - split.
    + apply bshape_iff. reflexivity.
    + intros idx Hidx. exists [bindex [1; 2] idx; bindex [1; 1; 1] idx]. split; [|reflexivity].
      assert (L : length idx = 3) by (apply inshape_iff in Hidx; apply Hidx).
      repeat constructor; apply reads_bindex; rewrite L; cbn; lia.
  - split; [reflexivity|]. cbn. repeat split; discriminate.
Qed.
Print Assumptions C269_refuted.

Theorem C269_reduce_refuted : exists c (G : nd nat) d u,
  c_rank c < c_size c
  /\ wrap (fun q => d_data (piece (mkcomm (c_id c) (c_size c) q) 1 G)) (-1) (Some c) = Ok d
  /\ exists ds, array_ufunc u MReduce [InDist d] (mkkwargs None (Some (Some [1%Z])) false None) = Ok ds.
Proof. exists c0, G32. eexists. exists uadd. split; [cbn; lia|]. split; [reflexivity|]. eexists. reflexivity. Qed.
Print Assumptions C269_reduce_refuted.

(** ** C270: communicators *)
Theorem C270_none : forall A u m (inputs : list (input A)) kw, m <> MOther -> k_where kw <> Some WOther ->
  (forall d, In (InDist d) inputs -> d_comm d = None) -> array_ufunc u m inputs kw = Err RuntimeError.
Proof. intros. now apply no_comm. Qed.
Print Assumptions C270_none.

Theorem C270_different : forall A u m kw c1 c2 (d1 d2 : darr A) rest, m <> MOther -> k_where kw <> Some WOther ->
  In (InDist d2) rest -> d_comm d1 = Some c1 -> d_comm d2 = Some c2 -> c_id c1 <> c_id c2 ->
  array_ufunc u m (InDist d1 :: rest) kw = Err ValueError.
Proof. intros A u m kw c2 c3 d1 d2 rest. intros. eapply mixed_comms; eauto. Qed.
Print Assumptions C270_different.

Example C270_example :
  let d := piece c0 0 G3 in
  let alone := mkdarr (d_axis d) (d_gshape d) (d_lshape d) (d_loffset d) None (d_data d) in
  let other := mkdarr (d_axis d) (d_gshape d) (d_lshape d) (d_loffset d) (Some (mkcomm 8 2 0)) (d_data d) in
  array_ufunc uadd MCall [InDist alone; InScalar 1] kw0 = Err RuntimeError
  /\ array_ufunc uadd MCall [InDist d; InDist other] kw0 = Err ValueError.
Proof. repeat split. Qed.

(** ** C271: an array with a communicator and one without *)
Theorem C271_refuted : exists (d1 d2 : darr nat) u,
  array_ufunc u MCall [InDist d1; InDist d2] kw0 = Err ValueError
  /\ exists ds, array_ufunc u MCall [InDist d2; InDist d1] kw0 = Ok ds.
Proof.
  pose (c := mkcomm 7 1 0). pose (d := piece c 0 G3).
  exists d, (mkdarr (d_axis d) (d_gshape d) (d_lshape d) (d_loffset d) None (d_data d)), uadd.
  split; [reflexivity|]. eexists. reflexivity.
Qed.
Print Assumptions C271_refuted.

(** ** C272: several outputs of which some are given *)
Theorem C272_refuted : exists c (G O : nd nat) d o u,
  c_rank c < c_size c /\ Part c 0 G d /\ Part c 0 O o /\ shp O = shp G /\ u_nout u = 2
  /\ (exists ds, array_ufunc u MCall [InDist d; InScalar 3] (mkkwargs None None false (Some [Some (InDist o); Some (InDist o)])) = Ok ds)
  /\ array_ufunc u MCall [InDist d; InScalar 3] (mkkwargs None None false (Some [Some (InDist o); None])) = Err TypeError.
Proof.
  exists c0, G3, G3, (piece c0 0 G3), (piece c0 0 G3), udivmod. split; [cbn; lia|].
  split; [apply piece_part; cbn; lia|]. split; [apply piece_part; cbn; lia|]. split; [reflexivity|]. split; [reflexivity|].
  split; [eexists; reflexivity|reflexivity].
Qed.
Print Assumptions C272_refuted.

(** ** C273: reductions that need an element, on a rank that has none *)
Theorem C273_refuted : exists (G : nd nat) u,
  let kw := mkkwargs None (Some None) false None in
  Part c0 0 G (piece c0 0 G) /\ Part c1 0 G (piece c1 0 G)
  /\ (exists ds, array_ufunc u MReduce [InDist (piece c0 0 G)] kw = Ok ds)
  /\ array_ufunc u MReduce [InDist (piece c1 0 G)] kw = Err ValueError.
Proof.
  exists (mknd [1] (fun _ => 4)), umax. split; [apply piece_part; cbn; lia|]. split; [apply piece_part; cbn; lia|].
  split; [eexists; reflexivity|reflexivity].
Qed.
Print Assumptions C273_refuted.

(** ** C274: transposition *)
Theorem C274_transpose : forall A c k (G : nd A) d a perm R,
  c_rank c < c_size c -> Part c k G d -> TransposeBy (length (shp G)) a perm -> Permutation perm (seq 0 (length (shp G))) ->
  Transposed perm G R ->
  exists d' p, transpose d a = Ok d' /\ Part c p R d' /\ nth_error perm p = Some k.
Proof. intros. eapply transpose_data; eassumption. Qed.
Print Assumptions C274_transpose.

Example C274_example :
  let G := mknd [2; 3; 2] (fun i => 100 * nth 0 i 0 + 10 * nth 1 i 0 + nth 2 i 0) in
  rbind (transpose (piece c1 1 G) (TAxes [1; 2; 0]%Z)) (fun d => Ok (show d)) = Ok (0%Z, [3; 2; 2], [1; 2; 2], [20; 120; 21; 121])
  /\ rbind (transpose (piece c1 0 G32) TEmpty) (fun d => Ok (show d)) = Ok (1%Z, [2; 3], [2; 1], [20; 21]).
Proof. repeat split. Qed.

(** ** C275: the attribute T *)
Theorem C275_refuted : exists c k (G : nd nat) d d' R,
  c_rank c < c_size c /\ Part c k G d /\ attr_T d = Ok d' /\ Transposed (rev (seq 0 (length (shp G)))) G R
  /\ ~ exists p, Part c p R d'.
Proof.
  exists c0, 0, G32, (piece c0 0 G32). eexists. exists (mknd [2; 3] (fun i => elt G32 (rev i))).
  split; [cbn; lia|]. split; [apply piece_part; cbn; lia|]. split; [reflexivity|]. split.
  - split; [reflexivity|]. intros i Hi. cbn. inversion Hi as [|x m i' sh Hx Hi']; subst. inversion Hi' as [|y m' i'' sh' Hy Hi'']; subst.
    inversion Hi''; subst. reflexivity.
  - intros (p & (K & S1 & _) & E1 & E2 & _). cbn in E1. assert (p = 0) by lia. subst p. cbn in E2. discriminate.
Qed.
Print Assumptions C275_refuted.

(** ** C276: indexing *)
Theorem C276_whole : forall A c k (G : nd A) d sl R e,
  c_rank c < c_size c -> Part c k G d -> IndexOk sl (length (shp G)) ->
  In (Some k, e) (np_items sl (seq 0 (length (shp G)))) -> Whole e (part c (nth k (shp G) 0)) ->
  Indexed (entries_whole k sl (length (shp G))) G R ->
  exists d' p, getitem d sl = Ok (GDist d') /\ Part c p R d' /\ nth_error (np_out sl (length (shp G))) p = Some (Some k).
Proof. intros. eapply getitem_dist; eassumption. Qed.
Print Assumptions C276_whole.

Theorem C276_local : forall A c k (G : nd A) d sl e t,
  Part c k G d -> IndexOk sl (length (shp G)) ->
  In (Some k, e) (np_items sl (seq 0 (length (shp G)))) -> ~ Whole e (part c (nth k (shp G) 0)) ->
  Extent (entries sl (length (shp G))) (shp (d_data d)) t ->
  exists a, getitem d sl = Ok (GLocal a) /\ shp a = t /\ Indexed (entries sl (length (shp G))) (d_data d) a.
Proof. intros. eapply getitem_local; eassumption. Qed.
Print Assumptions C276_local.

Theorem C276_refused : forall A c k (G : nd A) d sl, Part c k G d -> ~ IndexOk sl (length (shp G)) -> getitem d sl = Err IndexError.
Proof. intros. eapply getitem_index; eassumption. Qed.
Print Assumptions C276_refused.

Example C276_example :
  let G := mknd [2; 3; 4] (fun i => 100 * nth 0 i 0 + 10 * nth 1 i 0 + nth 2 i 0) in
  let sh r := rbind r (fun g => Ok (match g with GDist d => Some (show d) | GLocal a => None end)) in
  sh (getitem (piece c0 1 G) [IInt (-1); IEll; ISl (mkslice None None (Some (-2)%Z))])
    = Ok (Some (0%Z, [3; 2], [2; 2], [103; 101; 113; 111]))
  /\ sh (getitem (piece c1 1 G) [INew; IInt 0; IEll; IInt 3]) = Ok (Some (1%Z, [1; 3], [1; 1], [23]))
  /\ sh (getitem (piece c1 1 G) [IInt 0; IInt 0]) = Ok None
  /\ getitem (piece c1 1 G) [IInt 0; IInt 0; IInt 0; IInt 0] = Err IndexError.
Proof. repeat split. Qed.

(** ** C277: making a distributed array from those of the ranks, and copying *)
Theorem C277_wrap : forall A id m k (G : nd A) arrays r, r < m ->
  (forall q, q < m -> Share (mkcomm id m q) k G (arrays q)) ->
  exists d, wrap arrays (Z.of_nat k) (Some (mkcomm id m r)) = Ok d /\ Part (mkcomm id m r) k G d /\ d_data d = arrays r.
Proof.
  intros A id m k G arrays r Hr H. eexists. split; [exact (wrap_share id m k G arrays r Hr H)|]. split; [|reflexivity].
  apply mkpart_part, H, Hr.
Qed.
Print Assumptions C277_wrap.

Theorem C277_uneven : forall A id m k (arrays : nat -> nd A) r lens, r < m ->
  (forall q, q < m -> nth_error (shp (arrays q)) k = Some (lens q)) ->
  (exists q, q < m /\ lens q <> part_of (fold_right Nat.add 0 (map lens (seq 0 m))) m q) ->
  wrap arrays (Z.of_nat k) (Some (mkcomm id m r)) = Err AxisException.
Proof. intros. eapply wrap_uneven; eassumption. Qed.
Print Assumptions C277_uneven.

Theorem C277_copy : forall A id m k (G : nd A) ds r, r < m -> (forall q, q < m -> Part (mkcomm id m q) k G (ds q)) ->
  exists d', copy ds r = Ok d' /\ Part (mkcomm id m r) k G d' /\ d_data d' = d_data (ds r).
Proof. intros. now apply copy_part. Qed.
Print Assumptions C277_copy.

Example C277_example :
  let a n := mknd [2; n] (fun i => 10 * nth 0 i 0 + nth 1 i 0) in
  rbind (wrap (fun q => a (2 - q)) 1 (Some c1)) (fun d => Ok (show d)) = Ok (1%Z, [2; 3], [2; 1], [0; 10])
  /\ wrap (fun q => a (1 + q)) 1 (Some c1) = Err AxisException
  /\ wrap (fun q => a 1) 2 (Some c1) = Err AxisException
  /\ rbind (copy (fun q => piece (mkcomm 7 2 q) 0 G32) 1) (fun d => Ok (show d)) = Ok (0%Z, [3; 2], [1; 2], [20; 21]).
Proof. repeat split. Qed.

(** ** C278: what is not supported *)
Theorem C278_unsupported : forall A u m (inputs : list (input A)) kw, m = MOther \/ k_where kw = Some WOther ->
  array_ufunc u m inputs kw = Err UnsupportedOperation.
Proof. intros. now apply unsupported. Qed.
Print Assumptions C278_unsupported.

Example C278_example :
  array_ufunc uadd MCall [InDist (piece c0 0 G3); InScalar 1] (mkkwargs (Some WOther) None false None) = Err UnsupportedOperation
  /\ array_ufunc uadd MOther [InDist (piece c0 0 G3); InScalar 1] kw0 = Err UnsupportedOperation
  /\ rshow (array_ufunc uadd MCall [InDist (piece c0 0 G3); InScalar 1] (mkkwargs (Some WTrue) None false None)) = Ok [(0%Z, [3], [2], [1; 101])].
Proof. repeat split. Qed.

(** ** C279: expressions *)
Theorem C279_expressions : forall A c (env : nat -> input A) genv e x,
  c_rank c < c_size c -> (forall v, Holds c (genv v) (env v)) -> Den genv e x ->
  exists i, eval env e = Ok i /\ Holds c x i.
Proof. intros. eapply eval_holds; eassumption. Qed.
Print Assumptions C279_expressions.

(** (x + 1).T.sum(axis=1) *)
Example C279_example :
  let e := EReduce uadd [1%Z] false (ETranspose (TAxes [1; 0]%Z) (ECall uadd 0 [EVar 0; EVar 1])) in
  let G := mknd [2; 3] (fun i => 10 * nth 0 i 0 + nth 1 i 0) in
  let env c v := match v with 0 => InDist (piece c 1 G) | _ => InScalar 1 end in
  let sh r := rbind r (fun i => Ok (match i with InDist d => Some (show d) | _ => None end)) in
  sh (eval (env c0) e) = Ok (Some (0%Z, [3], [2], [12; 14])) /\ sh (eval (env c1) e) = Ok (Some (0%Z, [3], [1], [16])).
Proof. repeat split. Qed.
