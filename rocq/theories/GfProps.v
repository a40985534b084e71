(** Properties of distributed groups in files (C194-C202). *)
From Coq Require Import String.
From Coq Require Import List Ascii Bool Arith ZArith Lia Permutation.
From Verif Require Import PyBase PyStr MemModel MemProofs2 JsonModel JsonSpec AttrModel AttrSpec PartSpec SliceModel SliceSpec
  NioModel NioSpec GfModel GfSpec.
From Verif Require NioProofs2 NioProofs5 GfProofs GfProofs2 GfProofs3.
Import ListNotations.
Open Scope list_scope.
Open Scope nat_scope.

(** C194.  A distributed group written by any number of ranks, in any order,
    and read by any number of ranks. *)
Theorem C194_roundtrip : forall o ro size size' junk order n,
  w_format o <> OtherFormat -> w_convert_attrs o = true -> w_hints o = true ->
  (0 < w_tn o)%Z -> (0 < w_td o)%Z ->
  r_format ro = w_format o -> r_convert_attrs ro = true -> r_hints ro = HintsTrue ->
  (0 < r_tn ro)%Z -> (0 < r_td ro)%Z ->
  Writable o size n -> Readback ro size' [] n -> (forall loc, Permutation (order loc) (seq 0 size)) ->
  exists f, distributed_group_to_file o order n = Ok f /\
  forall r, r < size' -> exists t, distributed_group_from_file ro junk size' r f = Ok t
    /\ Restored (w_format o) (w_convert o) (r_convert ro) (r_selections ro) size' r [] n t.
Proof. exact GfProofs2.group_roundtrip. Qed.
Print Assumptions C194_roundtrip.

(** A tree written by 2 ranks and read by 3: the common dataset "c" is that of
    rank 0; "d" in the group "g" is 4 x 2 over its first axis; only its rows 1
    to 3 are read. *)
Definition ex_common : gdata := Common (fun r => mkdset [2] 2 (fun i => Num (Z.of_nat (10 * r + nth 0 i 0))) (Some 3)).
Definition ex_locs (r : nat) (k : list nat) : el := Num (Z.of_nat (10 * (2 * r + nth 0 k 0) + nth 1 k 0)).
Definition ex_distr (ty : nat) : gdata := Distr (mkdist [4; 2] 0 2 ty 8 ex_locs None).
Definition ex_tree : gnode :=
  GGrp (fun r => [(s_ "rank", AInt (Z.of_nat r))])
    [(s_ "g", GGrp (fun _ => []) [(s_ "d", GSet (ex_distr 2) (fun _ => [(s_ "unit", AStr (s_ "K"))]))]);
     (s_ "c", GSet ex_common (fun _ => []))].
Definition ex_wopts : wopts :=
  {| w_format := HDF5; w_convert := false; w_convert_attrs := true; w_hints := true; w_h5mpi := true; w_tn := 100; w_td := 1 |}.
Definition ex_ropts (h : hints) (sel : option (list (str * list asel))) : ropts :=
  {| r_format := HDF5; r_convert := false; r_convert_attrs := true; r_hints := h; r_h5mpi := true; r_tn := 100; r_td := 1;
     r_item := fun _ => 8%Z; r_selections := sel |}.
Definition ex_sel : option (list (str * list asel)) :=
  Some [(s_ "g/d", [SelSlice (mkslice (Some 1%Z) None None)])].
Definition show (t : res rnode) : list (str * (list nat * list el * list str)) :=
  let row d a := match d with
                 | RCommon d => (d_shape d, map (d_data d) (all_indices (d_shape d)), map fst a)
                 | RDistr _ _ _ sh _ x _ => (sh, map x (all_indices sh), map fst a)
                 end in
  match t with
  | Ok (RGrp _ kids) =>
      flat_map (fun '(k, m) => match m with
                               | RSet d a => [(k, row d a)]
                               | RGrp _ kids => flat_map (fun '(k', m) => match m with RSet d a => [(k', row d a)] | _ => [] end) kids
                               end) kids
  | _ => []
  end.
Definition ex_file : fnode :=
  match distributed_group_to_file ex_wopts (fun _ => [1; 0]) ex_tree with Ok f => f | Err _ => FGrp [] [] end.
Example C194_example :
  map (fun r => show (distributed_group_from_file (ex_ropts HintsTrue ex_sel) (fun _ => el_zero) 3 r ex_file)) [0; 1; 2]
  = map (fun r => [(s_ "c", ([2], [Num 0; Num 1], [s_ "__memh5_distributed_dset"]));
       (s_ "d", ([1; 2], [Num (10 * r + 10); Num (10 * r + 11)],
          [s_ "__memh5_distributed_axis"; s_ "__memh5_distributed_dset"; s_ "unit"]))]) [0; 1; 2]%Z.
Proof. reflexivity. Qed.

(** C195.  The hints in the file describe the datasets ... *)
Theorem C195_hints : forall o size order n f,
  w_format o <> OtherFormat -> w_convert_attrs o = true -> w_hints o = true ->
  (0 < w_tn o)%Z -> (0 < w_td o)%Z ->
  Writable o size n -> (forall loc, Permutation (order loc) (seq 0 size)) ->
  distributed_group_to_file o order n = Ok f ->
  Hinted n f /\ match n, f with GGrp _ _, FGrp b _ => dget (s_ "__memh5_distributed_file") b = Some (ABool true) | _, _ => True end.
Proof.
  intros o size order n f H1 H2 H3 H4 H5 W Ho E.
  destruct (GfProofs.writes o size H1 H2 H3 H4 H5 n W true) as (f0 & names & E0 & H).
  destruct (H order Ho) as (f' & E2 & F).
  assert (f' = f) as ->.
  { unfold distributed_group_to_file in E. rewrite E0 in E. cbn [rbind] in E. rewrite E2 in E.
    destruct (w_format o); [| |easy]; now injection E. }
  clear E E2 E0 H W Ho. split.
  - revert F. generalize true as root. revert f.
    induction n as [d a|a kids IH] using GfProofs.gnode_ind'; intros f root F.
    + inversion F; subst.
      * constructor. assumption.
      * econstructor; try eassumption. unfold says_int, stored_int. destruct (w_format o); auto.
    + inversion F as [| |? ? ? ? ? ? ? ? ? F5]; subst. constructor; auto.
      intros k m m' Hm Hm'. exact (IH k m Hm m' false (F5 k m m' Hm Hm')).
  - inversion F as [| |? ? ? ? ? ? ? F3]; subst; auto.
Qed.
Print Assumptions C195_hints.

(** ... and without them the file has none. *)
Theorem C195_none : forall o order n f, w_hints o = false -> Unreserved n ->
  distributed_group_to_file o order n = Ok f -> Unhinted f.
Proof. exact GfProofs3.unhinted. Qed.
Print Assumptions C195_none.

Definition root_attrs (f : fnode) : list str := match f with FGrp a _ | FSet _ a => map fst a end.
Definition unhinted_opts : wopts :=
  {| w_format := HDF5; w_convert := false; w_convert_attrs := true; w_hints := false; w_h5mpi := true; w_tn := 100; w_td := 1 |}.
Example C195_example :
  match distributed_group_to_file unhinted_opts (fun _ => [0; 1]) ex_tree with Ok f => root_attrs f | Err _ => [] end = [s_ "rank"]
  /\ root_attrs ex_file = [s_ "rank"; s_ "__memh5_distributed_file"].
Proof. split; reflexivity. Qed.

(** C196.  False: [MemGroup.to_file(hints=False)] writes no hints. *)
Theorem C196_refuted : exists o order n f, w_hints o = false /\ Unreserved n
  /\ to_file o order n = Ok f /\ ~ Unhinted f.
Proof.
  assert (K : match to_file unhinted_opts (fun _ => [0; 1]) ex_tree with
              | Ok (FGrp b _) => match dget (s_ "__memh5_distributed_file") b with Some _ => true | None => false end
              | _ => false end = true) by (vm_compute; reflexivity).
  destruct (to_file unhinted_opts (fun _ => [0; 1]) ex_tree) as [f|e] eqn:F; [|discriminate K].
  exists unhinted_opts, (fun _ => [0; 1]), ex_tree, f. split; [reflexivity|]. split.
  - constructor; [intros k [ -> |[ -> | -> ]]; reflexivity|].
    intros k m [E|[E|[]]]; injection E as <- <-.
    + constructor; [intros k [ -> |[ -> | -> ]]; reflexivity|].
      intros k m [E|[]]. injection E as <- <-. constructor. intros k [ -> |[ -> | -> ]]; reflexivity.
    + constructor. intros k [ -> |[ -> | -> ]]; reflexivity.
  - split; [exact F|]. clear F. intro U. destruct f as [d b|b kids]; [discriminate K|]. inversion U as [|b' kids' H _]; subst.
    rewrite (H (s_ "__memh5_distributed_file") (or_introl eq_refl)) in K. discriminate K.
Qed.
Print Assumptions C196_refuted.

(** C197.  Hints given by the caller make a dataset distributed, over the axis
    given, whatever the file says ... *)
Theorem C197_distribute : forall ro junk size name d a c l h axis ax,
  r_hints ro = HintsDict l -> dget name l = Some h -> h_distributed h = Some true -> h_axis h = Some axis ->
  (r_format ro = HDF5 \/ r_format ro = Zarr) ->
  (0 < r_tn ro)%Z -> (0 < r_td ro)%Z -> (0 <= r_item ro (d_type d))%Z ->
  MeansAxis axis (length (d_shape d)) ax -> SelectionOk ro (chosen (r_selections ro) name) (d_shape d) ->
  (r_format ro = HDF5 -> Splittable (r_h5mpi ro && (0 <? axis)%Z) (r_tn ro) (r_td ro)
       (map (@length nat) (wanted_all (chosen (r_selections ro) name) (d_shape d))) ax size (r_item ro (d_type d))) ->
  copyattrs a Mem (r_convert_attrs ro) [] = Ok c ->
  exists locs, Distributes (map (@length nat) (wanted_all (chosen (r_selections ro) name) (d_shape d))) ax size locs
     (selected (wanted_all (chosen (r_selections ro) name) (d_shape d)) (d_data d))
  /\ forall r, r < size ->
       let gs := map (@length nat) (wanted_all (chosen (r_selections ro) name) (d_shape d)) in
       read_set ro junk size r name d a
       = Ok (RSet (RDistr gs ax (start_of (nth ax gs 0) size r) (part_shape gs ax size r) (d_type d) (locs r) None) c).
Proof. exact GfProofs3.caller_hint. Qed.
Print Assumptions C197_distribute.

Definition axis1 : hints := HintsDict [(s_ "/g/d", {| h_distributed := Some true; h_axis := Some 1%Z |});
                                       (s_ "/c", {| h_distributed := Some true; h_axis := Some 0%Z |})].
Example C197_example :
  map (fun r => map snd (show (distributed_group_from_file (ex_ropts axis1 None) (fun _ => el_zero) 2 r ex_file))) [0; 1]
  = map (fun r => [([1], [Num r], [s_ "__memh5_distributed_dset"]);
       ([4; 1], [Num r; Num (10 + r); Num (20 + r); Num (30 + r)],
          [s_ "__memh5_distributed_axis"; s_ "__memh5_distributed_dset"; s_ "unit"])]) [0; 1]%Z.
Proof. reflexivity. Qed.

(** ... but false: that they override what the file says.  A dataset that the
    file says is distributed is read distributed. *)
Theorem C198_refuted : exists ro l name h d a r t, r_hints ro = HintsDict l /\ dget name l = Some h
  /\ h_distributed h = Some false
  /\ read_set ro (fun _ => el_zero) 2 r name d a = Ok t
  /\ ~ (exists d' b, t = RSet (RCommon d') b).
Proof.
  pose (ro := ex_ropts (HintsDict [(s_ "/d", {| h_distributed := Some false; h_axis := None |})]) None).
  pose (d := mkdset [4] 2 (fun i => Num (Z.of_nat (nth 0 i 0))) None).
  pose (a := [(s_ "__memh5_distributed_dset", ABool true)]).
  assert (H : match read_set ro (fun _ => el_zero) 2 1 (s_ "/d") d a with
              | Ok t => match t with RSet (RCommon _) _ => false | _ => true end
              | Err _ => false end = true) by (vm_compute; reflexivity).
  destruct (read_set ro (fun _ => el_zero) 2 1 (s_ "/d") d a) as [t|e] eqn:E; [|discriminate H].
  exists ro, [(s_ "/d", {| h_distributed := Some false; h_axis := None |})], (s_ "/d"), {| h_distributed := Some false; h_axis := None |}, d, a, 1, t.
  split; [reflexivity|]. split; [reflexivity|]. split; [reflexivity|]. split; [exact E|].
  intros (d' & b & ->). discriminate H.
Qed.
Print Assumptions C198_refuted.

(** C199.  False: reading keeps the compression of the datasets of a
    distributed group. *)
Theorem C199_refuted : exists ro a t d f, d_comp d = Some 3 /\ f = FSet d a
  /\ distributed_group_from_file ro (fun _ => el_zero) 2 0 f = Ok t
  /\ forall x b, t = RSet (RCommon x) b -> d_comp x <> Some 3.
Proof.
  exists (ex_ropts HintsTrue None), [(s_ "__memh5_distributed_dset", ABool false)]. eexists.
  exists (mkdset [2] 2 (fun _ => Num 1) (Some 3)). eexists. split; [reflexivity|]. split; [reflexivity|].
  split; [reflexivity|]. intros x b E. injection E as <- _. discriminate.
Qed.
Print Assumptions C199_refuted.

(** C200.  False: with conversion of strings asked for, datasets of unicode
    strings can be written; distributed ones are refused. *)
Theorem C200_refuted : exists o order a x, w_convert o = true
  /\ (forall i, ascii_only (a_locs x 0 i)) /\ a_type x = 0
  /\ distributed_group_to_file o order (GSet (Common (fun _ => mkdset (a_gshape x) 0 (a_locs x 0) None)) a) <> Err TypeError
  /\ distributed_group_to_file o order (GSet (Distr x) a) = Err TypeError.
Proof.
  exists {| w_format := HDF5; w_convert := true; w_convert_attrs := true; w_hints := true; w_h5mpi := true; w_tn := 100; w_td := 1 |},
    (fun _ => [0]), (fun _ => []), (mkdist [2] 0 1 0 8 (fun _ _ => Txt (s_ "a")) None).
  split; [reflexivity|]. split.
  - intro i. cbn. repeat constructor.
  - split; [reflexivity|]. split; [discriminate|reflexivity].
Qed.
Print Assumptions C200_refuted.

(** ... with zarr, too. *)
Theorem C200_zarr_refuted : exists o order a x, w_convert o = true /\ w_format o = Zarr
  /\ (forall i, ascii_only (a_locs x 0 i)) /\ a_type x = 0
  /\ distributed_group_to_file o order (GSet (Distr x) a) = Err TypeError.
Proof.
  exists {| w_format := Zarr; w_convert := true; w_convert_attrs := true; w_hints := true; w_h5mpi := true; w_tn := 100; w_td := 1 |},
    (fun _ => [0]), (fun _ => []), (mkdist [2] 0 1 0 8 (fun _ _ => Txt (s_ "a")) None).
  split; [reflexivity|]. split; [reflexivity|]. split.
  - intro i. cbn. repeat constructor.
  - split; reflexivity.
Qed.
Print Assumptions C200_zarr_refuted.

(** C201.  False: a dataset with a single number and no axes can be written. *)
Theorem C201_refuted : exists o order a d, d_shape d = [] /\ d_type d <> 0
  /\ distributed_group_to_file o order (GSet (Common (fun _ => d)) a) = Err IndexError.
Proof.
  exists ex_wopts, (fun _ => [0]), (fun _ => []), (mkdset [] 2 (fun _ => Num 1) None).
  split; [reflexivity|]. split; [discriminate|reflexivity].
Qed.
Print Assumptions C201_refuted.

(** C202.  Common datasets and attributes are the same on all ranks after
    reading. *)
Theorem C202_same : forall ro junk junk' size r r' name d a, is_distributed ro name a = false ->
  read_set ro junk size r name d a = read_set ro junk' size r' name d a.
Proof. intros ro junk junk' size r r' name d a H. unfold read_set. now rewrite H. Qed.
Print Assumptions C202_same.

(** In particular those the file or nobody says to be distributed. *)
Theorem C202_common : forall ro name a,
  r_hints ro = HintsTrue -> (dget (s_ "__memh5_distributed_dset") a = None
    \/ dget (s_ "__memh5_distributed_dset") a = Some (ABool false)) ->
  is_distributed ro name a = false.
Proof. intros ro name a H [E|E]; unfold is_distributed, hint_for, dist_dset; now rewrite H, E. Qed.
Print Assumptions C202_common.

Example C202_example :
  is_distributed (ex_ropts HintsTrue None) (s_ "/c") [] = false
  /\ is_distributed (ex_ropts HintsTrue None) (s_ "/c") [(s_ "__memh5_distributed_dset", ABool true)] = true.
Proof. split; reflexivity. Qed.
