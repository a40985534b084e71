(** C184, C190, C194, C198: unknown formats, files opened without MPI, and the axis a file names. *)
From Coq Require Import String.
From Coq Require Import List Ascii Bool Arith ZArith.
From Verif Require Import PyBase PyStr MemModel JsonModel AttrModel PartModel SliceModel NioModel GfModel PartSpec SliceSpec NioSpec GfSpec GfProofs.
Import ListNotations.
Open Scope list_scope.
Open Scope nat_scope.

(** C184, C194: other formats than HDF5 and zarr are refused. *)
Theorem C184_format : forall A h5mpi f tn td (a : dist A) zero comp order old,
  NioModel.to_file h5mpi OtherFormat f tn td a zero comp order old = Err ValueError.
Proof. reflexivity. Qed.
Print Assumptions C184_format.
Theorem C194_format : forall o order t, w_format o = OtherFormat -> distributed_group_to_file o order t = Err ValueError.
Proof. intros o order t H. unfold distributed_group_to_file. now rewrite H. Qed.
Print Assumptions C194_format.

(** C190: a file is opened with MPI if there is MPI for HDF5 and the argument counts as true: a communicator does, None does not. *)
Theorem C190_argument : forall h5mpi use_mpi comm, open_h5py_mpi h5mpi FName use_mpi comm = Ok (OpenedMpi comm) <->
  h5mpi = true /\ (use_mpi = PyBool true \/ exists c, use_mpi = PyComm c).
Proof.
  intros h5mpi use_mpi comm. unfold open_h5py_mpi.
  destruct h5mpi; cbn [andb]; [|split; [discriminate|intros [E _]; discriminate E]].
  destruct use_mpi as [[]|c|]; cbn [truthy].
  - split; [intros _; auto|reflexivity].
  - split; [discriminate|]. intros (_ & [E|(c & E)]); discriminate E.
  - split; [intros _; eauto|reflexivity].
  - split; [discriminate|]. intros (_ & [E|(c & E)]); discriminate E.
Qed.
Print Assumptions C190_argument.

(** C197: the axis the file names is used if the caller names none: a number, or a Boolean in place of 0 or 1; anything else is an error. *)
Theorem C197_axis : forall ro junk size r name d a v, r_hints ro = HintsTrue ->
  dget (s_ "__memh5_distributed_dset") a = Some (ABool true) -> dget (s_ "__memh5_distributed_axis") a = Some v ->
  let reads z := rbind (from_file (r_h5mpi ro) (r_format ro) FName (r_tn ro) (r_td ro) (r_item ro (d_type d)) d z (selection_for ro name) size r junk)
    (fun '(gshape, ax, off, lshape, data) => rbind (copyattrs a Mem (r_convert_attrs ro) []) (fun a =>
     Ok (RSet (RDistr gshape ax off lshape (d_type d) data None) a))) in
  read_set ro junk size r name d a =
  match v with
  | AInt z | ANpInt z => reads z
  | ABool true => reads 1%Z
  | ABool false => reads 0%Z
  | _ => Err TypeError
  end.
Proof.
  intros ro junk size r name d a v H D X reads. unfold read_set.
  assert (E1 : is_distributed ro name a = true).
  { unfold is_distributed. rewrite H. change dist_dset with (s_ "__memh5_distributed_dset"). rewrite D. cbn [truth]. now rewrite orb_true_r. }
  assert (E2 : axis_for ro name a = as_int v).
  { unfold axis_for, hint_for. rewrite H. cbn [h_axis]. change dist_axis with (s_ "__memh5_distributed_axis"). now rewrite X. }
  rewrite E1, E2. unfold reads. clear.
  destruct v as [|[]|z| | | | |z| | |]; cbn [as_int rbind]; try reflexivity;
    destruct from_file as [[[[[? ?] ?] ?] ?]|]; reflexivity.
Qed.
Print Assumptions C197_axis.

Example C197_axis_example :
  let d := mkdset [4; 2] 2 (fun i => Num (Z.of_nat (10 * nth 0 i 0 + nth 1 i 0))) None in
  let ro := {| r_format := HDF5; r_convert := true; r_convert_attrs := true; r_hints := HintsTrue; r_h5mpi := true;
               r_tn := 100; r_td := 1; r_item := fun _ => 8%Z; r_selections := None |} in
  let a v := [(s_ "__memh5_distributed_dset", ABool true); (s_ "__memh5_distributed_axis", v)] in
  let shape v := match read_set ro (fun _ => el_zero) 2 1 (s_ "/d") d (a v) with
                 | Ok (RSet (RDistr g ax off l _ _ _) _) => Some (g, off, l)
                 | _ => None
                 end in
  shape (AInt 0) = Some ([4; 2], 2, [2; 2]) /\ shape (ABool true) = Some ([4; 2], 1, [4; 1]) /\ shape (AStr (s_ "time")) = None.
Proof. repeat split; vm_compute; reflexivity. Qed.

Example C190_argument_example : open_h5py_mpi true FName PyNone None = Ok OpenedSerial
  /\ open_h5py_mpi true FName (PyComm 3) None = Ok (OpenedMpi None) /\ open_h5py_mpi false FName (PyComm 3) None = Ok OpenedSerial.
Proof. repeat split. Qed.

(** C194: a text that is not ASCII cannot be written as bytes. *)
Theorem C194_not_ascii : forall o order ga k v a i, w_format o <> OtherFormat -> w_convert o = true -> ga 0 = [] ->
  d_type (v 0) = 0 -> d_shape (v 0) <> [] -> inside (d_shape (v 0)) i -> ~ ascii_only (d_data (v 0) i) ->
  distributed_group_to_file o order (GGrp ga [(k, GSet (Common v) a)]) = Err ValueError.
Proof.
  intros o order ga k v a i F C G T S' I' N.
  assert (P : first_step o false (GSet (Common v) a) = Err ValueError).
  { cbn [first_step prepare]. destruct (d_shape (v 0)) as [|n s] eqn:Es; [now destruct S'|]. rewrite <- Es in *.
    rewrite C. unfold ensure_bytestring. change ty_unicode with 0. rewrite T. cbn [Nat.eqb].
    assert (A : forallb (fun i => ascii_el (d_data (v 0) i)) (all_indices (d_shape (v 0))) = false).
    { apply not_true_is_false. intro H. rewrite forallb_forall in H. apply N. specialize (H i (proj2 (all_indices_spec _ _) I')).
      destruct (d_data (v 0) i) as [z|t]; cbn in H |- *; [exact Logic.I|]. rewrite forallb_forall in H. apply Forall_forall. intros c Hc. apply Nat.ltb_lt, H, Hc. }
    rewrite A. reflexivity. }
  assert (E : first_step o true (GGrp ga [(k, GSet (Common v) a)]) = Err ValueError).
  { change (rbind (copyattrs (ga 0) (target_of (w_format o)) (w_convert_attrs o) []) (fun a0 =>
      rbind (sequence (by_key [(k, first_step o false (GSet (Common v) a))])) (fun l =>
      Ok (FGrp (group_hints o true a0) (map (fun '(k, (f, _)) => (k, f)) l),
          flat_map (fun '(k, (_, ns)) => map (cons k) ns) l))) = Err ValueError).
    rewrite P, G. reflexivity. }
  unfold distributed_group_to_file. rewrite E. destruct (w_format o); [reflexivity..|now destruct F].
Qed.
Print Assumptions C194_not_ascii.
Example C194_not_ascii_example :
  let o := {| w_format := HDF5; w_convert := true; w_convert_attrs := true; w_hints := true; w_h5mpi := true; w_tn := 100; w_td := 1 |} in
  let file c := distributed_group_to_file o (fun _ => [0]) (GGrp (fun _ => []) [(s_ "name", GSet (Common (fun _ => mkdset [1] 0 (fun _ => Txt [ascii_of_nat c]) None)) (fun _ => []))]) in
  file 128 = Err ValueError /\ match file 127 with Ok _ => True | Err _ => False end.
Proof. split; vm_compute; auto. Qed.
