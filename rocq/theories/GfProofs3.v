(** Proofs for distributed groups in files: hints. *)
From Coq Require Import String.
From Coq Require Import List Ascii Bool Arith ZArith Lia Permutation.
From Verif Require Import PyBase PyStr MemModel MemProofs MemProofs2 JsonModel JsonSpec AttrModel AttrSpec AttrProofs PartSpec
  SliceModel SliceSpec NioModel NioSpec NioProofs NioProofs2 NioProofs3 NioProofs4 NioProofs5 GfModel GfSpec GfProofs GfProofs2.
Import ListNotations.
Open Scope list_scope.
Open Scope nat_scope.

Lemma copyattrs_keys : forall a t c b k, copyattrs a t c [] = Ok b -> dget k a = None -> dget k b = None.
Proof.
  intros a t c b k H Hk. unfold copyattrs in H.
  assert (G : forall ks (x : res attrs), (forall y, x = Ok y -> dget k y = None) ->
     forall b, fold_left (fun acc key => rbind acc (fun a2 => match dget key a with
        | Some v => rbind (copy_value c t v) (fun w => Ok (dput key w a2)) | None => Err KeyError end)) ks x = Ok b -> dget k b = None).
  { induction ks as [|k0 ks IH]; intros x Hx b0 E; cbn [fold_left] in E; [auto|].
    refine (IH _ _ b0 E). intros y Hy. destruct x as [x|]; cbn [rbind] in Hy; [|discriminate].
    destruct (dget k0 a) as [v|] eqn:E0; [|discriminate]. destruct (copy_value c t v) as [w|]; cbn [rbind] in Hy; [|discriminate].
    injection Hy as <-. rewrite dget_dput_other; [auto|]. intros ->. congruence. }
  eapply G; [|exact H]. intros y Hy. now injection Hy as <-.
Qed.

Lemma sequence_in : forall X (l : list (str * res X)) l', sequence l = Ok l' ->
  forall k x, In (k, x) l' -> In (k, Ok x) l.
Proof.
  intros X. induction l as [|[k0 r] l IH]; intros l' H k x Hin; cbn [sequence] in H.
  - injection H as <-. easy.
  - destruct r as [y|]; cbn [rbind] in H; [|discriminate]. destruct (sequence l) as [t|] eqn:E; cbn [rbind] in H; [|discriminate].
    injection H as <-. destruct Hin as [E1|Hin]; [injection E1 as -> ->; now left|right; eapply IH; eauto].
Qed.

Lemma first_unhinted : forall o, w_hints o = false -> forall n root f names, Unreserved n ->
  first_step o root n = Ok (f, names) -> Unhinted f.
Proof.
  intros o Hh. induction n as [d a|a kids IH] using gnode_ind'; intros root f names U E; cbn [first_step] in E.
  - inversion U as [d0 a0 Ua|]; subst.
    destruct (prepare o d) as [[x later]|]; cbn [rbind] in E; [|discriminate].
    destruct (copyattrs (a 0) _ _ []) as [b|] eqn:Eb; cbn [rbind] in E; [|discriminate]. injection E as <- _.
    unfold dset_hints. rewrite Hh. constructor. intros k Hk. eapply copyattrs_keys; eauto.
  - inversion U as [|a0 k0 Ua Uk]; subst.
    destruct (copyattrs (a 0) _ _ []) as [b|] eqn:Eb; cbn [rbind] in E; [|discriminate].
    destruct (sequence _) as [l|] eqn:El; cbn [rbind] in E; [|discriminate]. injection E as <- _.
    unfold group_hints. rewrite Hh. cbn [andb]. constructor.
    + intros k Hk. eapply copyattrs_keys; eauto.
    + intros k m Hin. apply in_map_iff in Hin as ([k1 [f1 ns]] & E1 & Hin). injection E1 as -> ->.
      apply (sequence_in _ _ _ El) in Hin.
      apply (Permutation_in _ (Permutation_sym (py_sorted_perm _ _))) in Hin.
      apply in_map_iff in Hin as ([k2 m2] & E2 & Hin). injection E2 as -> E2.
      exact (IH k m2 Hin false m ns (Uk k m2 Hin) E2).
Qed.
Lemma dput_in : forall V k (x : V) l k' y, In (k', y) (dput k x l) -> In (k', y) l \/ (y = x).
Proof.
  intros V k x. induction l as [|[a z] l IH]; intros k' y H; cbn [dput] in H.
  - destruct H as [E|[]]. injection E as _ <-. now right.
  - destruct (seqb k a); destruct H as [E|H].
    + injection E as _ <-. now right.
    + left. now right.
    + left. now left.
    + destruct (IH k' y H); auto. left. now right.
Qed.
Lemma alter_unhinted : forall loc f w f', Unhinted f -> alter f loc w = Ok f' -> Unhinted f'.
Proof.
  induction loc as [|k loc IH]; intros f w f' U E; destruct f as [d a|a kids]; cbn [alter] in E; try discriminate.
  - destruct (w d); cbn [rbind] in E; [|discriminate]. injection E as <-. inversion U; subst. now constructor.
  - destruct (dget k kids) as [m|] eqn:Em; [|discriminate].
    destruct (alter m loc w) as [m'|] eqn:E'; cbn [rbind] in E; [|discriminate]. injection E as <-.
    inversion U as [|b ks Ub Uk]; subst. constructor; auto. intros k1 m1 H.
    destruct (dput_in _ _ _ _ _ _ H) as [H'| ->]; eauto. eapply IH; [|exact E']. eapply Uk. apply dget_elem. exact Em.
Qed.
Lemma second_unhinted : forall o t names order f f', Unhinted f -> second_step o order t names f = Ok f' -> Unhinted f'.
Proof.
  intros o t. induction names as [|loc names IH]; intros order f f' U E; cbn [second_step] in E.
  - now injection E as <-.
  - destruct (second_at o (order loc) t f loc) as [f1|] eqn:E1; cbn [rbind] in E; [|discriminate].
    eapply IH; [|exact E]. unfold second_at in E1. destruct (look t loc) as [n|]; cbn [rbind] in E1; [|discriminate].
    destruct n as [[v|x] b|]; try discriminate. eapply alter_unhinted; eauto.
Qed.
Theorem unhinted : forall o order n f, w_hints o = false -> Unreserved n ->
  distributed_group_to_file o order n = Ok f -> Unhinted f.
Proof.
  intros o order n f Hh U E. unfold distributed_group_to_file in E.
  assert (E' : rbind (first_step o true n) (fun '(f, names) => second_step o order n names f) = Ok f)
    by (destruct (w_format o); [exact E|exact E|discriminate]).
  destruct (first_step o true n) as [[f0 names]|] eqn:E0; cbn [rbind] in E'; [|discriminate].
  eapply second_unhinted; [|exact E']. eapply first_unhinted; eauto.
Qed.

(** Hints given by the caller. *)
Theorem caller_hint : forall ro junk size name d a c l h axis ax,
  r_hints ro = HintsDict l -> dget name l = Some h -> h_distributed h = Some true -> h_axis h = Some axis ->
  (r_format ro = HDF5 \/ r_format ro = Zarr) ->
  (0 < r_tn ro)%Z -> (0 < r_td ro)%Z -> (0 <= r_item ro (d_type d))%Z ->
  MeansAxis axis (length (d_shape d)) ax -> SelectionOk ro (chosen (r_selections ro) name) (d_shape d) ->
  (r_format ro = HDF5 -> Splittable (r_h5mpi ro && (0 <? axis)%Z) (r_tn ro) (r_td ro)
       (map (@length nat) (wanted_all (chosen (r_selections ro) name) (d_shape d))) ax size (r_item ro (d_type d))) ->
  copyattrs a Mem (r_convert_attrs ro) [] = Ok c ->
  exists locs, Distributes (map (@length nat) (wanted_all (chosen (r_selections ro) name) (d_shape d))) ax size locs
     (selected (wanted_all (chosen (r_selections ro) name) (d_shape d)) (d_data d))
  /\ forall r, r < size ->
       let gs := map (@length nat) (wanted_all (chosen (r_selections ro) name) (d_shape d)) in
       read_set ro junk size r name d a
       = Ok (RSet (RDistr gs ax (start_of (nth ax gs 0) size r) (part_shape gs ax size r) (d_type d) (locs r) None) c).
Proof.
  intros ro junk size name d a c l h axis ax H1 H2 H3 H4 Hf Htn Htd Hi M (S1 & S2) Sp Ec.
  assert (RP : ReadsPart size (fun r => from_file (r_h5mpi ro) (r_format ro) FName (r_tn ro) (r_td ro)
           (r_item ro (d_type d)) d axis (Some (chosen (r_selections ro) name)) size r junk)
           (map (@length nat) (wanted_all (chosen (r_selections ro) name) (d_shape d))) ax
           (selected (wanted_all (chosen (r_selections ro) name) (d_shape d)) (d_data d))).
  { destruct Hf as [Ef|Ef]; rewrite Ef in *.
    - apply (read_hdf5 el (r_h5mpi ro) FName (r_tn ro) (r_td ro) (r_item ro (d_type d)) d axis ax _ size (fun _ => junk)); auto.
    - apply (read_zarr el FName (r_tn ro) (r_td ro) (r_item ro (d_type d)) (r_h5mpi ro) d axis ax _ size (fun _ => junk)); auto. }
  destruct RP as (locs & L1 & L2). exists locs. split; [exact L1|]. intros r Hr gs. unfold read_set. cbv zeta.
  replace (is_distributed ro name a) with true.
  2:{ unfold is_distributed, hint_for. rewrite H1, H2, H3. reflexivity. }
  assert (Ex : axis_for ro name a = Ok axis) by (unfold axis_for, hint_for; now rewrite H1, H2, H4).
  rewrite Ex. cbn [rbind]. rewrite from_file_chosen, (L2 r Hr). cbn [rbind]. now rewrite Ec.
Qed.
