(** Proofs for distributed groups in files: reading. *)
From Coq Require Import String.
From Coq Require Import List Ascii Bool Arith ZArith Lia Permutation.
From Verif Require Import PyBase PyStr MemModel MemProofs MemProofs2 JsonModel JsonSpec AttrModel AttrSpec AttrProofs PartSpec
  SliceModel SliceSpec NioModel NioSpec NioProofs NioProofs2 NioProofs3 NioProofs4 NioProofs5 GfModel GfSpec GfProofs.
Import ListNotations.
Open Scope list_scope.
Open Scope nat_scope.

Lemma attrs_in : forall f a b, AttrsOk f a -> FileAttrs f a b -> AttrsRead b ->
  exists c, copyattrs b Mem true [] = Ok c /\ AttrsBack f a c
    /\ forall k v w, dget k b = Some v -> copy_value true Mem v = Ok w -> dget k c = Some w.
Proof.
  intros f a b Ha (form & back & H1 & H2 & H3) Hb.
  destruct (copyattrs_ok b Mem true [] (fun v => match copy_value true Mem v with Ok w => w | Err _ => v end)) as (c & Hc & Kc).
  - intros k v Hv. destruct (Hb k v Hv) as (w & ->). reflexivity.
  - exists c. split; [assumption|]. split.
    + intros k Hk. rewrite Kc, (H3 k Hk). destruct (dget k a) as [v|] eqn:E; cbn [option_map]; [|reflexivity].
      rewrite (H1 v (Ha k v E)), (H2 v (Ha k v E)). reflexivity.
    + intros k v w Hv Hw. now rewrite Kc, Hv, Hw.
Qed.

Lemma from_file_chosen : forall o name h5mpi fmt f tn td item (d : dset el) axis size r junk,
  from_file h5mpi fmt f tn td item d axis (selection_for o name) size r junk
  = from_file h5mpi fmt f tn td item d axis (Some (chosen (r_selections o) name)) size r junk.
Proof.
  intros. unfold selection_for, chosen. destruct (r_selections o) as [l|]; [|apply from_file_none].
  destruct (dget name l); auto. destruct (dget (tl name) l); auto. apply from_file_none.
Qed.

Lemma entry_wanted : forall s n, ReadableEntry s n -> sel_positions s n = Ok (wanted s n).
Proof.
  intros [s|idx] n H; cbn [ReadableEntry wanted] in *.
  - apply sel_positions_slice, H.
  - now apply sel_positions_list.
Qed.
Lemma positions_wanted : forall sel shape, Readable sel shape -> sels_positions sel shape = Ok (wanted_all sel shape).
Proof.
  intros sel shape. revert sel. induction shape as [|n shape IH]; intros sel (H1 & H2).
  - destruct sel; [reflexivity|cbn in H1; lia].
  - destruct sel as [|s sel]; cbn [sels_positions wanted_all].
    + rewrite IH; [reflexivity|]. split; [cbn; lia|]. intros j s E. destruct j; discriminate.
    + rewrite (entry_wanted s n) by (exact (H2 0 s eq_refl)). cbn [rbind].
      rewrite IH; [reflexivity|]. split; [cbn in H1; lia|]. intros j s' E. exact (H2 (S j) s' E).
Qed.

Lemma read_common_holds : forall o sel name v d, SelectionOk o sel (d_shape v) -> d_shape v <> [] ->
  sel = chosen (r_selections o) name ->
  d_shape d = d_shape v -> d_data d = d_data v ->
  exists d', read_common o (selection_for o name) d = Ok d'
   /\ Holds d' (map (@length nat) (wanted_all sel (d_shape v)))
        (if r_convert o && (d_type d =? 1) then 0 else d_type d) (selected (wanted_all sel (d_shape v)) (d_data v)).
Proof.
  intros o sel name v d (Hr & _) Hn -> Es Ed.
  assert (G : exists x, (match selection_for o name with
         | None => match d_shape d with [] => Err ValueError | _ => Ok (mkdset (d_shape d) (d_type d) (d_data d) None) end
         | Some sel =>
             rbind (sels_positions sel (d_shape d)) (fun ps =>
             Ok (mkdset (map (@length nat) ps) (d_type d) (fun k => d_data d (index_at ps k)) None))
         end) = Ok x
       /\ Holds x (map (@length nat) (wanted_all (chosen (r_selections o) name) (d_shape v))) (d_type d)
            (selected (wanted_all (chosen (r_selections o) name) (d_shape v)) (d_data v))).
  { assert (N : exists x, (match d_shape d with [] => Err ValueError | _ => Ok (mkdset (d_shape d) (d_type d) (d_data d) None) end) = Ok x
       /\ Holds x (map (@length nat) (wanted_all [] (d_shape v))) (d_type d) (selected (wanted_all [] (d_shape v)) (d_data v))).
    { exists (mkdset (d_shape d) (d_type d) (d_data d) None).
      split; [rewrite Es; destruct (d_shape v); [easy|reflexivity]|].
      rewrite wanted_none, map_length_seq. split; [assumption|]. split; [reflexivity|].
      cbn. intros i Hi. rewrite Ed. unfold selected. rewrite <- index_at_combine, index_at_seq; auto. }
    assert (S : forall s, Readable s (d_shape v) -> exists x, rbind (sels_positions s (d_shape d)) (fun ps =>
             Ok (mkdset (map (@length nat) ps) (d_type d) (fun k => d_data d (index_at ps k)) None)) = Ok x
        /\ Holds x (map (@length nat) (wanted_all s (d_shape v))) (d_type d) (selected (wanted_all s (d_shape v)) (d_data v))).
    { intros s Hs. rewrite Es, positions_wanted by assumption. cbn [rbind]. eexists. split; [reflexivity|].
      split; [reflexivity|]. split; [reflexivity|]. intros i Hi. cbn. rewrite Ed. unfold selected.
      now rewrite <- index_at_combine. }
    unfold selection_for, chosen in *. destruct (r_selections o) as [l|]; [|exact N].
    destruct (dget name l); [auto|]. destruct (dget (tl name) l); auto. }
  destruct G as (x & E & H1 & H2 & H3). unfold read_common. rewrite E. cbn [rbind].
  eexists. split; [reflexivity|]. destruct (r_convert o); cbn [andb].
  - unfold ensure_unicode. change ty_bytes with 1. rewrite H2. destruct (d_type d =? 1) eqn:Et.
    + split; [exact H1|]. split; [reflexivity|]. exact H3.
    + split; [exact H1|]. split; [exact H2|exact H3].
  - split; [exact H1|]. split; [exact H2|exact H3].
Qed.

Lemma reads : forall o ro size size' junk r, w_format o <> OtherFormat ->
  r_format ro = w_format o -> r_convert_attrs ro = true -> r_hints ro = HintsTrue ->
  (0 < r_tn ro)%Z -> (0 < r_td ro)%Z -> r < size' ->
  forall n root f name, Writable o size n -> Readback ro size' name n -> Filed o root n f ->
  exists t, read_node ro junk size' r name f = Ok t
    /\ Restored (w_format o) (w_convert o) (r_convert ro) (r_selections ro) size' r name n t.
Proof.
  intros o ro size size' junk r Hf Hrf Hra Hh Htn Htd Hr.
  induction n as [d a|a kids IH] using gnode_ind'; intros root f name W B F.
  - inversion F as [root' v a' d' b F1 F2 F3 F4 F5 F6|root' x a' d' b F1 F2 F3 F3' F4|]; subst; cbn [read_node]; unfold read_set; cbv zeta.
    + inversion W as [v0 a0 Ha Hv| |]; subst. inversion B as [n0 v0 a0 Hs| |]; subst.
      replace (is_distributed ro name b) with false.
      2:{ unfold is_distributed, hint_for. rewrite Hh, F3. reflexivity. }
      destruct (read_common_holds ro _ name (v 0) d' Hs (proj1 Hv) eq_refl F4 F6) as (d'' & E & Hd). rewrite E. cbn [rbind].
      destruct (attrs_in _ _ _ Ha F1 F2) as (c & Ec & Hc & _). rewrite Hra, Ec. cbn [rbind].
      eexists. split; [reflexivity|]. constructor; auto.
      unfold type_back. rewrite F5 in Hd. unfold stored_type in Hd. exact Hd.
    + inversion W as [|x0 a0 Ha Hx|]; subst. inversion B as [|n0 x0 a0 Hs Hi Hsp|]; subst.
      replace (is_distributed ro name b) with true.
      2:{ unfold is_distributed, hint_for. rewrite Hh, F3. reflexivity. }
      assert (Ex : axis_for ro name b = Ok (a_axis x)).
      { unfold axis_for, hint_for. rewrite Hh. cbn [h_axis]. rewrite F3'. now destruct (w_format o). }
      rewrite Ex. cbn [rbind]. rewrite from_file_chosen.
      destruct Hx as ((ax & g & Ea & Lax & Hg & _) & Sz & _ & _ & _).
      assert (Hg' : Distributes (a_gshape x) ax (a_size x) (a_locs x) g) by (now rewrite Sz).
      destruct (F4 ax g Ea Hg') as (D1 & D2 & D3).
      set (sel := chosen (r_selections ro) name) in *.
      assert (RP : ReadsPart size' (fun r => from_file (r_h5mpi ro) (r_format ro) FName (r_tn ro) (r_td ro)
           (r_item ro (d_type d')) d' (a_axis x) (Some sel) size' r junk)
           (map (@length nat) (wanted_all sel (a_gshape x))) ax (selected (wanted_all sel (a_gshape x)) (d_data d'))).
      { rewrite D2. rewrite <- D1. rewrite <- D1 in Lax.
        assert (M : MeansAxis (a_axis x) (length (d_shape d')) ax) by (split; [exact Lax|left; exact Ea]).
        destruct Hs as (S1 & S2). rewrite <- D1 in S1.
        rewrite Hrf in *. destruct (w_format o) eqn:Ef; [| |easy].
        - apply (read_hdf5 el (r_h5mpi ro) FName (r_tn ro) (r_td ro) (r_item ro (a_type x)) d' (a_axis x) ax sel size' (fun _ => junk)); auto.
          rewrite D1. exact (Hsp ax Ea eq_refl).
        - apply (read_zarr el FName (r_tn ro) (r_td ro) (r_item ro (a_type x)) (r_h5mpi ro) d' (a_axis x) ax sel size' (fun _ => junk)); auto. }
      destruct RP as (locs & L1 & L2). rewrite (L2 r Hr). cbn [rbind].
      destruct (attrs_in _ _ _ Ha F1 F2) as (c & Ec & Hc & _). rewrite Hra, Ec. cbn [rbind].
      rewrite D2. eexists. split; [reflexivity|]. eapply RsDistr; eauto.
      intros g2 Hg2 k Hk. destruct (F4 ax g2 Ea Hg2) as (_ & _ & G3).
      rewrite (L1 r k Hr Hk). unfold selected. rewrite <- !index_at_combine. apply G3.
      apply wanted_range; [apply Hs|]. apply inside_move; auto. now rewrite map_length, wanted_length.
  - inversion F as [| |root' a' kids0 b kids' F1 F2 F3 F4 F5]; subst. cbn [read_node].
    inversion W as [| |a0 k0 Ha N Hk]; subst. inversion B as [| |n0 a0 k0 Hb]; subst.
    destruct (attrs_in _ _ _ Ha F1 F2) as (c & Ec & Hc & _). rewrite Hra, Ec. cbn [rbind].
    destruct (by_key_map fnode _ (fun k m => read_node ro junk size' r (name ++ slash :: k) m) kids') as (ks & Pk & Ek).
    cbv beta in Ek.
    match goal with |- context [sequence (by_key ?L)] =>
      replace (by_key L) with (map (fun '(k, m) => (k, read_node ro junk size' r (name ++ slash :: k) m)) ks) by (symmetry; exact Ek)
    end.
    assert (Hin : forall k m', In (k, m') kids' -> exists m, In (k, m) kids).
    { intros k m' H. assert (Hi : In k (map fst kids)).
      { apply (Permutation_in _ (Permutation_sym F4)). apply in_map_iff. now exists (k, m'). }
      apply in_map_iff in Hi as ([k1 m] & E & Hi). cbn in E. subst k1. eauto. }
    assert (Hread : forall k m m', In (k, m) kids -> In (k, m') kids' ->
      exists t, read_node ro junk size' r (name ++ slash :: k) m' = Ok t
        /\ Restored (w_format o) (w_convert o) (r_convert ro) (r_selections ro) size' r (name ++ slash :: k) m t).
    { intros k m m' H1 H2. exact (IH k m H1 false m' (name ++ slash :: k) (Hk k m H1) (Hb k m H1) (F5 k m m' H1 H2)). }
    destruct (sequence_all fnode _ (fun k m => read_node ro junk size' r (name ++ slash :: k) m) ks) as (l & El & Fl).
    { intros k m' H. apply (Permutation_in _ (Permutation_sym Pk)) in H. destruct (Hin k m' H) as (m & Hm).
      destruct (Hread k m m' Hm H) as (t & E & _). eauto. }
    cbv beta in El.
    match goal with |- context [rbind (sequence ?L) _] =>
      replace (sequence L) with (Ok l) by (symmetry; exact El)
    end. cbn [rbind]. eexists. split; [reflexivity|].
    assert (Kl : map fst ks = map fst l) by (eapply forall2_keys; [|exact Fl]; now intros p q (H & _)).
    constructor; auto.
    + eapply perm_trans; [exact F4|]. eapply perm_trans; [exact (Permutation_map fst Pk)|].
      apply Permutation_refl'. exact Kl.
    + intros k m t Hm Ht. destruct (forall2_in _ _ _ _ _ _ Fl Ht) as ([k1 m'] & Hm' & (E1 & E2)). cbn [fst snd] in *. subst k1.
      apply (Permutation_in _ (Permutation_sym Pk)) in Hm'. destruct (Hread k m m' Hm Hm') as (t' & E' & R').
      rewrite E2 in E'. now injection E' as <-.
Qed.

Theorem group_roundtrip : forall o ro size size' junk order n,
  w_format o <> OtherFormat -> w_convert_attrs o = true -> w_hints o = true ->
  (0 < w_tn o)%Z -> (0 < w_td o)%Z ->
  r_format ro = w_format o -> r_convert_attrs ro = true -> r_hints ro = HintsTrue ->
  (0 < r_tn ro)%Z -> (0 < r_td ro)%Z ->
  Writable o size n -> Readback ro size' [] n -> (forall loc, Permutation (order loc) (seq 0 size)) ->
  exists f, distributed_group_to_file o order n = Ok f /\
  forall r, r < size' -> exists t, distributed_group_from_file ro junk size' r f = Ok t
    /\ Restored (w_format o) (w_convert o) (r_convert ro) (r_selections ro) size' r [] n t.
Proof.
  intros o ro size size' junk order n H1 H2 H3 H4 H5 H6 H7 H8 H9 H10 W B Ho.
  destruct (writes o size H1 H2 H3 H4 H5 n W true) as (f0 & names & E & H).
  destruct (H order Ho) as (f & E2 & F). exists f. split.
  - unfold distributed_group_to_file. rewrite E. cbn [rbind]. rewrite E2. now destruct (w_format o).
  - intros r Hr. exact (reads o ro size size' junk r H1 H6 H7 H8 H9 H10 Hr n true f [] W B F).
Qed.
