(** Proofs for whole containers of time-ordered data: the result. *)
From Coq Require Import String.
From Coq Require Import List Ascii Bool Arith ZArith Permutation Lia Sorted.
From Verif Require Import PyBase PyStr MemModel AttrModel AttrProofs MemProofs2 TodModel TodSpec TodProofs TxModel TxSpec TxProofs TxProofs2.
Import ListNotations.
Open Scope list_scope.
Open Scope nat_scope.

Section Result.
Context {V : Type}.
Variable axes : list str.

Lemma init_index_ok : forall (SS TT : str -> nat) (s t : str -> Z) (index : list (str * list V)),
  (forall a, In a axes -> s a = Z.of_nat (SS a) /\ t a = Z.of_nat (TT a) /\ SS a <= TT a) ->
  exists r, init_index axes s t index = Ok r /\
    (forall a l, In a axes -> dget a index = Some l -> dget a r = Some (repeat None (TT a - SS a))) /\
    (forall a, ~ In a axes -> dget a r = option_map (map Some) (dget a index)).
Proof.
  intros SS TT s t index H. unfold init_index. induction index as [|(c, l) index IH]; cbn [rmap].
  - exists []. cbn [dget]. split; [reflexivity|]. split; [discriminate|reflexivity].
  - destruct IH as (r & E & I1 & I2). destruct (mem c axes) eqn:M.
    + apply mem_iff in M. destruct (H c M) as (-> & -> & L). rewrite np_empty_ok by exact L. cbn [rbind]. rewrite E. cbn [rbind].
      eexists. split; [reflexivity|]. split.
      * intros a l0 Ha. cbn [dget]. destruct (seqb a c) eqn:Eac; [|apply I1; exact Ha].
        apply seqb_eq in Eac. now subst.
      * intros a Ha. cbn [dget]. destruct (seqb a c) eqn:Eac; [|apply I2; exact Ha].
        apply seqb_eq in Eac. now subst.
    + apply mem_not in M. cbn [rbind]. rewrite E. cbn [rbind]. eexists. split; [reflexivity|]. split.
      * intros a l0 Ha. cbn [dget]. destruct (seqb a c) eqn:Eac; [|apply I1; exact Ha].
        apply seqb_eq in Eac. now subst.
      * intros a Ha. cbn [dget]. destruct (seqb a c); [reflexivity|now apply I2].
Qed.

Lemma copy_common_get : forall (x : tod V) n, NoDup (map fst (x_dsets x)) ->
  dget n (copy_common axes x) =
  match dget n (x_dsets x) with
  | Some d => match concat_axis axes d with
              | None => Some (mkodset (d_axis d) (d_attrs d) (map Some (d_rows d)))
              | Some _ => None
              end
  | None => None
  end.
Proof.
  intros x n. unfold copy_common. induction (x_dsets x) as [|(k, d) l IH]; intros N; [reflexivity|].
  cbn [map fst] in N. apply NoDup_cons_iff in N. destruct N as (N1 & N2).
  cbn [filter snd dget]. destruct (seqb n k) eqn:E.
  - apply seqb_eq in E. subst k. destruct (concat_axis axes d).
    + rewrite IH by exact N2. destruct (dget n l) as [d'|] eqn:G; [|reflexivity]. exfalso. apply N1. apply dget_in. eauto.
    + cbn [map dget fst snd]. now rewrite seqb_refl.
  - destruct (concat_axis axes d); [now apply IH|]. cbn [map dget fst snd]. rewrite E. now apply IH.
Qed.

Theorem concat_result : forall disk (first : tod V) rest start stop datasets,
  let files := first :: rest in
  NoDup axes -> Compatible axes first files -> BoundsOk axes files start stop ->
  exists s' t' o, concatenate_all axes disk true files start stop datasets = (s', t', Ok o) /\
    o_attrs o = x_attrs first /\ o_reverse o = x_reverse first /\
    (forall a, In a axes ->
       let w := py_slice (asked start a) (asked stop a) (whole_index a files) in
       dget a (o_index o) = Some (if disk then repeat None (length w) else map Some w)) /\
    (forall a, ~ In a axes -> dget a (o_index o) = option_map (map Some) (dget a (x_index first))) /\
    (forall n d, dget n (x_dsets first) = Some d -> NoTimeAxis axes d ->
       dget n (o_dsets o) = Some (mkodset (d_axis d) (d_attrs d) (map Some (d_rows d)))) /\
    (forall n d a, dget n (x_dsets first) = Some d -> TimeAxis axes (axes_of d) a -> Wanted datasets n ->
       let w := py_slice (asked start a) (asked stop a) (whole_rows n files) in
       (exists q, dget n (o_dsets o) = Some q /\ od_rows q = map Some w /\ od_axis q = d_axis d)
       \/ dget n (o_dsets o) = None /\ w = []) /\
    (forall n d a, dget n (x_dsets first) = Some d -> TimeAxis axes (axes_of d) a -> ~ Wanted datasets n ->
       dget n (o_dsets o) = None) /\
    (forall n, dget n (x_dsets first) = None -> dget n (o_dsets o) = None).
Proof.
  intros disk first rest start stop datasets files HN HC HB.
  pose proof (fun a => total_whole (V:=V) files a) as HT.
  pose proof (real_bounds_ok (V:=V) files axes (as_mapping axes start) (as_mapping axes stop) HN) as RB.
  unfold concatenate_all. fold files. cbn iota. change (match files with [] => _ | _ :: _ => ?b end) with b.
  cbv beta iota delta [files]. fold files.
  unfold real_bounds. destruct (fold_left _ axes _) as (ms, mt). destruct RB as (RB & _).
  set (s := fun a => znum (bget a ms)). set (t := fun a => znum (bget a mt)).
  set (SS := fun a => Z.to_nat (s a)). set (TT := fun a => Z.to_nat (t a)).
  assert (HST : forall a, In a axes -> s a = Z.of_nat (SS a) /\ t a = Z.of_nat (TT a) /\ SS a <= TT a <= length (whole_index a files)
            /\ start_stop_inds (asked start a) (asked stop a) (Z.of_nat (length (whole_index a files))) = (Z.of_nat (SS a), Z.of_nat (TT a))).
  { intros a Ha. specialize (RB a Ha). rewrite !bget_as, HT in RB by exact Ha. destruct (HB a Ha) as (B1 & B2).
    destruct (inds_ok _ _ _ B1 B2) as (S0 & T0 & E & L). rewrite E in RB. injection RB as R1 R2.
    unfold SS, TT, s, t. rewrite R1, R2. cbn [znum]. rewrite !Nat2Z.id. auto. }
  destruct (init_index_ok SS TT s t (x_index first)) as (ix & EI & I1 & I2).
  { intros a Ha. destruct (HST a Ha) as (A & B & C & _). repeat split; [exact A|exact B|lia]. }
  rewrite EI. cbn [rbind pick_first]. unfold files at 1. cbn iota. cbn [rbind].
  rewrite time_names_exact. cbn [rbind].
  set (wanted := match datasets with None => _ | Some l => l end).
  pose proof HC as (HC1 & HC2 & HC3 & HC4 & HC5).
  assert (Hfirst : In first files) by (now left).
  destruct (HC1 first Hfirst) as (Nf & _).
  assert (Hs : forall a, In a axes -> s a = Z.of_nat (SS a)) by (intros a Ha; apply (HST a Ha)).
  assert (Ht : forall a, In a axes -> t a = Z.of_nat (TT a)) by (intros a Ha; apply (HST a Ha)).
  assert (Hb : forall a, In a axes -> SS a <= TT a <= length (whole_index a files)) by (intros a Ha; apply (HST a Ha)).
  destruct (main_ok axes files first wanted SS TT s t Hs Ht Hb HN HC disk files [] (fun _ => 0%Z) ix (copy_common axes first))
    as (i2 & q2 & G0 & G1 & G2 & G3 & G4).
  - reflexivity.
  - reflexivity.
  - intros a Ha. destruct (HC2 first a Hfirst Ha) as (l & El). rewrite (I1 a l Ha El). f_equal. unfold index_cell.
    destruct disk; [reflexivity|]. apply repeat_st; [apply Hb, Ha|]. unfold wrote, cur_of. cbn [whole_index flat_map length].
    pose proof (Hb a Ha). lia.
  - intros n d a _ Hn Ha. rewrite copy_common_get by exact Nf. rewrite Hn, Ha. cbn [filled].
    assert (Hax : In a axes) by (apply concat_axis_iff in Ha; destruct Ha as (? & ? & _ & Ha & _); exact Ha).
    unfold wrote, cur_of. cbn [whole_index flat_map length]. pose proof (Hb a Hax). lia.
  - rewrite G0. cbn [rbind]. eexists _, _, _. split; [reflexivity|]. cbn [o_attrs o_reverse o_index o_dsets].
    split; [reflexivity|]. split; [reflexivity|]. split; [|split; [|split; [|split; [|split]]]].
    + intros a Ha. cbv zeta. rewrite (G1 a Ha). f_equal. unfold index_cell. destruct (HST a Ha) as (_ & _ & L & E).
      rewrite (py_slice_lslice _ _ _ _ _ E L). destruct disk.
      * rewrite length_lslice. f_equal. lia.
      * unfold cur_of. now apply st_final.
    + intros a Ha. rewrite G2 by exact Ha. now apply I2.
    + intros n d Hn Hd. apply concat_axis_none in Hd. rewrite G4.
      * rewrite copy_common_get by exact Nf. now rewrite Hn, Hd.
      * right. intros d' Hd'. rewrite Hn in Hd'. now injection Hd' as <-.
    + intros n d a Hn Ha Hw. cbv zeta. apply concat_axis_iff in Ha.
      assert (Hax : In a axes) by (apply concat_axis_iff in Ha; destruct Ha as (? & ? & _ & Ha & _); exact Ha).
      assert (Hw' : In n wanted).
      { unfold wanted. destruct datasets as [l|]; [exact Hw|]. apply (time_names_in axes first n Nf). eauto. }
      specialize (G3 n d a Hw' Hn Ha). destruct (HST a Hax) as (_ & _ & L & E).
      pose proof (rows_length axes files first HC files n d a (fun y H => H) Hn Ha) as LR.
      rewrite <- LR in E, L. rewrite (py_slice_lslice _ _ _ _ _ E L).
      destruct (dget n q2) as [q|]; cbn [filled] in G3.
      * left. exists q. split; [reflexivity|]. destruct G3 as (F1 & F2). split; [|exact F2]. rewrite F1. unfold cur_of. rewrite <- LR.
        now apply st_final.
      * right. split; [reflexivity|]. unfold wrote, cur_of in G3. rewrite <- LR in G3. apply lslice_empty. lia.
    + intros n d a Hn Ha Hw. rewrite G4.
      * rewrite copy_common_get by exact Nf. rewrite Hn. apply concat_axis_iff in Ha. now rewrite Ha.
      * left. intros H. apply Hw. unfold wanted in H. destruct datasets as [l|]; [exact H|exact I].
    + intros n Hn. rewrite G4.
      * rewrite copy_common_get by exact Nf. now rewrite Hn.
      * right. intros d Hd. rewrite Hn in Hd. discriminate.
Qed.
End Result.
