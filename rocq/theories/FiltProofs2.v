(** Lemmas for [copy_datasets_filter]: all datasets. *)
From Coq Require Import String.
From Coq Require Import List Ascii Bool Arith ZArith Lia Permutation.
From Verif Require Import PyBase PyStr MemModel MemProofs2 AttrModel AttrProofs CopyProofs ContModel ContProofs ContProofs2 PartModel PartSpec PartProofs
  PartProps0 SliceModel RedModel RedSpec RedProofs DistModel DistProofs FiltModel FiltSpec FiltProofs.
Import ListNotations.
Open Scope list_scope.
Open Scope nat_scope.

Section Copy.
Context {A : Type}.
Implicit Types item d : @dset A.

Lemma new_axis_ok : forall axis sel item o, o < length (d_names item) -> length (d_names item) = length (shp (d_val item)) ->
  incl (map fst sel) axis -> (exists a, In a (d_names item) /\ ~ In a axis) \/ (forall a, nth_error (d_names item) o = Some a -> ~ In a (map fst sel)) ->
  exists k a, new_axis axis sel item o = Ok k /\ nth_error (d_names item) k = Some a /\ ~ In a (map fst sel).
Proof.
  intros axis sel item o Ho L I H. destruct (nth_error (d_names item) o) as [a|] eqn:E; [|apply nth_error_None in E; lia].
  assert (Es : sel = [] \/ exists kv r, sel = kv :: r) by (destruct sel; eauto).
  destruct Es as [-> | (kv & r0 & Es)]; [exists o, a; repeat split; auto|].
  assert (X : new_axis axis sel item o = if mem_name a (map fst sel) then
      match rev (filter (fun p => negb (mem_name (snd p) axis)) (py_sorted dim_leb (combine (shp (d_val item)) (d_names item)))) with
      | [] => Err ValueError
      | (_, x) :: _ => match index_name x (d_names item) with Some k => Ok k | None => Err ValueError end
      end else Ok o).
  { unfold new_axis. rewrite E, Es. reflexivity. }
  rewrite X. clear X Es. destruct (mem_name a (map fst sel)) eqn:M.
  - apply mem_name_in in M. destruct H as [(b & Hb & Nb)|H]; [|destruct (H a eq_refl M)].
    set (l := filter _ _). destruct (rev l) as [|[n x] r] eqn:R.
    + exfalso. assert (Z : l = []) by (rewrite <- (rev_involutive l), R; reflexivity).
      apply In_nth_error in Hb as [i Hi]. destruct (nth_error (shp (d_val item)) i) as [m|] eqn:Hm.
      2:{ apply nth_error_None in Hm. assert (i < length (d_names item)) by (apply nth_error_Some; congruence). lia. }
      assert (C : In (m, b) l).
      { apply filter_In. split.
        - apply (Permutation_in _ (py_sorted_perm dim_leb _)). clear -Hi Hm. revert Hi Hm. generalize (shp (d_val item)) as s. generalize (d_names item) as t.
          revert m b. induction i as [|i IH]; intros m b [|y t] [|z s] H1 H2; try discriminate; cbn [combine].
          + injection H1 as ->. injection H2 as ->. now left.
          + right. now apply IH.
        - cbn [snd]. destruct (mem_name b axis) eqn:F; [|reflexivity]. apply mem_name_in in F. contradiction. }
      rewrite Z in C. destruct C.
    + assert (C : In (n, x) l) by (apply in_rev; rewrite R; now left). apply filter_In in C as [C1 C2]. cbn [snd] in C2.
      apply (Permutation_in _ (Permutation_sym (py_sorted_perm dim_leb _))) in C1. apply in_combine_r in C1.
      destruct (index_name x (d_names item)) as [k|] eqn:K.
      * pose proof K as K'. apply index_name_some in K' as [K' _]. exists k, x. split; auto. split; auto. intros F. apply I in F. apply mem_name_in in F.
        rewrite F in C2. discriminate.
      * apply In_nth_error in C1 as [i Hi]. destruct (index_name_none _ _ K i Hi).
  - exists o, a. repeat split; auto. intros F. apply mem_name_in in F. congruence.
Qed.

(** A dataset and its place in the destination. *)
Definition fitting (axis : list str) (sel : list (str * fsel)) (item d : @dset A) (P : list (list nat)) : Prop :=
  NoDup (d_names item) /\ TakesAll sel (d_names item) (shp (d_val item)) P /\ shp (d_val d) = map (@length nat) P /\
  match d_dist item, d_dist d with
  | None, None => True
  | Some o, Some _ => o < length (d_names item) /\ exists a, In a (d_names item) /\ ~ In a axis
  | _, _ => False
  end.
Lemma copy_item_ok : forall size axis sel orig item d P, 1 <= size -> NoDup (map fst sel) -> Forall (fun kv => usable (snd kv)) sel ->
  incl (map fst sel) axis -> fitting axis sel item d P ->
  exists d' orig', copy_item size axis sel orig item d = Ok (d', orig') /\ Selected P (d_val item) (d_val d') /\
    d_dist d' = d_dist item /\ d_name d' = d_name d /\ d_names d' = d_names d.
Proof.
  intros size axis sel orig item d P Hs N U I (Nn & T & E & D). pose proof (takes_all_nth _ _ _ _ T) as (L1 & L2 & _). unfold copy_item.
  destruct (d_dist item) as [o|]; destruct (d_dist d) as [o'|]; try contradiction.
  - destruct D as [Ho Hd]. destruct (new_axis_ok axis sel item o Ho ltac:(congruence) I (or_introl Hd)) as (k & a & -> & Ha & Hk). cbn [rbind].
    destruct (nth_error (shp (d_val item)) k) as [n|] eqn:Hn.
    2:{ apply nth_error_None in Hn. assert (k < length (d_names item)) by (apply nth_error_Some; congruence). lia. }
    destruct (copy_shares size k (d_names item) sel P (d_val item) (d_val d) a n Hs Nn N U T E Ha Hn Hk) as (v & -> & S).
    cbn [rbind]. do 2 eexists. split; [reflexivity|]. auto.
  - destruct (copy_common sel (d_names item) P (d_val item) (d_val d) Nn N U T E) as (v & H & S).
    destruct (apply_sels (d_names item) sel (d_val item)) as [R|]; [|discriminate]. cbn [rbind] in *. rewrite H. cbn [rbind].
    do 2 eexists. split; [reflexivity|]. auto.
Qed.

(** Where the copy of [item] goes. *)
Definition place (dest : list (str * @dset A)) (make : str -> res (@dset A)) (item d : @dset A) : Prop :=
  dget (d_name item) dest = Some d \/ (dget (d_name item) dest = None /\ make (d_name item) = Ok d).
Lemma copy_items_ok : forall size axis exclude all make sel items orig dest, 1 <= size -> NoDup (map fst sel) -> Forall (fun kv => usable (snd kv)) sel ->
  incl (map fst sel) axis -> NoDup (map (@d_name A) items) ->
  (forall item, In item items -> skipped axis exclude all item = false -> exists d P, place dest make item d /\ fitting axis sel item d P) ->
  exists dest', copy_items size axis exclude all make sel orig items dest = Ok dest' /\
    (forall item, In item items -> skipped axis exclude all item = false -> exists d' P, dget (d_name item) dest' = Some d' /\
       TakesAll sel (d_names item) (shp (d_val item)) P /\ Selected P (d_val item) (d_val d') /\ d_dist d' = d_dist item) /\
    (forall name, (forall item, In item items -> d_name item = name -> skipped axis exclude all item = true) -> dget name dest' = dget name dest).
Proof.
  intros size axis exclude all make sel. induction items as [|item items IH]; intros orig dest Hs N U I Nn H.
  - exists dest. split; [reflexivity|]. split; [intros ? []|reflexivity].
  - inversion Nn as [|? ? Hi Hr]; subst. cbn [copy_items]. destruct (skipped axis exclude all item) eqn:K.
    + destruct (IH orig dest Hs N U I Hr) as (dest' & E & C & O); [intros x Hx; apply H; now right|].
      exists dest'. split; auto. split.
      * intros x [<-|Hx] Kx; [congruence|auto].
      * intros name Hn. apply O. intros x Hx. apply Hn. now right.
    + destruct (H item (or_introl eq_refl) K) as (d & P & Pl & F).
      assert (E0 : match dget (d_name item) dest with Some d => Ok d | None => make (d_name item) end = Ok d).
      { destruct Pl as [-> | [-> ->]]; reflexivity. }
      rewrite E0. cbn [rbind]. destruct (copy_item_ok size axis sel orig item d P Hs N U I F) as (d' & orig' & -> & S & D' & _). cbn [rbind].
      destruct (IH orig' (dput (d_name item) d' dest) Hs N U I Hr) as (dest' & E & C & O).
      { intros x Hx Kx. destruct (H x (or_intror Hx) Kx) as (dx & Px & Plx & Fx). exists dx, Px. split; auto. unfold place in *.
        assert (NE : d_name x <> d_name item) by (intros Q; apply Hi; rewrite <- Q; now apply in_map). rewrite dget_dput_other by exact NE. exact Plx. }
      exists dest'. split; auto. split.
      * intros x [<-|Hx] Kx; [|auto]. exists d', P. split.
        -- rewrite O; [apply dget_dput_same|]. intros y Hy Q. exfalso. apply Hi. rewrite <- Q. now apply in_map.
        -- destruct F as (_ & T & _). auto.
      * intros name Hn. assert (NE : name <> d_name item) by (intros Q; specialize (Hn item (or_introl eq_refl) (eq_sym Q)); congruence).
        rewrite O; [now apply dget_dput_other|]. intros x Hx. apply Hn. now right.
Qed.
End Copy.
