(** C58: copying between containers with selections. *)
From Coq Require Import String.
From Coq Require Import List Ascii Bool Arith ZArith Lia Permutation.
From Verif Require Import PyBase PyStr MemModel MemProofs2 AttrModel AttrProofs CopyProofs ContModel ContProofs ContProofs2 PartModel PartSpec PartProofs
  PartProps0 SliceModel RedModel RedSpec RedProofs DistModel DistProofs FiltModel FiltSpec FiltProofs FiltProofs2.
Import ListNotations.
Open Scope list_scope.
Open Scope nat_scope.

(** The dataset is one to be copied. *)
Definition to_copy {A} (axis exclude : list str) (all : bool) (item : @dset A) : Prop :=
  (forall x, In x exclude -> ~ In x (d_names item)) /\ (all = true \/ exists x, In x axis /\ In x (d_names item)).
Lemma disjoint_iff : forall a b, disjoint a b = true <-> forall x, In x a -> ~ In x b.
Proof.
  intros a b. unfold disjoint. rewrite forallb_forall. split; intros H x Hx.
  - intros K. apply H in Hx. apply mem_name_in in K. rewrite K in Hx. discriminate.
  - apply H in Hx. destruct (mem_name x b) eqn:E; auto. apply mem_name_in in E. contradiction.
Qed.
Lemma to_copy_iff : forall A axis exclude all (item : @dset A), to_copy axis exclude all item <-> skipped axis exclude all item = false.
Proof.
  intros A axis exclude all item. unfold to_copy, skipped. rewrite orb_false_iff, negb_false_iff, disjoint_iff, andb_false_iff, negb_false_iff. split.
  - intros [H1 H2]. split; auto. destruct H2 as [->|(x & Hx & Hy)]; auto. right. destruct (disjoint axis (d_names item)) eqn:E; auto.
    rewrite disjoint_iff in E. destruct (E x Hx Hy).
  - intros [H1 [->|H2]]; auto. split; auto. right.
    assert (X : forall l, disjoint l (d_names item) = false -> exists x, In x l /\ In x (d_names item)).
    { induction l as [|y l IH]; [discriminate|]. unfold disjoint. cbn [forallb]. destruct (mem_name y (d_names item)) eqn:E; cbn [negb andb].
      - intros _. exists y. split; [now left|]. now apply mem_name_in.
      - intros K. destruct (IH K) as (x & Hx & Hy). exists x. split; auto. now right. }
    auto.
Qed.

(** A dataset to be copied, and the one in the destination: selections that
    mean something on its axes, the length each leaves, and both kept whole on
    every rank or both distributed with an axis left that is not filtered. *)
Definition Fits {A} (axis : list str) (sel : list (str * fsel)) (item d : @dset A) (P : list (list nat)) : Prop :=
  NoDup (d_names item) /\ TakesAll sel (d_names item) (shp (d_val item)) P /\ shp (d_val d) = map (@length nat) P /\
  match d_dist item, d_dist d with
  | None, None => True
  | Some o, Some _ => o < length (d_names item) /\ exists a, In a (d_names item) /\ ~ In a axis
  | _, _ => False
  end.

Definition ax_of (axis : list str) (sel : list (str * fsel)) : list str := match axis with [] => map fst sel | _ => axis end.

(** Missing for the full statement: what the refutations below are about. *)
Theorem C58_copies_partial : forall (A : Type) size (items : list (@dset A)) dest make axis sel exclude all,
  1 <= size -> NoDup (map fst sel) -> NoDup (map (@d_name A) items) ->
  (forall a s, In (a, s) sel -> s <> FList [] /\ forall l, s <> FArr l) ->
  (axis = [] \/ forall a, In a axis <-> In a (map fst sel)) ->
  (forall item, In item items -> to_copy (ax_of axis sel) exclude all item -> exists d P,
     (dget (d_name item) dest = Some d \/ (dget (d_name item) dest = None /\ make (d_name item) = Ok d)) /\ Fits (ax_of axis sel) sel item d P) ->
  exists dest' sel', copy_filter size items dest make axis (SDict sel) exclude all = Ok (dest', sel') /\
    (forall item, In item items -> to_copy (ax_of axis sel) exclude all item -> exists d' P, dget (d_name item) dest' = Some d' /\
       TakesAll sel (d_names item) (shp (d_val item)) P /\ Selected P (d_val item) (d_val d') /\ d_dist d' = d_dist item) /\
    (forall name, (forall item, In item items -> d_name item = name -> ~ to_copy (ax_of axis sel) exclude all item) -> dget name dest' = dget name dest).
Proof.
  intros A size items dest make axis sel exclude all Hs N Nn Us Ax H.
  assert (U : Forall (fun kv : str * fsel => usable (snd kv)) sel).
  { apply Forall_forall. intros [a s] I. destruct (Us a s I) as [U1 U2]. cbn [snd]. destruct s as [sl|[|z l]|l]; cbn; auto. exact (U2 l eq_refl). }
  assert (I : incl (map fst (filter (fun kv => kept (snd kv)) sel)) (ax_of axis sel)).
  { intros a K. apply in_map_iff in K as (kv & <- & K). apply filter_In in K as [K _]. apply (in_map fst) in K. unfold ax_of. destruct axis as [|b axis]; auto.
    destruct Ax as [|Ax]; [discriminate|]. now apply Ax. }
  assert (N' : NoDup (map fst (filter (fun kv => kept (snd kv)) sel))).
  { clear -N. induction sel as [|kv l IH]; [constructor|]. cbn [filter map] in *. inversion N as [|? ? H1 H2]; subst.
    destruct (kept (snd kv)); cbn [map]; auto. constructor; auto. intros K. apply H1. apply in_map_iff in K as (x & E & K).
    apply filter_In in K as [K _]. rewrite <- E. now apply in_map. }
  assert (U' : Forall (fun kv : str * fsel => usable (snd kv)) (filter (fun kv => kept (snd kv)) sel)).
  { rewrite Forall_forall in *. intros kv K. apply filter_In in K as [K _]. auto. }
  unfold copy_filter.
  assert (E : match axis with [] => Ok (map fst sel) | _ :: _ => if forallb (fun a => mem_name a (map fst sel)) axis then Ok axis else Err ValueError end = Ok (ax_of axis sel)).
  { unfold ax_of. destruct axis as [|b axis]; [reflexivity|]. destruct Ax as [|Ax]; [discriminate|].
    assert (F : forallb (fun a => mem_name a (map fst sel)) (b :: axis) = true). { apply forallb_forall. intros a K. apply mem_name_in. now apply Ax. }
    now rewrite F. }
  rewrite E. cbn [rbind]. rewrite (clean_usable sel U). cbn [rbind].
  destruct (copy_items_ok size (ax_of axis sel) exclude all make (filter (fun kv => kept (snd kv)) sel) items None dest Hs N' U' I Nn) as (dest' & E' & C & O).
  { intros item Hi K. apply to_copy_iff in K. destruct (H item Hi K) as (d & P & Pl & F1 & F2 & F3). exists d, P. split; [exact Pl|].
    split; [auto|]. split; [now apply takes_all_clean|auto]. }
  rewrite E'. cbn [rbind]. do 2 eexists. split; [reflexivity|]. split.
  - intros item Hi K. destruct (H item Hi K) as (d0 & P0 & _ & F1 & F2 & _). apply to_copy_iff in K.
    destruct (C item Hi K) as (d & P & H1 & H2 & H3). exists d, P0. split; auto. split; auto.
    destruct (final_takes _ _ _ _ F1 N' U' H2) as [Q1 _]. destruct (final_takes _ _ _ _ F1 N' U' (takes_all_clean _ _ _ _ N F2)) as [Q2 _].
    rewrite Q1 in Q2. now subst P0.
  - intros name K. apply O. intros item Hi Hm. destruct (skipped (ax_of axis sel) exclude all item) eqn:F; auto.
    apply to_copy_iff in F. destruct (K item Hi Hm F).
Qed.
Print Assumptions C58_copies_partial.

(** One selection for all the listed axes. *)
Theorem C58_single : forall (A : Type) size (items : list (@dset A)) dest make axis s exclude all, NoDup axis ->
  copy_filter size items dest make axis (SAll s) exclude all = copy_filter size items dest make axis (SDict (map (fun a => (a, s)) axis)) exclude all.
Proof.
  intros A size items dest make axis s exclude all N. unfold copy_filter.
  assert (E : union [] axis = axis).
  { assert (G : forall l acc, NoDup (acc ++ l) -> union acc l = acc ++ l).
    { induction l as [|x l IH]; intros acc H; unfold union; cbn [fold_left]; [now rewrite app_nil_r|].
      destruct (mem_name x acc) eqn:M.
      - apply mem_name_in in M. apply NoDup_remove_2 in H. destruct H. apply in_or_app. now left.
      - fold (union (acc ++ [x]) l). rewrite IH; rewrite <- app_assoc; [reflexivity|exact H]. }
    exact (G axis [] N). }
  now rewrite E.
Qed.
Print Assumptions C58_single.

(** Lists of consecutive indices are never turned into slices: the test leaves
    out the last index. *)
Theorem C58_no_conversion : forall l, l <> [] -> clean_one (FList l) = Ok (Some (FList l)).
Proof. intros [|a l] H; [contradiction|]. cbn [clean_one]. unfold clean_list. now rewrite never_range. Qed.
Print Assumptions C58_no_conversion.

(** ** Where it fails *)
Definition x_ : str := s_ "x".
Definition y_ : str := s_ "y".
Definition v_ : str := s_ "v".
(** A row of [n] numbers, and empty arrays. *)
Definition row (n : nat) : nd nat := mknd [n] (fun idx => nth 0 idx 0).
Definition grid (m n : nat) : nd nat := mknd [m; n] (fun idx => 10 * nth 0 idx 0 + nth 1 idx 0).
Definition blank (sh : list nat) : nd nat := mknd sh (fun _ => 0).
Definition no_make (s : str) : res (@dset nat) := Err RuntimeError.

(** Selecting nothing. *)
Theorem C58_empty_list_refuted : exists (items : list (@dset nat)) dest sel item d P, items = [item] /\ dest = [(d_name item, d)] /\
  Fits (map fst sel) sel item d P /\ copy_filter 1 items dest no_make [] (SDict sel) [] false = Err IndexError.
Proof.
  exists [mkdset v_ [x_] None (row 3)], [(v_, mkdset v_ [x_] None (blank [0]))], [(x_, FList [])],
    (mkdset v_ [x_] None (row 3)), (mkdset v_ [x_] None (blank [0])), [[]].
  split; [reflexivity|]. split; [reflexivity|]. split; [|reflexivity]. split; [repeat constructor; auto|]. split; [|split; [reflexivity|exact I]].
  constructor; [|constructor]. apply Tk_sel with (FList []); [now left|]. constructor. constructor.
Qed.
Print Assumptions C58_empty_list_refuted.
(** An array of indices. *)
Theorem C58_array_refuted : exists (items : list (@dset nat)) dest sel item d P, items = [item] /\ dest = [(d_name item, d)] /\
  Fits (map fst sel) sel item d P /\ copy_filter 1 items dest no_make [] (SDict sel) [] false = Err ValueError.
Proof.
  exists [mkdset v_ [x_] None (row 3)], [(v_, mkdset v_ [x_] None (blank [2]))], [(x_, FArr [0%Z; 2%Z])],
    (mkdset v_ [x_] None (row 3)), (mkdset v_ [x_] None (blank [2])), [[0; 2]].
  split; [reflexivity|]. split; [reflexivity|]. split; [|reflexivity]. split; [repeat constructor; auto|]. split; [|split; [reflexivity|exact I]].
  constructor; [|constructor]. apply Tk_sel with (FArr [0%Z; 2%Z]); [now left|]. repeat constructor; cbn; lia.
Qed.
Print Assumptions C58_array_refuted.
(** A call changes the dictionary it was given: the same call again fails. *)
Theorem C58_again_refuted : exists (items : list (@dset nat)) dest axis sel dest' sel',
  copy_filter 1 items dest no_make axis (SDict sel) [] false = Ok (dest', sel') /\
  copy_filter 1 items dest no_make axis (SDict sel') [] false = Err ValueError.
Proof.
  exists [mkdset v_ [x_] None (row 3)], [(v_, mkdset v_ [x_] None (blank [3]))], [x_], [(x_, FSlice full_slice)].
  do 2 eexists. split; reflexivity.
Qed.
Print Assumptions C58_again_refuted.
(** Selecting on more axes than [axis] lists: with two ranks the data is
    redistributed over [y], and [-1] counts from the end of each share. *)
Theorem C58_other_axis_refuted : exists (items : list (@dset nat)) dest axis sel item d P dest' sel' d', items = [item] /\ dest = [(d_name item, d)] /\
  incl axis (map fst sel) /\ Fits axis sel item d P /\
  copy_filter 2 items dest no_make axis (SDict sel) [] false = Ok (dest', sel') /\ dget (d_name item) dest' = Some d' /\
  ~ Selected P (d_val item) (d_val d').
Proof.
  set (item := mkdset v_ [x_; y_] (Some 0) (grid 2 4)). set (d := mkdset v_ [x_; y_] (Some 0) (blank [1; 1])).
  exists [item], [(v_, d)], [x_], [(x_, FList [1%Z]); (y_, FList [(-1)%Z])], item, d, [[1]; [3]].
  do 3 eexists. split; [reflexivity|]. split; [reflexivity|]. split; [intros a [<-|[]]; now left|]. split.
  - split; [repeat constructor; cbn; intuition discriminate|]. split; [|split; [reflexivity|]].
    + constructor; [|constructor; [|constructor]].
      * apply Tk_sel with (FList [1%Z]); [now left|]. repeat constructor; cbn; lia.
      * apply Tk_sel with (FList [(-1)%Z]); [now right; left|]. repeat constructor; cbn; lia.
    + cbn [item d d_dist d_names]. split; [cbn; lia|]. exists y_. split; [right; now left|]. intros [K|[]]. discriminate.
  - split; [reflexivity|]. split; [reflexivity|]. intros [_ S]. specialize (S [0; 0] [1; 3]).
    assert (K : Picks [[1]; [3]] [0; 0] [1; 3]) by (repeat constructor). apply S in K. vm_compute in K. discriminate.
Qed.
Print Assumptions C58_other_axis_refuted.
(** A common dataset into a distributed one. *)
Theorem C58_common_to_distributed_refuted : exists (items : list (@dset nat)) dest sel item d P, items = [item] /\ dest = [(d_name item, d)] /\
  d_dist item = None /\ d_dist d = Some 0 /\ NoDup (d_names item) /\ TakesAll sel (d_names item) (shp (d_val item)) P /\ shp (d_val d) = map (@length nat) P /\
  copy_filter 1 items dest no_make [] (SDict sel) [] false = Err UnboundLocalError.
Proof.
  set (item := mkdset v_ [x_] None (row 3)). set (d := mkdset v_ [x_] (Some 0) (blank [2])).
  exists [item], [(v_, d)], [(x_, FList [0%Z; 2%Z])], item, d, [[0; 2]].
  repeat (split; [reflexivity|]). split; [repeat constructor; auto|]. split; [|split; reflexivity].
  constructor; [|constructor]. apply Tk_sel with (FList [0%Z; 2%Z]); [now left|]. repeat constructor; cbn; lia.
Qed.
Print Assumptions C58_common_to_distributed_refuted.
(** An axis used twice by a dataset is filtered only where it comes first. *)
Theorem C58_repeated_axis_refuted : exists (items : list (@dset nat)) dest sel item d P, items = [item] /\ dest = [(d_name item, d)] /\
  d_dist item = None /\ d_dist d = None /\ TakesAll sel (d_names item) (shp (d_val item)) P /\ shp (d_val d) = map (@length nat) P /\
  copy_filter 1 items dest no_make [] (SDict sel) [] false = Err ValueError.
Proof.
  set (item := mkdset v_ [x_; x_] None (grid 3 3)). set (d := mkdset v_ [x_; x_] None (blank [2; 2])).
  exists [item], [(v_, d)], [(x_, FList [0%Z; 2%Z])], item, d, [[0; 2]; [0; 2]].
  repeat (split; [reflexivity|]). split; [|split; reflexivity].
  constructor; [|constructor; [|constructor]]; (apply Tk_sel with (FList [0%Z; 2%Z]); [now left|]; repeat constructor; cbn; lia).
Qed.
Print Assumptions C58_repeated_axis_refuted.

(** Two ranks; [w] has no filtered axis, [u] an excluded one. *)
Example C58_example :
  let items := [mkdset v_ [x_; y_] (Some 0) (grid 3 4); mkdset (s_ "w") [y_] None (row 4); mkdset (s_ "u") [x_; s_ "z"] None (grid 3 2)] in
  let dest := [(v_, mkdset v_ [x_; y_] (Some 1) (blank [2; 4]))] in
  match copy_filter 2 items dest no_make [x_] (SDict [(x_, FList [2%Z; (-3)%Z])]) [s_ "z"] false with
  | Ok ([(n, d)], sel) => n = v_ /\ sel = [(x_, FList [2%Z; (-3)%Z])] /\ d_dist d = Some 0 /\
      map (fun i => map (fun j => elt (d_val d) [i; j]) [0; 1; 2; 3]) [0; 1] = [[20; 21; 22; 23]; [0; 1; 2; 3]]
  | _ => False
  end.
Proof. vm_compute. repeat split. Qed.
Example C58_example_slice :
  match copy_filter 1 [mkdset v_ [x_; y_] None (grid 4 4)] [(v_, mkdset v_ [x_; y_] None (blank [2; 3]))] no_make []
          (SDict [(y_, FSlice (mkslice (Some 3%Z) None (Some (-1)%Z))); (x_, FSlice (mkslice (Some 1%Z) (Some 3%Z) None))]) [] false with
  | Ok ([(n, d)], sel) => False
  | Err ValueError => True
  | _ => False
  end /\
  match copy_filter 1 [mkdset v_ [x_; y_] None (grid 4 4)] [(v_, mkdset v_ [x_; y_] None (blank [2; 4]))] no_make []
          (SDict [(y_, FSlice (mkslice (Some 3%Z) None (Some (-1)%Z))); (x_, FSlice (mkslice (Some 1%Z) (Some 3%Z) None))]) [] false with
  | Ok ([(n, d)], sel) => map (fun i => map (fun j => elt (d_val d) [i; j]) [0; 1; 2; 3]) [0; 1] = [[13; 12; 11; 10]; [23; 22; 21; 20]]
  | _ => False
  end.
Proof. vm_compute. repeat split. Qed.
