(** C32, C33, C84: deep_group_copy. *)
From Coq Require Import String.
From Coq Require Import List Ascii Bool Arith ZArith Lia.
From Verif Require Import PyBase PyStr MemModel JsonModel JsonSpec AttrModel AttrSpec AttrProofs CopyModel MemSpec MemProofs MemProofs2 CopySpec CopyProofs CopyProofs2.
Import ListNotations.
Open Scope list_scope.
Open Scope nat_scope.

(** C32 and C33.  From the root of a tree to the root of another the loop ends,
    and then every dataset holds what was asked for, every group is there, the
    attributes are copied, and nothing else has changed.  The exception (C33)
    is a file written without conversion of strings and with selections. *)
Theorem C32_copy_partial : forall o t1 t2, shallow o = false -> shared o = [] ->
  TreeOK t1 -> GroupAt t1 [] -> GroupAt t2 [] -> Fresh t1 t2 ->
  (to_file o = true -> convert_dataset_strings o = true \/ selections o = None) ->
  (forall p d, find t1 p = Some (Dset d) -> Feasible o p d) ->
  (forall p n, find t1 p = Some n -> AttrsFeasible o (node_attrs n)) ->
  exists c t2' names, (forall fuel, deep_group_copy o t1 [slash] t2 [slash] (c + fuel) = Some (t2', Ok names)) /\
  (forall p d, find t1 p = Some (Dset d) -> exists x b,
     find t2' p = Some (Dset (mkdset x b (if to_file o then None else daxis d))) /\ Asked o p d x /\ AttrsCopied o (dattrs d) b) /\
  (forall p a kids, p <> [] -> find t1 p = Some (Grp a kids) -> exists b kids',
     find t2' p = Some (Grp b kids') /\ AttrsCopied o a b) /\
  (exists b kids', t2' = Grp b kids' /\ forall k,
     match dget k (node_attrs t1) with
     | None => dget k b = dget k (node_attrs t2)
     | Some v => exists w, copy_value (convert_attribute_strings o) (where_to o) v = Ok w /\ dget k b = Some w
     end) /\
  (forall p, find t1 p = None -> find t2' p = find t2 p).
Proof. exact CopyProofs2.copy_ok. Qed.
Print Assumptions C32_copy_partial.

Definition plain_copy : opts := mkopts None false true Mem false false [].
(** In memory, without options, data and JSON-like attributes are equal. *)
Theorem C32_memory_partial : forall t1 t2, TreeOK t1 -> GroupAt t1 [] -> GroupAt t2 [] -> Fresh t1 t2 ->
  (forall p n k v, find t1 p = Some n -> dget k (node_attrs n) = Some v -> jsonlike v /\ untagged v) ->
  exists c t2' names, (forall fuel, deep_group_copy plain_copy t1 [slash] t2 [slash] (c + fuel) = Some (t2', Ok names)) /\
  (forall p d, find t1 p = Some (Dset d) -> exists b, find t2' p = Some (Dset (mkdset (dat d) b (daxis d))) /\ SameAttrs b (dattrs d)) /\
  (forall p a kids, p <> [] -> find t1 p = Some (Grp a kids) -> exists b kids', find t2' p = Some (Grp b kids') /\ SameAttrs b a) /\
  (forall p, find t1 p = None -> find t2' p = find t2 p).
Proof.
  intros t1 t2 HT H1 H2 HF HA.
  assert (HS : forall p n b, find t1 p = Some n -> AttrsCopied plain_copy (node_attrs n) b -> SameAttrs b (node_attrs n)).
  { intros p n b Hf H k. specialize (H k). destruct (dget k (node_attrs n)) as [v|] eqn:E0; [|assumption].
    destruct H as (w & Hw & Hb). destruct (HA p n k v Hf E0) as [J U]. rewrite (mem_value v _ J U) in Hw. congruence. }
  destruct (CopyProofs2.copy_ok plain_copy t1 t2) as (c & t2' & names & Hc & Hd & Hg & _ & Hn); try reflexivity; try assumption.
  - intros _. right. reflexivity.
  - intros p d Hf. exists None, (dat d). split; [reflexivity|]. split; [reflexivity|]. discriminate.
  - intros p n Hf k v Hk. destruct (HA p n k v Hf Hk) as [J U]. exists v. now apply mem_value.
  - exists c, t2', names. split; [assumption|]. split; [|split; [|assumption]].
    + intros p d Hf. destruct (Hd p d Hf) as (x & b & E & (s & y & Hs & Hy & Hx) & Hb). exists b.
      cbn in Hs. subst s. cbn in Hy. injection Hy as <-. cbn in Hx. subst x. split; [assumption|].
      exact (HS p (Dset d) b Hf Hb).
    + intros p a kids Hne Hf. destruct (Hg p a kids Hne Hf) as (b & kids' & E & Hb). exists b, kids'.
      split; [assumption|]. exact (HS p (Grp a kids) b Hf Hb).
Qed.
Print Assumptions C32_memory_partial.

(** False of a source that is not the root: the group itself is never created
    in the target. *)
Theorem C32_subgroup_source_refuted : exists t1 g1, TreeOK t1 /\ (exists a kids, find t1 [g1] = Some (Grp a kids)) /\
  deep_group_copy plain_copy t1 (canonical [g1]) new_root [slash] 10 = Some (new_root, Err KeyError).
Proof.
  exists (Grp [] [(s_ "a", Grp [] [])]), (s_ "a"). split; [|split; [eexists; eexists; reflexivity|vm_compute; reflexivity]].
  intros p a kids H. destruct p as [|x p]; [cbn in H; injection H as <- <-|].
  - split; [repeat constructor; intros []|]. repeat constructor; [discriminate|]. intros [G|[]]. discriminate.
  - cbn [find dget] in H. destruct (seqb x (s_ "a")); [|discriminate]. destruct p; cbn in H; [|discriminate].
    injection H as <- <-. split; constructor.
Qed.
Print Assumptions C32_subgroup_source_refuted.
(** False of a target that is not the root: the copy lands beside it. *)
Theorem C32_subgroup_target_refuted : exists t1 t2 g2 t2' x, find t2 [g2] = Some (Grp [] []) /\
  find t1 [x] = Some (Grp [] []) /\
  deep_group_copy plain_copy t1 [slash] t2 (canonical [g2]) 10 = Some (t2', Ok []) /\
  find t2' [g2; x] = None /\ find t2 [x] = None /\ find t2' [x] = Some (Grp [] []).
Proof.
  exists (Grp [] [(s_ "a", Grp [] [])]), (Grp [] [(s_ "out", Grp [] [])]), (s_ "out"). eexists. exists (s_ "a").
  split; [reflexivity|]. split; [reflexivity|]. split; [vm_compute; reflexivity|]. repeat split.
Qed.
Print Assumptions C32_subgroup_target_refuted.
(** With an entry of empty name in the root, as create_dataset("/") leaves it,
    the copy never ends. *)
Definition nameless : tree := Grp [] [([], Dset (mkdset (DNum []) [] None))].
Theorem C32_endless_refuted : exists t1 : tree, (exists r, create_dataset new_root [slash] [slash] (mkdset (DNum []) [] None) = (t1, r)) /\
  forall fuel, deep_group_copy plain_copy t1 [slash] new_root [slash] fuel = None.
Proof.
  exists nameless. split; [eexists; vm_compute; reflexivity|].
  intro fuel. unfold deep_group_copy.
  assert (E0 : getitem nameless [slash] [] = Ok (canonical [], nameless))
    by (vm_compute; reflexivity).
  rewrite E0. induction fuel as [|fuel IH]; [reflexivity|]. exact IH.
Qed.
Print Assumptions C32_endless_refuted.

Definition ex_tree : tree :=
  Grp [(s_ "version", AInt 2)]
    [(s_ "b", Grp [] [(s_ "z", Dset (mkdset (DNum [5; 6; 7]%Z) [(s_ "unit", AStr (s_ "K"))] None));
                      (s_ "y", Dset (mkdset (DBytes [s_ "p"; s_ "q"]) [] (Some 0)))]);
     (s_ "a", Dset (mkdset (DUni [s_ "u"; s_ "v"]) [] None))].
Definition first_two : selection := Some (fun _ => [0; 1]).
Example C32_example :
  deep_group_copy plain_copy ex_tree [slash] (Grp [(s_ "old", ANone)] [(s_ "c", Grp [] [])]) [slash] 20 =
  Some (Grp [(s_ "old", ANone); (s_ "version", AInt 2)]
    [(s_ "c", Grp [] []);
     (s_ "a", Dset (mkdset (DUni [s_ "u"; s_ "v"]) [] None));
     (s_ "b", Grp [] [(s_ "y", Dset (mkdset (DBytes [s_ "p"; s_ "q"]) [] (Some 0)));
                      (s_ "z", Dset (mkdset (DNum [5; 6; 7]%Z) [(s_ "unit", AStr (s_ "K"))] None))])], Ok []).
Proof. vm_compute. reflexivity. Qed.

(** C33.  The selected part is written in memory and, with conversion, in
    files: this is [Asked] in C32_copy_partial.  Stated alone: *)
Theorem C33_selected_partial : forall o t1 t2, shallow o = false -> shared o = [] ->
  TreeOK t1 -> GroupAt t1 [] -> GroupAt t2 [] -> Fresh t1 t2 ->
  to_file o = false \/ convert_dataset_strings o = true ->
  (forall p d, find t1 p = Some (Dset d) -> Feasible o p d) ->
  (forall p n, find t1 p = Some n -> AttrsFeasible o (node_attrs n)) ->
  exists c t2' names, (forall fuel, deep_group_copy o t1 [slash] t2 [slash] (c + fuel) = Some (t2', Ok names)) /\
  forall p d s, find t1 p = Some (Dset d) -> Selected (selections o) p s ->
    exists y b ax, index s (dat d) = Ok y /\
    find t2' p = Some (Dset (mkdset (recode (to_file o) (convert_dataset_strings o) y) b ax)).
Proof.
  intros o t1 t2 S1 S2 HT H1 H2 HF HC HD HA.
  destruct (CopyProofs2.copy_ok o t1 t2) as (c & t2' & names & Hc & Hd & _); try assumption.
  - intro G. destruct HC; [congruence|auto].
  - exists c, t2', names. split; [assumption|]. intros p d s Hf Hs.
    destruct (Hd p d Hf) as (x & b & E & (s' & y & Hs' & Hy & Hx) & _).
    apply selected_get in Hs, Hs'. rewrite Hs in Hs'. subst s'. exists y, b. eexists. split; [assumption|]. rewrite <- Hx. exact E.
Qed.
Print Assumptions C33_selected_partial.
(** False of a file without conversion: the whole dataset is written. *)
Theorem C33_dropped_refuted : exists o t1 t2' d b, Selected (selections o) [s_ "a"] first_two /\
  find t1 [s_ "a"] = Some (Dset d) /\
  deep_group_copy o t1 [slash] new_root [slash] 10 = Some (t2', Ok []) /\
  index first_two (dat d) = Ok (DNum [1; 2]%Z) /\ find t2' [s_ "a"] = Some (Dset (mkdset (DNum [1; 2; 3]%Z) b None)).
Proof.
  exists (mkopts (Some [(s_ "a", first_two)]) false true H5 false false []),
    (Grp [] [(s_ "a", Dset (mkdset (DNum [1; 2; 3]%Z) [] None))]). eexists. eexists. eexists.
  split; [right; split; [reflexivity|left; reflexivity]|]. split; [reflexivity|].
  split; [vm_compute; reflexivity|]. split; reflexivity.
Qed.
Print Assumptions C33_dropped_refuted.
(** That is so for every dataset and every selection. *)
Theorem C33_always_dropped : forall o p d x ax sk, to_file o = true -> convert_dataset_strings o = false -> daxis d = None ->
  prepare o (canonical p) d = Ok (x, ax, sk) -> x = Some (dat d).
Proof. exact CopyProofs2.prepare_dropped. Qed.
Print Assumptions C33_always_dropped.
(** A selection of a shared dataset is refused. *)
Theorem C33_shared_refused : forall o t1 t2 g1 g2 key d, is_shared o key = true -> get_selection o key <> None ->
  put_entry o t1 g1 g2 key (Dset d) t2 = (t2, Err ValueError).
Proof.
  intros o t1 t2 g1 g2 key d H1 H2. cbn [put_entry]. rewrite H1. now destruct (get_selection o key).
Qed.
Print Assumptions C33_shared_refused.
Example C33_example :
  deep_group_copy (mkopts (Some [(s_ "b/z", first_two); (s_ "/a", Some (fun n => [n - 1]))]) true true H5 true false []) ex_tree [slash] new_root [slash] 20 =
  Some (Grp [(s_ "version", ANpInt 2)]
    [(s_ "a", Dset (mkdset (DBytes [s_ "v"]) [] None));
     (s_ "b", Grp [] [(s_ "y", Dset (mkdset (DBytes [[]; []]) [] None));
                      (s_ "z", Dset (mkdset (DNum [5; 6]%Z) [(s_ "unit", AStr (s_ "K"))] None))])], Ok [s_ "/b/y"])
  /\ deep_group_copy (mkopts (Some [(s_ "a", first_two)]) false true Mem false false [s_ "a"]) ex_tree [slash] new_root [slash] 20
     = Some (Grp [(s_ "version", AInt 2)] [], Err ValueError).
Proof. split; vm_compute; reflexivity. Qed.

(** C84.  The distributed datasets skipped are reported, each once. *)
Theorem C84_skipped_names : forall o t1 t2, shallow o = false -> shared o = [] ->
  to_file o = true -> skip_distributed o = true -> selections o = None ->
  TreeOK t1 -> GroupAt t1 [] -> GroupAt t2 [] -> Fresh t1 t2 ->
  (forall p d, find t1 p = Some (Dset d) -> is_dist d = false -> Feasible o p d) ->
  (forall p n, find t1 p = Some n -> AttrsFeasible o (node_attrs n)) ->
  exists c t2' names, (forall fuel, deep_group_copy o t1 [slash] t2 [slash] (c + fuel) = Some (t2', Ok names)) /\
  NoDup names /\ forall s, In s names <-> exists p d, s = canonical p /\ find t1 p = Some (Dset d) /\ is_dist d = true.
Proof. exact CopyProofs2.skipped_names. Qed.
Print Assumptions C84_skipped_names.
(** Without [skip_distributed], or with a selection of such a dataset, the copy
    is refused. *)
Theorem C84_refused : forall o name d, to_file o = true -> is_dist d = true ->
  skip_distributed o = false \/ get_selection o name <> None -> prepare o name d = Err ValueError.
Proof.
  intros o name d H1 H2 H. unfold prepare. unfold is_dist in H2. rewrite H1, H2. cbn [andb].
  destruct (skip_distributed o); cbn [negb]; [|reflexivity].
  destruct H as [H|H]; [discriminate|]. now destruct (get_selection o name).
Qed.
Print Assumptions C84_refused.
Example C84_example :
  deep_group_copy (mkopts None true true Zarr true false []) ex_tree [slash] new_root [slash] 20 =
  Some (Grp [(s_ "version", AInt 2)]
    [(s_ "a", Dset (mkdset (DBytes [s_ "u"; s_ "v"]) [] None));
     (s_ "b", Grp [] [(s_ "y", Dset (mkdset (DBytes [[]; []]) [] None));
                      (s_ "z", Dset (mkdset (DNum [5; 6; 7]%Z) [(s_ "unit", AStr (s_ "K"))] None))])], Ok [s_ "/b/y"]).
Proof. vm_compute. reflexivity. Qed.
