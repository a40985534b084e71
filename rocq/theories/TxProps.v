(** Theorems about whole containers of time-ordered data. *)
From Coq Require Import String.
From Coq Require Import List Ascii Bool Arith ZArith Permutation Lia Sorted.
From Verif Require Import PyBase PyStr MemModel AttrModel AttrProofs MemProofs2 ContProofs TodModel TodSpec TodProofs TxModel TxSpec TxProofs TxProofs2 TxProofs3.
Import ListNotations.
Open Scope list_scope.
Open Scope nat_scope.

(** * C224 the walk *)
Theorem C224_all : forall axes e, Absolute e ->
  exists l, walk_names axes e = Ok l /\
    Permutation (map (cons slash) l ++ map ename (walk_copies axes e)) (map ename (flatten e)) /\
    (forall n, In n l <-> exists x, In x (flatten e) /\ ename x = slash :: n /\ OnAxis axes x) /\
    (forall x, In x (walk_copies axes e) <-> In x (flatten e) /\ ~ OnAxis axes x).
Proof.
  intros axes e HA. destruct (walk_all axes e HA) as (l & E & M & C). exists l. split; [exact E|].
  pose proof (order_flatten _ e (Nat.le_refl _)) as P. split; [|split].
  - rewrite M, C, <- map_app. apply Permutation_map. rewrite <- P. clear.
    induction (order e) as [|x r IH]; [reflexivity|]. cbn [filter]. destruct (dset_has_axis x axes); cbn [negb app].
    + now apply perm_skip.
    + rewrite <- Permutation_middle. now apply perm_skip.
  - intros n. transitivity (In (slash :: n) (map (cons slash) l)).
    + rewrite in_map_iff. split; [intros H; exists n; auto|]. intros (m & Em & H). injection Em as ->. exact H.
    + rewrite M, in_map_iff. split.
      * intros (x & Ex & H). apply filter_In in H. destruct H as (H1 & H2). exists x. split; [|split; [exact Ex|now apply has_axis_iff]].
        now apply (Permutation_in x P).
      * intros (x & H1 & Ex & H2). exists x. split; [exact Ex|]. apply filter_In. split; [|now apply has_axis_iff].
        now apply (Permutation_in x (Permutation_sym P)).
  - intros x. rewrite C, filter_In, <- has_axis_iff. split.
    + intros (H1 & H2). split; [now apply (Permutation_in x P)|]. destruct (dset_has_axis x axes); [discriminate|congruence].
    + intros (H1 & H2). split; [now apply (Permutation_in x (Permutation_sym P))|]. destruct (dset_has_axis x axes); [congruence|reflexivity].
Qed.
Print Assumptions C224_all.

Theorem C224_parents : forall axes e n kids k c, Absolute e ->
  In (EGroup n kids) (flatten e) -> In (k, c) kids -> ~ OnAxis axes c ->
  exists l1 l2 l3, walk_copies axes e = l1 ++ EGroup n kids :: l2 ++ c :: l3.
Proof.
  intros axes e n kids k c HA HI HK HO. destruct (walk_all axes e HA) as (l & _ & _ & C).
  destruct (order_parent _ e n kids k c (Nat.le_refl _) HI HK) as (l1 & l2 & l3 & E).
  rewrite C, E. rewrite filter_app. cbn [filter dset_has_axis negb]. rewrite filter_app. cbn [filter].
  assert (H : dset_has_axis c axes = false).
  { destruct (dset_has_axis c axes) eqn:G; [|reflexivity]. apply has_axis_iff in G. contradiction. }
  rewrite H. cbn [negb]. eexists _, _, _. reflexivity.
Qed.
Print Assumptions C224_parents.

Definition t_axis := s_ "time".
Definition t_tree : entry :=
  EGroup (s_ "/") [
    (s_ "vis", EDset (s_ "/vis") [s_ "freq"; t_axis]);
    (s_ "flags", EGroup (s_ "/flags") [
       (s_ "w", EDset (s_ "/flags/w") [t_axis]);
       (s_ "bad", EDset (s_ "/flags/bad") [s_ "input"])]);
    (s_ "gain", EDset (s_ "/gain") [s_ "freq"])].
Lemma t_tree_absolute : Absolute t_tree.
Proof.
  intros x Hx. cbn in Hx. repeat (destruct Hx as [<-|Hx]; [eexists; reflexivity|]). contradiction.
Qed.
Example C224_example :
  walk_names [t_axis] t_tree = Ok [s_ "flags/w"; s_ "vis"]
  /\ map ename (walk_copies [t_axis] t_tree) = [s_ "/"; s_ "/flags"; s_ "/flags/bad"; s_ "/gain"].
Proof. split; reflexivity. Qed.

(** * C225 the index maps are not left out *)
Theorem C225_refuted : exists axes e n kids,
  Absolute e /\ In (EGroup n kids) (walk_copies axes e) /\ n = s_ "/index_map"
  /\ In (EDset (s_ "/index_map/time") []) (walk_copies axes e).
Proof.
  exists [t_axis], (EGroup (s_ "/") [(s_ "index_map", EGroup (s_ "/index_map") [(s_ "time", EDset (s_ "/index_map/time") [])])]).
  eexists _, _. split; [|split; [|split]].
  - intros x Hx. cbn in Hx. repeat (destruct Hx as [<-|Hx]; [eexists; reflexivity|]). contradiction.
  - cbn. right. left. reflexivity.
  - reflexivity.
  - cbn. right. right. left. reflexivity.
Qed.
Print Assumptions C225_refuted.

(** * C226 a container: the root only, in the order of the names *)
Theorem C226_names : forall (V : Type) axes (x : tod V), NoDup (map fst (x_dsets x)) ->
  exists l, time_names axes x = Ok l /\ StronglySorted (fun a b => sleb a b = true) l /\ NoDup l /\
    forall n, In n l <-> exists d a, dget n (x_dsets x) = Some d /\ TimeAxis axes (axes_of d) a.
Proof.
  intros V axes x N. eexists. split; [apply time_names_exact|]. split; [|split].
  - pose proof (py_sorted_sorted sleb sleb_total sleb_trans (map fst (x_dsets x))) as S0. rewrite <- sorted_fst in S0.
    revert S0. generalize (py_sorted pair_le (x_dsets x)). intros l. induction l as [|p l IH]; intros S0; [constructor|].
    cbn [map] in S0. inversion S0; subst. cbn [filter]. destruct (timed axes p); [|auto]. cbn [map]. constructor; [auto|].
    rewrite Forall_forall in *. intros n Hn. apply H2. apply in_map_iff in Hn. destruct Hn as (q & <- & Hq).
    apply filter_In in Hq. apply in_map. tauto.
  - now apply time_names_nodup.
  - intros n. rewrite (time_names_in axes x n N). split; intros (d & a & H1 & H2); exists d, a; (split; [exact H1|]); now apply concat_axis_iff.
Qed.
Print Assumptions C226_names.

(** * The concatenation *)
Theorem C227_index : forall (V : Type) axes (first : tod V) rest start stop datasets,
  NoDup axes -> Compatible axes first (first :: rest) -> BoundsOk axes (first :: rest) start stop ->
  exists s t o, concatenate_all axes false true (first :: rest) start stop datasets = (s, t, Ok o) /\
    o_attrs o = x_attrs first /\ o_reverse o = x_reverse first /\
    (forall a, In a axes ->
       dget a (o_index o) = Some (map Some (py_slice (asked start a) (asked stop a) (whole_index a (first :: rest))))) /\
    (forall a, ~ In a axes -> dget a (o_index o) = option_map (map Some) (dget a (x_index first))).
Proof.
  intros V axes first rest start stop datasets HN HC HB.
  destruct (concat_result axes false first rest start stop datasets HN HC HB) as (s & t & o & E & H1 & H2 & H3 & H4 & _).
  exists s, t, o. auto.
Qed.
Print Assumptions C227_index.

Theorem C228_datasets : forall (V : Type) axes disk (first : tod V) rest start stop datasets,
  NoDup axes -> Compatible axes first (first :: rest) -> BoundsOk axes (first :: rest) start stop ->
  exists s t o, concatenate_all axes disk true (first :: rest) start stop datasets = (s, t, Ok o) /\
    (forall n d, dget n (x_dsets first) = Some d -> NoTimeAxis axes d ->
       dget n (o_dsets o) = Some (mkodset (d_axis d) (d_attrs d) (map Some (d_rows d)))) /\
    (forall n d a, dget n (x_dsets first) = Some d -> TimeAxis axes (axes_of d) a -> Wanted datasets n ->
       let w := py_slice (asked start a) (asked stop a) (whole_rows n (first :: rest)) in
       (exists q, dget n (o_dsets o) = Some q /\ od_rows q = map Some w /\ od_axis q = d_axis d)
       \/ dget n (o_dsets o) = None /\ w = []) /\
    (forall n d a, dget n (x_dsets first) = Some d -> TimeAxis axes (axes_of d) a -> ~ Wanted datasets n ->
       dget n (o_dsets o) = None) /\
    (forall n, dget n (x_dsets first) = None -> dget n (o_dsets o) = None).
Proof.
  intros V axes disk first rest start stop datasets HN HC HB.
  destruct (concat_result axes disk first rest start stop datasets HN HC HB) as (s & t & o & E & _ & _ & _ & _ & H5 & H6 & H7 & H8).
  exists s, t, o. auto.
Qed.
Print Assumptions C228_datasets.

(** Two containers with two time axes. *)
Definition t_axes := [t_axis; s_ "slow"].
Definition t_file (k : nat) (v : list nat) (w : list nat) : tod nat :=
  mktod [(s_ "tag", k)] [(s_ "made", k)]
    [(t_axis, map (fun i => 10 * i) v); (s_ "slow", map (fun i => 7 * i) w); (s_ "freq", [400; 800])]
    []
    [(s_ "vis", mkdset (Some [s_ "freq"; t_axis]) [(s_ "unit", k)] v);
     (s_ "temp", mkdset (Some [s_ "slow"]) [] w);
     (s_ "gain", mkdset (Some [s_ "freq"]) [] [k; k])].
Definition t_first := t_file 5 [1; 2; 3] [1].
Definition t_second := t_file 6 [4; 5] [2; 3].
Ltac pick_in H := repeat (destruct H as [<-|H]); try contradiction.
Lemma dget_cons : forall (V : Type) n k (v : V) l w, dget n ((k, v) :: l) = Some w -> n = k /\ w = v \/ dget n l = Some w.
Proof.
  intros V n k v l w. cbn [dget]. destruct (seqb n k) eqn:E; [|auto]. apply seqb_eq in E. intros H. injection H as <-. auto.
Qed.
Lemma t_compatible : Compatible t_axes t_first [t_first; t_second].
Proof.
  repeat split.
  - pick_in H; cbn; repeat constructor; cbn; intuition discriminate.
  - pick_in H; cbn; repeat constructor; cbn; intuition discriminate.
  - intros x a Hx Ha. pick_in Hx; pick_in Ha; eexists; reflexivity.
  - intros x n Hx Hn. pick_in Hx; exact Hn.
  - intros x n d Hx Hd. pick_in Hx; [exists d; auto|].
    apply dget_cons in Hd. destruct Hd as [(-> & ->)|Hd]; [eexists; split; reflexivity|].
    apply dget_cons in Hd. destruct Hd as [(-> & ->)|Hd]; [eexists; split; reflexivity|].
    apply dget_cons in Hd. destruct Hd as [(-> & ->)|Hd]; [eexists; split; reflexivity|discriminate].
  - intros x n d a Hx Hd HT. apply concat_axis_iff in HT. revert HT.
    pick_in Hx.
    all: apply dget_cons in Hd; destruct Hd as [(-> & ->)|Hd]; [intros HT; vm_compute in HT; injection HT as <-; reflexivity|].
    all: apply dget_cons in Hd; destruct Hd as [(-> & ->)|Hd]; [intros HT; vm_compute in HT; injection HT as <-; reflexivity|].
    all: apply dget_cons in Hd; destruct Hd as [(-> & ->)|Hd]; [intros HT; vm_compute in HT; discriminate HT|discriminate].
Qed.
Lemma t_bounds : BoundsOk t_axes [t_first; t_second] (Mapping [(t_axis, Some 1%Z)]) (Mapping [(t_axis, Some (-1)%Z)]).
Proof. intros a Ha. pick_in Ha; cbn; unfold InOrder; cbn; lia. Qed.
Example C227_example :
  snd (concatenate_all t_axes false true [t_first; t_second] (Mapping [(t_axis, Some 1%Z)]) (Mapping [(t_axis, Some (-1)%Z)]) None)
  = Ok (mkout [(s_ "tag", 5)] []
          [(t_axis, [Some 20; Some 30; Some 40]); (s_ "slow", [Some 7; Some 14; Some 21]); (s_ "freq", [Some 400; Some 800])] []
          [(s_ "gain", mkodset (Some [s_ "freq"]) [] [Some 5; Some 5]);
           (s_ "temp", mkodset (Some [s_ "slow"]) [] [Some 1; Some 2; Some 3]);
           (s_ "vis", mkodset (Some [s_ "freq"; t_axis]) [(s_ "unit", 5)] [Some 2; Some 3; Some 4])]).
Proof. vm_compute. reflexivity. Qed.

(** * C229 into a group that is on disk: the index maps are not filled *)
Theorem C229_refuted : exists axes (files : list (tod nat)) first a o s t,
  NoDup axes /\ Compatible axes first files /\ BoundsOk axes files (Scalar None) (Scalar None) /\ In a axes /\
  concatenate_all axes true true files (Scalar None) (Scalar None) None = (s, t, Ok o) /\
  dget a (o_index o) = Some [None; None; None; None; None] /\
  whole_index a files = [10; 20; 30; 40; 50].
Proof.
  exists t_axes, [t_first; t_second], t_first, t_axis. eexists _, _, _.
  split; [repeat constructor; cbn; intuition discriminate|]. split; [apply t_compatible|].
  split; [intros a Ha; pick_in Ha; cbn; unfold InOrder; cbn; lia|]. split; [now left|].
  split; [vm_compute; reflexivity|]. split; vm_compute; reflexivity.
Qed.
Print Assumptions C229_refuted.

Theorem C229_never : forall (V : Type) axes (first : tod V) rest start stop datasets,
  NoDup axes -> Compatible axes first (first :: rest) -> BoundsOk axes (first :: rest) start stop ->
  exists s t o, concatenate_all axes true true (first :: rest) start stop datasets = (s, t, Ok o) /\
    forall a l c, In a axes -> dget a (o_index o) = Some l -> In c l -> c = None.
Proof.
  intros V axes first rest start stop datasets HN HC HB.
  destruct (concat_result axes true first rest start stop datasets HN HC HB) as (s & t & o & E & H1 & H2 & H3 & H4 & _).
  exists s, t, o. split; [exact E|]. intros a l c Ha Hl Hc. specialize (H3 a Ha). cbv zeta in H3. rewrite H3 in Hl. injection Hl as <-.
  now apply repeat_spec in Hc.
Qed.
Print Assumptions C229_never.

(** * C230 the caller's bounds *)
Theorem C230_scalar : forall (V : Type) axes disk is_list (files : list (tod V)) z b datasets,
  fst (fst (concatenate_all axes disk is_list files (Scalar z) b datasets)) = Scalar z /\
  snd (fst (concatenate_all axes disk is_list files b (Scalar z) datasets)) = Scalar z.
Proof.
  intros V axes disk is_list files z b datasets. unfold concatenate_all. destruct files as [|x files]; [split; reflexivity|].
  split; destruct (real_bounds _ _ _ _) as (ms, mt); reflexivity.
Qed.
Print Assumptions C230_scalar.

Theorem C230_refuted : exists axes (files more : list (tod nat)) m m' r1 r2 t2,
  concatenate_all axes false true files (Mapping m) (Scalar None) None = (Mapping m', Scalar None, Ok r1) /\
  m' <> m /\
  concatenate_all axes false true more (Mapping m') (Scalar None) None = (Mapping m', t2, Ok r2) /\
  exists r3 s3 t3, concatenate_all axes false true more (Mapping m) (Scalar None) None = (s3, t3, Ok r3) /\ r3 <> r2.
Proof.
  exists [t_axis], [t_file 5 [1; 2; 3] []], [t_file 5 [1; 2; 3; 4; 5; 6] []], [(t_axis, Some (-1)%Z)], [(t_axis, Some 2%Z)].
  eexists _, _, _. split; [vm_compute; reflexivity|]. split; [discriminate|]. split; [vm_compute; reflexivity|].
  eexists _, _, _. split; [vm_compute; reflexivity|]. discriminate.
Qed.
Print Assumptions C230_refuted.

(** * C231 inputs that come as a tuple *)
Theorem C231_refuted : exists axes (files : list (tod nat)) o s t,
  concatenate_all axes false true files (Scalar None) (Scalar None) None = (s, t, Ok o) /\
  concatenate_all axes false false files (Scalar None) (Scalar None) None = (s, t, Err AttributeError).
Proof.
  exists t_axes, [t_first; t_second]. eexists _, _, _. split; vm_compute; reflexivity.
Qed.
Print Assumptions C231_refuted.

(** * C232 the history of the first input *)
Theorem C232_refuted : exists axes (files : list (tod nat)) first rest o s t,
  files = first :: rest /\ x_history first <> [] /\
  concatenate_all axes false true files (Scalar None) (Scalar None) None = (s, t, Ok o) /\ o_history o = [].
Proof.
  exists t_axes, [t_first; t_second], t_first, [t_second]. eexists _, _, _.
  split; [reflexivity|]. split; [discriminate|]. split; vm_compute; reflexivity.
Qed.
Print Assumptions C232_refuted.

(** * C233 the attributes of a dataset come from the first input *)
Theorem C233_refuted : exists axes (files : list (tod nat)) first rest o s t q n d,
  files = first :: rest /\ Compatible axes first files /\
  concatenate_all axes false true files (Scalar (Some 3%Z)) (Scalar None) None = (s, t, Ok o) /\
  dget n (x_dsets first) = Some d /\ dget n (o_dsets o) = Some q /\ od_attrs q <> d_attrs d.
Proof.
  exists t_axes, [t_first; t_second], t_first, [t_second].
  destruct (snd (concatenate_all t_axes false true [t_first; t_second] (Scalar (Some 3%Z)) (Scalar None) None)) as [o|e] eqn:E.
  2:{ vm_compute in E. discriminate E. }
  vm_compute in E. injection E as <-.
  eexists _, _, _, _, (s_ "vis"), _. split; [reflexivity|]. split; [apply t_compatible|].
  split; [vm_compute; reflexivity|]. split; [vm_compute; reflexivity|]. split; [vm_compute; reflexivity|]. discriminate.
Qed.
Print Assumptions C233_refuted.

(** * C234 what a reader lists and what it reads *)
Theorem C234_refuted : exists axes e listed n,
  Absolute e /\ walk_names axes e = Ok listed /\ In n listed /\
  set_dataset_sel listed [n] = Ok [n] /\
  exists read, walk_names axes (container_view e) = Ok read /\ ~ In n read.
Proof.
  exists [t_axis], t_tree, [s_ "flags/w"; s_ "vis"], (s_ "flags/w").
  split; [apply t_tree_absolute|]. split; [reflexivity|]. split; [now left|]. split; [reflexivity|].
  exists [s_ "vis"]. split; [reflexivity|]. cbn. intuition discriminate.
Qed.
Print Assumptions C234_refuted.

Lemma flatten_view : forall e x, In x (flatten (container_view e)) -> x = container_view e \/ In x (flatten e).
Proof.
  intros [n a|n kids] x Hx; [now right|]. cbn [container_view flatten] in Hx. destruct Hx as [<-|Hx]; [now left|right].
  cbn [flatten]. right. apply in_flat_map in Hx. destruct Hx as (p & Hp & Hx). apply filter_In in Hp.
  apply in_flat_map. exists p. tauto.
Qed.
Theorem C234_partial : forall axes n kids listed k m a, Absolute (EGroup n kids) ->
  walk_names axes (EGroup n kids) = Ok listed -> In (k, EDset (slash :: m) a) kids -> OnAxis axes (EDset (slash :: m) a) ->
  exists read, walk_names axes (container_view (EGroup n kids)) = Ok read /\ In m listed /\ In m read.
Proof.
  intros axes n kids listed k m a HA HL HK HO.
  assert (HA' : Absolute (container_view (EGroup n kids))).
  { intros x Hx. apply flatten_view in Hx. destruct Hx as [->|Hx]; [|now apply HA]. apply (HA (EGroup n kids)). now left. }
  destruct (C224_all axes _ HA) as (l & E & _ & H & _). rewrite HL in E. injection E as <-.
  destruct (C224_all axes _ HA') as (r & E' & _ & H' & _). exists r. split; [exact E'|]. split.
  - apply H. exists (EDset (slash :: m) a). split; [|auto]. cbn [flatten]. right. apply in_flat_map. exists (k, EDset (slash :: m) a).
    split; [exact HK|now left].
  - apply H'. exists (EDset (slash :: m) a). split; [|auto]. cbn [container_view flatten]. right. apply in_flat_map.
    exists (k, EDset (slash :: m) a). split; [|now left]. apply filter_In. auto.
Qed.
Print Assumptions C234_partial.

(** * C235 the file whose header a reader reads *)
Theorem C235_refuted : exists file_format, header_left_open true file_format = true.
Proof. exists None. reflexivity. Qed.
Print Assumptions C235_refuted.
Theorem C235_partial : forall opened, header_left_open opened (Some HDF5) = false /\ header_left_open false None = false.
Proof. intros []; split; reflexivity. Qed.
Print Assumptions C235_partial.

(** * C236 lists of files *)
Theorem C236_files : forall glob p,
  (exists l, ensure_file_list glob (FStr p) = Ok l /\ Permutation l (glob p) /\ StronglySorted (fun a b => sleb a b = true) l) /\
  (forall l, ensure_file_list glob (FSeq l) = Ok l) /\
  (forall g, ensure_file_list glob (FGroup g) = Ok [g]) /\
  ensure_file_list glob FOther = Err ValueError.
Proof.
  intros glob p. split; [|auto]. eexists. split; [reflexivity|]. split; [apply Permutation_sym, py_sorted_perm|].
  apply py_sorted_sorted; [apply sleb_total|apply sleb_trans].
Qed.
Print Assumptions C236_files.
Theorem C236_reader : forall glob files l f, reader_files glob files = Ok (l, f) ->
  ensure_file_list glob files = Ok l /\ exists r, l = f :: r.
Proof.
  intros glob [g|p|q|] l f; cbn [reader_files ensure_file_list]; try discriminate.
  - destruct (py_sorted sleb (glob p)) as [|x r]; [discriminate|]. intros H. injection H as <- <-. eauto.
  - destruct q as [|x r]; [discriminate|]. intros H. injection H as <- <-. eauto.
Qed.
Print Assumptions C236_reader.
Example C236_example :
  ensure_file_list (fun _ => [s_ "b.h5"; s_ "a.h5"]) (FStr (s_ "*.h5")) = Ok [s_ "a.h5"; s_ "b.h5"]
  /\ reader_files (fun _ => [s_ "b.h5"; s_ "a.h5"]) (FStr (s_ "*.h5")) = Ok ([s_ "a.h5"; s_ "b.h5"], s_ "a.h5")
  /\ reader_files (fun _ => []) (FStr (s_ "*.h5")) = Err IndexError.
Proof. repeat split. Qed.

(** * C237 selections *)
Theorem C237_datasets : forall datasets value,
  (set_dataset_sel datasets value = Ok value <-> forall n, In n value -> In n datasets) /\
  (set_dataset_sel datasets value = Ok value \/ set_dataset_sel datasets value = Err ValueError).
Proof.
  intros datasets value. unfold set_dataset_sel. destruct (forallb (fun n => mem n datasets) value) eqn:E.
  - split; [|now left]. split; [|reflexivity]. intros _ n Hn. rewrite forallb_forall in E. apply mem_iff. auto.
  - split; [|now right]. split; [discriminate|]. intros H. exfalso. apply not_true_iff_false in E. apply E.
    apply forallb_forall. intros n Hn. apply mem_iff. auto.
Qed.
Print Assumptions C237_datasets.
Theorem C237_time : forall value, (exists p, set_time_sel value = Ok p) <-> length value = 2.
Proof.
  intros value. unfold set_time_sel. destruct value as [|a [|b [|c r]]]; cbn [length]; split; intros H; try discriminate; try (destruct H; discriminate); eauto; lia.
Qed.
Print Assumptions C237_time.
Example C237_example :
  set_dataset_sel [s_ "vis"; s_ "temp"] [s_ "temp"] = Ok [s_ "temp"]
  /\ set_dataset_sel [s_ "vis"; s_ "temp"] [s_ "gain"] = Err ValueError /\ set_time_sel [1%Z] = Err ValueError.
Proof. repeat split. Qed.

(** * C240 bounds out of order *)
Theorem C240_disorder : forall (V : Type) axes disk is_list (first : tod V) rest start stop datasets a l,
  NoDup axes -> In a axes -> dget a (x_index first) = Some l ->
  ~ InOrder (length (whole_index a (first :: rest))) (asked start a) (asked stop a) ->
  snd (concatenate_all axes disk is_list (first :: rest) start stop datasets) = Err ValueError.
Proof.
  intros V axes disk is_list first rest start stop datasets a l HN Ha Hl HO.
  set (files := first :: rest) in *.
  pose proof (real_bounds_ok (V:=V) files axes (as_mapping axes start) (as_mapping axes stop) HN) as RB.
  unfold concatenate_all. change (match files with [] => ?a | _ :: _ => ?b end) with b. unfold files at 1. cbn iota.
  unfold real_bounds. destruct (fold_left _ axes _) as (ms, mt). destruct RB as (RB & _). cbn [snd].
  specialize (RB a Ha). rewrite !bget_as, total_whole in RB by exact Ha.
  assert (E : init_index axes (fun a => znum (bget a ms)) (fun a => znum (bget a mt)) (x_index first) = Err ValueError).
  { revert RB HO. generalize (length (whole_index a files)). intros nt RB HO.
    unfold init_index. clear -Hl RB HO Ha. induction (x_index first) as [|(c, q) r IH]; [discriminate|]. cbn [rmap].
    apply dget_cons in Hl. destruct Hl as [(-> & _)|Hl].
    - rewrite (proj2 (mem_iff c axes) Ha). unfold start_stop_inds in RB. injection RB as R1 R2. rewrite R1, R2. cbn [znum].
      unfold np_empty. unfold InOrder, resolve in HO.
      match goal with |- context [(?z <? 0)%Z] => assert (Hz : (z <? 0)%Z = true) end.
      { apply Z.ltb_lt. destruct (asked start c) as [i|], (asked stop c) as [j|];
        repeat match goal with |- context [(?u <? ?v)%Z] => destruct (Z.ltb_spec u v) | H : context [(?u <? ?v)%Z] |- _ => destruct (Z.ltb_spec u v)
          | |- context [(?u >? ?v)%Z] => destruct (Z.gtb_spec u v) end; lia. }
      now rewrite Hz.
    - rewrite (IH Hl). destruct (mem c axes); [|reflexivity]. unfold np_empty. destruct (_ <? 0)%Z; reflexivity. }
  now rewrite E.
Qed.
Print Assumptions C240_disorder.
Example C240_example :
  snd (concatenate_all t_axes false true [t_first; t_second] (Scalar (Some 4%Z)) (Scalar (Some 2%Z)) None) = Err ValueError.
Proof. vm_compute. reflexivity. Qed.
