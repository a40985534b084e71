(** Properties of containers: C56, C57, C91, C92. *)
From Coq Require Import String.
From Coq Require Import List Ascii Bool Arith ZArith Lia Sorting.Sorted Permutation.
From Verif Require Import PyBase PyStr MemModel MemProofs2 AttrModel AttrProofs CopyProofs ContModel ContSpec ContProofs ContProofs2.
Import ListNotations.
Open Scope list_scope.
Open Scope nat_scope.

(** * C56: inheritance *)
Theorem C56_names : forall (D : Type) (env : nat -> @cls D) mro c n, mro_ok mro -> specs_ok env ->
  (In n (map fst (class_spec env mro c)) <-> exists k v, In k (mro c) /\ declares env k n v).
Proof. intros D env mro c n M S. exact (class_spec_names env mro M S c n). Qed.
Print Assumptions C56_names.

(** The order is that of the names, and nothing depends on the order of declaration. *)
Theorem C56_order : forall (D : Type) (env env' : nat -> @cls D) mro c, specs_ok env -> reordered env env' ->
  listed (map fst (class_spec env mro c)) /\ class_spec env mro c = class_spec env' mro c.
Proof. intros D env env' mro c S R. split; [now apply class_spec_listed|now apply reordered_spec]. Qed.
Print Assumptions C56_order.

(** Missing for the full statement: a class without its own [_dataset_spec]
    in a diamond of classes; see the refutation. *)
Theorem C56_most_derived_partial : forall (D : Type) (env : nat -> @cls D) mro c n v, mro_ok mro -> specs_ok env ->
  (forall k, In k (mro c) -> c_spec (env k) = None -> exists p, mro c = p ++ mro k) ->
  (dget n (class_spec env mro c) = Some v <-> most_derived env (mro c) n v).
Proof.
  intros D env mro c n v M S R. rewrite dget_class_spec by exact S. rewrite (resolve_same env mro M c R n [] (mro c) eq_refl). split.
  - now apply first_decl_own.
  - now apply most_derived_own.
Qed.
Print Assumptions C56_most_derived_partial.

(** [A] declares [d]; [B1(A)] declares nothing; [B2(A)] declares [d] again;
    [C(B1, B2)] declares [e].  Then [C] has [A]'s [d]: looking the attribute up
    on [B1] finds [A]'s dictionary, which overwrites that of [B2]. *)
Definition diamond_env (k : nat) : @cls nat :=
  match k with
  | 0 => mkcls (Some [(s_ "d", 10)]) None
  | 1 => mkcls None None
  | 2 => mkcls (Some [(s_ "d", 20)]) None
  | 3 => mkcls (Some [(s_ "e", 30)]) None
  | _ => mkcls None None
  end.
Definition diamond_mro (k : nat) : list nat :=
  match k with 1 => [1; 0] | 2 => [2; 0] | 3 => [3; 1; 2; 0] | k => [k] end.
Theorem C56_most_derived_refuted : exists (env : nat -> @cls nat) mro c n v, mro_ok mro /\ specs_ok env /\
  most_derived env (mro c) n v /\ dget n (class_spec env mro c) <> Some v.
Proof.
  exists diamond_env, diamond_mro, 3, (s_ "d"), 20. split; [|split; [|split]].
  - intros c. do 4 (destruct c as [|c]; [cbn; repeat split; try (eexists; reflexivity);
      try (repeat constructor; cbn; intuition discriminate);
      intros k H x Hx; repeat (destruct H as [<-|H]; [cbn in *; intuition|]); destruct H|]).
    cbn. repeat split; [eexists; reflexivity|repeat constructor; auto|]. intros k [<-|[]]. cbn. apply incl_refl.
  - intros c d H. do 4 (destruct c as [|c]; [cbn in H; try discriminate; injection H as <-; repeat constructor; cbn; auto|]). discriminate.
  - exists [3; 1], 2, [0]. split; [reflexivity|]. split; [exists [(s_ "d", 20)]; cbn; auto|].
    intros k v [<-|[<-|[]]] (d & H & I); cbn in H; [|discriminate]. injection H as <-. destruct I as [I|[]]. discriminate.
  - vm_compute. discriminate.
Qed.
Print Assumptions C56_most_derived_refuted.

(** What the instance declares comes on top. *)
Theorem C56_instance : forall (D : Type) (env : nat -> @cls D) mro c inst n, specs_ok env -> NoDup (map fst inst) ->
  listed (map fst (dataset_spec env mro c inst)) /\
  (forall v, In (n, v) inst -> dget n (dataset_spec env mro c inst) = Some v) /\
  (~ In n (map fst inst) -> dget n (dataset_spec env mro c inst) = dget n (class_spec env mro c)).
Proof.
  intros D env mro c inst n S N.
  assert (K : NoDup (map fst (update (class_spec env mro c) inst))).
  { apply update_nodup. apply listed_nodup. now apply class_spec_listed. }
  unfold dataset_spec. split; [rewrite sort_dict_keys; now apply sort_listed|].
  rewrite dget_sort_dict, dget_update by auto. split.
  - intros v I. now rewrite (dget_nodup _ inst n v N I).
  - intros H. now rewrite (proj2 (dget_none n inst) H).
Qed.
Print Assumptions C56_instance.

Theorem C56_axes : forall (D : Type) (env : nat -> @cls D) mro c inst, mro_ok mro ->
  listed (class_axes env mro c) /\ listed (axes env mro c inst) /\
  (forall a, In a (class_axes env mro c) <-> exists k, In k (mro c) /\ has_axis env k a) /\
  (forall a, In a (axes env mro c inst) <-> In a inst \/ exists k, In k (mro c) /\ has_axis env k a).
Proof.
  intros D env mro c inst M. split; [apply class_axes_listed|]. split; [apply axes_listed|]. split.
  - intros a. now apply class_axes_in.
  - intros a. rewrite axes_in, class_axes_in by exact M. tauto.
Qed.
Print Assumptions C56_axes.

(** The order is a total one, so a list in this order is determined by its names. *)
Theorem C56_order_unique : forall l l', listed l -> listed l' -> (forall x, In x l <-> In x l') -> l = l'.
Proof. exact listed_ext. Qed.
Print Assumptions C56_order_unique.

Definition chain_env (k : nat) : @cls nat :=
  match k with
  | 0 => mkcls (Some []) (Some [])
  | 1 => mkcls (Some [(s_ "vis", 1); (s_ "weight", 2)]) (Some [s_ "time"; s_ "freq"])
  | 2 => mkcls None (Some [s_ "prod"])
  | _ => mkcls (Some [(s_ "weight", 3); (s_ "gain", 4)]) None
  end.
Definition chain_mro (k : nat) : list nat := match k with 1 => [1; 0] | 2 => [2; 1; 0] | 3 => [3; 2; 1; 0] | k => [k] end.
Example C56_example :
  class_spec chain_env chain_mro 3 = [(s_ "gain", 4); (s_ "vis", 1); (s_ "weight", 3)] /\
  class_axes chain_env chain_mro 3 = [s_ "freq"; s_ "prod"; s_ "time"] /\
  axes chain_env chain_mro 3 [s_ "pol"; s_ "freq"] = [s_ "freq"; s_ "pol"; s_ "prod"; s_ "time"] /\
  dataset_spec chain_env chain_mro 3 [(s_ "vis", 9); (s_ "eta", 8)] = [(s_ "eta", 8); (s_ "gain", 4); (s_ "vis", 9); (s_ "weight", 3)].
Proof. vm_compute. auto. Qed.
(** The hypotheses hold of this chain. *)
Example C56_example_ok : mro_ok chain_mro /\ specs_ok chain_env /\
  (forall k, In k (chain_mro 3) -> c_spec (chain_env k) = None -> exists p, chain_mro 3 = p ++ chain_mro k) /\
  most_derived chain_env (chain_mro 3) (s_ "weight") 3.
Proof.
  split; [|split; [|split]].
  - intros c. do 4 (destruct c as [|c]; [cbn; repeat split; try (eexists; reflexivity);
      try (repeat constructor; cbn; intuition discriminate);
      intros k H x Hx; repeat (destruct H as [<-|H]; [cbn in *; intuition|]); destruct H|]).
    cbn. repeat split; [eexists; reflexivity|repeat constructor; auto|]. intros k [<-|[]]. cbn. apply incl_refl.
  - intros c d H. do 3 (destruct c as [|c]; [cbn in H; try discriminate; injection H as <-; cbn; repeat constructor; cbn; intuition discriminate|]).
    cbn in H. injection H as <-. cbn. repeat constructor; cbn; intuition discriminate.
  - intros k [<-|[<-|[<-|[<-|[]]]]] H; try discriminate. exists [3]. reflexivity.
  - exists [], 3, [2; 1; 0]. split; [reflexivity|]. split; [exists [(s_ "weight", 3); (s_ "gain", 4)]; cbn; auto|]. intros ? ? [].
Qed.

(** * C57: selections *)
Theorem C57_selections : forall (S D : Type) (whole : S) (axes_of : D -> list axis) known spec args sels,
  NoDup (map fst args) -> NoDup (map fst spec) -> (forall n a, In n (map fst spec) -> n <> s_ "index_map/" ++ a) ->
  make_selections whole axes_of known spec args = Ok sels ->
  (forall n d, In (n, d) spec -> selected args (axes_of d) ->
     exists l, dget ("/"%char :: n) sels = Some (STuple l) /\ Forall2 (axis_gets whole args) (axes_of d) l) /\
  (forall n d, In (n, d) spec -> ~ selected args (axes_of d) -> dget ("/"%char :: n) sels = None) /\
  (forall a s, In (a, s) args -> dget (s_ "/index_map/" ++ a) sels = Some (SOne s)) /\
  (forall key, In key (map fst sels) -> (exists n d, In (n, d) spec /\ key = "/"%char :: n) \/ (exists a s, In (a, s) args /\ key = s_ "/index_map/" ++ a)).
Proof.
  intros S D whole axes_of known spec args sels Na Ns Nm H. rewrite make_selections_eq in H.
  destruct (forallb _ args); [|discriminate]. injection H as <-.
  assert (KD := data_sels_nodup whole axes_of args spec Ns). assert (KM := map_sels_nodup args Na).
  assert (G : forall n d, In (n, d) spec -> dget ("/"%char :: n) (update (update [] (data_sels whole axes_of args spec)) (map_sels args)) =
     if existsb (is_sel args) (axes_of d) then Some (STuple (map (sel_of whole args) (axes_of d))) else None).
  { intros n d I. rewrite dget_update, dget_map_other by (auto; intros a; apply Nm; exact (in_map fst _ _ I)).
    rewrite dget_update by auto. rewrite (dget_data whole axes_of args spec n d Ns I). destruct (existsb _ _); reflexivity. }
  split; [|split; [|split]].
  - intros n d I Hs. apply (selected_iff args Na) in Hs. exists (map (sel_of whole args) (axes_of d)). rewrite (G n d I), Hs. split; auto. apply sels_get.
  - intros n d I Hs. rewrite (G n d I). destruct (existsb (is_sel args) (axes_of d)) eqn:E; auto. destruct Hs. now apply selected_iff.
  - intros a s I. rewrite dget_update by auto. now rewrite (dget_map_sels args Na a s I).
  - intros key K. apply dget_in in K as [v K]. rewrite dget_update in K by auto.
    destruct (dget key (map_sels args)) as [w|] eqn:E.
    + right. apply dget_elem in E. unfold map_sels in E. apply in_map_iff in E as ([a s] & E & I). injection E as <- <-. exists a, s. auto.
    + left. rewrite dget_update in K by auto. destruct (dget key (data_sels whole axes_of args spec)) as [w|] eqn:F; [|discriminate].
      assert (I : In key (map fst (data_sels whole axes_of args spec))) by (apply dget_in; eauto).
      apply data_sels_keys in I as (n & d & I & -> & _). eauto.
Qed.
Print Assumptions C57_selections.
Theorem C57_unknown_axis : forall (S D : Type) (whole : S) (axes_of : D -> list axis) known spec args,
  (exists a, In a (map fst args) /\ ~ In a known /\ make_selections whole axes_of known spec args = Err RuntimeError) \/
  (incl (map fst args) known /\ exists sels, make_selections whole axes_of known spec args = Ok sels).
Proof.
  intros. rewrite make_selections_eq. destruct (forallb (fun kv => mem_name (fst kv) known) args) eqn:E.
  - right. split; [|eauto]. intros a H. apply in_map_iff in H as (kv & <- & H). rewrite forallb_forall in E. now apply mem_name_in, E.
  - left. assert (X : exists kv, In kv args /\ mem_name (fst kv) known = false).
    { clear -E. induction args as [|kv l IH]; [discriminate|]. cbn [forallb] in E. destruct (mem_name (fst kv) known) eqn:F.
      - destruct (IH E) as (x & I & H). exists x. cbn [In]. auto.
      - exists kv. cbn [In]. auto. }
    destruct X as (kv & I & F). exists (fst kv). split; [now apply in_map|]. split; [|reflexivity].
    intros K. apply mem_name_in in K. congruence.
Qed.
Print Assumptions C57_unknown_axis.
(** Selections are tuples of start and end here. *)
Example C57_example : let spec := [(s_ "vis", [AName (s_ "freq"); AName (s_ "prod"); ALen 2]); (s_ "time_s", [AName (s_ "time")]); (s_ "gain", [AName (s_ "freq")])] in
  make_selections (0, 99) (fun d => d) [s_ "freq"; s_ "prod"; s_ "time"] spec [(s_ "prod", (3, 5))] =
    Ok [(s_ "/vis", STuple [(0, 99); (3, 5); (0, 99)]); (s_ "/index_map/prod", SOne (3, 5))] /\
  make_selections (0, 99) (fun d => d) [s_ "freq"; s_ "prod"; s_ "time"] spec [(s_ "pol", (3, 5))] = Err RuntimeError.
Proof. vm_compute. auto. Qed.

(** * C91: tables *)
Theorem C91_tables : forall env mro tables c env' d ax n t, mro_ok mro -> specs_ok env ->
  table_init env mro tables c = (env', d, ax) ->
  In (n, t) (table_spec mro tables c) ->
  exists a, (t_axis t = Some a \/ (t_axis t = None /\ a = n ++ s_ "_index")) /\
    dget n (dataset_spec env' mro c d) = Some (mkspec [AName a] a
      (match t_init t with Some b => b | None => true end) (match t_distributed t with Some b => b | None => false end)) /\
    In a (axes env' mro c ax).
Proof.
  intros env mro tables c env' d ax n t M S H I. destruct (table_init_eq env mro tables c env' d ax H) as (Ed & Ea & Ee).
  exists (table_axis n t). split; [unfold table_axis; destruct (t_axis t); auto|].
  assert (ND : NoDup (map fst d)).
  { rewrite Ed. apply update_nodup. unfold own_spec. destruct (c_spec (env c)) as [e|] eqn:E; [eauto|constructor]. }
  assert (S' : specs_ok env').
  { intros k e K. destruct (Ee k) as [_ E]. rewrite K in E. destruct (k =? c); [|eauto].
    destruct (c_spec (env c)); [|discriminate]. injection E as ->. exact ND. }
  assert (G : dget n d = Some (table_dataset n t)).
  { rewrite Ed, dget_update by apply tables_map_nodup. rewrite dget_tables.
    now rewrite (dget_nodup _ _ n t (table_spec_nodup mro tables c) I). }
  split.
  - unfold dataset_spec. rewrite dget_sort_dict by (apply update_nodup, listed_nodup; now apply class_spec_listed).
    rewrite dget_update by exact ND. now rewrite G.
  - apply axes_in. right. apply Ea. right. eauto.
Qed.
Print Assumptions C91_tables.
(** Datasets that are not tables keep the specification of the classes. *)
Theorem C91_others : forall env mro tables c env' d ax n, mro_ok mro -> specs_ok env ->
  table_init env mro tables c = (env', d, ax) ->
  (forall k, In k (mro c) -> c_spec (env k) = None -> exists p, mro c = p ++ mro k) ->
  ~ In n (map fst (table_spec mro tables c)) ->
  dget n (dataset_spec env' mro c d) = dget n (class_spec env mro c).
Proof.
  intros env mro tables c env' d ax n M S H R I. destruct (table_init_eq env mro tables c env' d ax H) as (Ed & Ea & Ee).
  assert (ND : NoDup (map fst d)).
  { rewrite Ed. apply update_nodup. unfold own_spec. destruct (c_spec (env c)) as [e|] eqn:E; [eauto|constructor]. }
  assert (S' : specs_ok env').
  { intros k e K. destruct (Ee k) as [_ E]. rewrite K in E. destruct (k =? c); [|eauto].
    destruct (c_spec (env c)); [|discriminate]. injection E as ->. exact ND. }
  assert (G : dget n d = dget n (own_spec env c)).
  { rewrite Ed, dget_update by apply tables_map_nodup. rewrite dget_tables. now rewrite (proj2 (dget_none n _) I). }
  assert (R' : forall k, In k (mro c) -> c_spec (env' k) = None -> exists p, mro c = p ++ mro k).
  { intros k Hk Hn. apply R; auto. destruct (Ee k) as [_ E]. rewrite Hn in E. destruct (Nat.eqb_spec k c) as [->|]; [|congruence].
    destruct (c_spec (env c)); [discriminate|reflexivity]. }
  unfold dataset_spec. rewrite dget_sort_dict by (apply update_nodup, listed_nodup; now apply class_spec_listed).
  rewrite dget_update, G by exact ND. rewrite !dget_class_spec by auto.
  rewrite (resolve_same env mro M c R n [] (mro c) eq_refl), (resolve_same env' mro M c R' n [] (mro c) eq_refl).
  destruct (M c) as ([r Er] & Nr & _). rewrite Er in *. inversion Nr as [|? ? Hc Hr]; subst. cbn [first_decl].
  assert (T : first_decl (fun k => c_spec (env' k)) n r = first_decl (fun k => c_spec (env k)) n r).
  { clear -Ee Hc. induction r as [|k r IH]; cbn [first_decl]; [reflexivity|]. destruct (Ee k) as [_ E].
    destruct (Nat.eqb_spec k c) as [->|]; [destruct Hc; now left|]. rewrite E, IH; auto. intros K. apply Hc. now right. }
  rewrite T. clear T. destruct (Ee c) as [_ E]. rewrite Nat.eqb_refl in E. rewrite E. unfold own_spec in *.
  destruct (c_spec (env c)) as [e|]; cbn [option_map dget]; [|reflexivity].
  rewrite G. destruct (dget n e); reflexivity.
Qed.
Print Assumptions C91_others.

(** Creating a container changes the specification of its class. *)
Definition tab_env (k : nat) : @cls dspec := mkcls (Some []) None.
Definition tab_mro (k : nat) : list nat := [k].
Definition tab_tables (k : nat) : option (list (str * tspec)) := Some [(s_ "quasars", mktab (Some (s_ "id")) None None)].
Theorem C91_class_unchanged_refuted : exists env mro tables c env' d ax, mro_ok mro /\ specs_ok env /\
  table_init env mro tables c = (env', d, ax) /\ class_spec env mro c = [] /\
  class_spec env' mro c = [(s_ "quasars", mkspec [AName (s_ "id")] (s_ "id") true false)].
Proof.
  exists tab_env, tab_mro, tab_tables, 0. do 3 eexists. split; [|split; [|split; [reflexivity|split; vm_compute; reflexivity]]].
  - intros c. repeat split; [eexists; reflexivity|repeat constructor; auto|]. intros k [<-|[]]. apply incl_refl.
  - intros c d H. injection H as <-. constructor.
Qed.
Print Assumptions C91_class_unchanged_refuted.
(** It does not when the class has no [_dataset_spec] of its own. *)
Theorem C91_class_unchanged : forall env mro tables c env' d ax, c_spec (env c) = None ->
  table_init env mro tables c = (env', d, ax) -> forall k, c_spec (env' k) = c_spec (env k) /\ c_axes (env' k) = c_axes (env k).
Proof.
  intros env mro tables c env' d ax E H k. destruct (table_init_eq env mro tables c env' d ax H) as (_ & _ & Ee).
  destruct (Ee k) as [Ha Hs]. split; auto. rewrite Hs. destruct (Nat.eqb_spec k c) as [->|]; [now rewrite E|reflexivity].
Qed.
Print Assumptions C91_class_unchanged.
(** The axes of tables are known to the instance only: the class rejects
    selections on them (reading a file with a selection goes through the class). *)
Theorem C91_select_refuted : exists env mro tables c env' d ax a (s : nat), table_init env mro tables c = (env', d, ax) /\
  In a (axes env' mro c ax) /\
  make_selections 0 d_axes (class_axes env' mro c) (class_spec env' mro c) [(a, s)] = Err RuntimeError.
Proof.
  exists tab_env, tab_mro, tab_tables, 0. do 3 eexists. exists (s_ "id"), 1. split; [reflexivity|].
  split; [vm_compute; auto|vm_compute; reflexivity].
Qed.
Print Assumptions C91_select_refuted.
Example C91_example : let '(env', d, ax) := table_init (fun k => match k with 0 => mkcls (Some [(s_ "flux", mkspec [ALen 3] (s_ "f") false true)]) (Some [s_ "f"]) | _ => mkcls None None end)
     (fun k => match k with 1 => [1; 0] | k => [k] end)
     (fun k => match k with 0 => Some [(s_ "quasars", mktab None None None)] | 1 => Some [(s_ "mask", mktab (Some (s_ "quasars_index")) (Some false) (Some true))] | _ => None end) 1 in
  dataset_spec env' (fun k => match k with 1 => [1; 0] | k => [k] end) 1 d =
    [(s_ "flux", mkspec [ALen 3] (s_ "f") false true);
     (s_ "mask", mkspec [AName (s_ "quasars_index")] (s_ "quasars_index") false true);
     (s_ "quasars", mkspec [AName (s_ "quasars_index")] (s_ "quasars_index") true false)] /\
  ax = [s_ "quasars_index"].
Proof. vm_compute. auto. Qed.

(** * C92: redistribution *)
(** Every distributed dataset of the tree is visited exactly once, nothing
    else is, and the axis depends on the dataset and the request alone. *)
Theorem C92_visits : forall root dist_axis, exists r, container_redistribute root dist_axis = Some r /\
  Permutation (map fst r) (flat_map (fun y => dist_datasets (fst y) (snd y)) root) /\
  (forall name x o, In (name, x, o) r -> exists n labels, x = NDist n labels /\ o = pick_axis n labels dist_axis).
Proof.
  intros root da. unfold container_redistribute. destruct (redist_loop_ok (node_size (NGroup root)) da root) as (r & E & P & F).
  { cbn [node_size]. fold (sizes root). lia. }
  exists r. split; auto. split; auto. intros name x o I. rewrite Forall_forall in F. exact (F _ I).
Qed.
Print Assumptions C92_visits.
(** The axis is the one named by the first entry that names one.  Missing:
    integers below minus the number of dimensions. *)
Theorem C92_axis_partial : forall n labels dist_axis,
  (forall z, In (XInt z) dist_axis -> (- Z.of_nat n <= z)%Z) ->
  exists o, pick_axis n labels dist_axis = option_map Z.of_nat o /\ first_axis n labels dist_axis o.
Proof.
  intros n labels l H. apply pick_first. apply Forall_forall. intros [s|z] I; cbn; auto.
Qed.
Print Assumptions C92_axis_partial.
(** [-3] names no axis of a dataset with two, and is not passed over. *)
Theorem C92_axis_refuted : exists n labels dist_axis i, first_axis n labels dist_axis (Some i) /\
  pick_axis n labels dist_axis = Some (-1)%Z.
Proof.
  exists 2, None, [XInt (-3); XInt 0], 0. split; [|reflexivity]. apply F_skip.
  - intros i H. inversion H; subst; lia.
  - apply F_here. change 0%Z with (Z.of_nat 0). apply N_pos. lia.
Qed.
Print Assumptions C92_axis_refuted.
(** The axis picked is always below the number of dimensions. *)
Theorem C92_bound : forall n labels dist_axis z, pick_axis n labels dist_axis = Some z -> (z < Z.of_nat n)%Z.
Proof.
  induction dist_axis as [|a l IH]; intros z H; cbn [pick_axis] in H; [discriminate|].
  destruct (match a with XName s => _ | XInt z => _ end) as [y|]; auto.
  destruct (Z.leb_spec (Z.of_nat n) y); auto. injection H as <-. lia.
Qed.
Print Assumptions C92_bound.
Example C92_example : container_redistribute
   [(s_ "index_map", NGroup [(s_ "freq", NOther)]);
    (s_ "vis", NDist 3 (Some [s_ "freq"; s_ "prod"; s_ "time"]));
    (s_ "flags", NGroup [(s_ "w", NDist 2 None); (s_ "g", NDist 2 (Some [s_ "prod"; s_ "freq"]))])]
   [XName (s_ "time"); XName (s_ "freq"); XInt (-1)] =
  Some [(s_ "g", NDist 2 (Some [s_ "prod"; s_ "freq"]), Some 1%Z); (s_ "w", NDist 2 None, Some 1%Z);
        (s_ "vis", NDist 3 (Some [s_ "freq"; s_ "prod"; s_ "time"]), Some 2%Z)].
Proof. vm_compute. auto. Qed.
