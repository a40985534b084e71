(** Properties of groups that may be on disk and of what containers allow
    (C203-C210). *)
From Coq Require Import String.
From Coq Require Import List Ascii Bool Arith ZArith Lia.
From Verif Require Import PyBase PyStr MemModel MemSpec MdgModel MdgSpec.
From Verif Require MemProofs MemProofs2 MdgProofs.
Import ListNotations.
Open Scope list_scope.
Open Scope nat_scope.

(** C203.  Iterating over a group shows exactly the entries that the class
    allows, once; length and membership agree with it. *)
Theorem C203_iteration : forall D V r (t : node D V) self a kids, absolute self ->
  crawl t (words self) = Ok (Grp a kids) ->
  Forall Name (map fst kids) -> NoDup (map fst kids) ->
  exists l, miter r t self = Ok l /\ mlen r t self = Ok (length l) /\ NoDup l
  /\ (forall k, In k l <-> exists m, dget k kids = Some m /\ Visible r (words self ++ [k]) m)
  /\ forall k, Name k -> exists b, mcontains r t self k = Ok b /\ (b = true <-> In k l).
Proof. intros D V. exact MdgProofs.iter_ok. Qed.
Print Assumptions C203_iteration.

Definition ex_tree : node nat nat :=
  Grp [] [(s_ "index_map", Grp [(s_ "unit", 1)] [(s_ "freq", Dset 5)]); (s_ "vis", Dset 1);
          (s_ "history", Grp [] []); (s_ "weight", Dset 2)].
Example C203_example :
  miter container_rules ex_tree (s_ "/") = Ok [s_ "vis"; s_ "weight"]
  /\ miter base_rules ex_tree (s_ "/") = Ok [s_ "index_map"; s_ "vis"; s_ "history"; s_ "weight"]
  /\ mlen container_rules ex_tree (s_ "/") = Ok 2
  /\ mcontains container_rules ex_tree (s_ "/") (s_ "index_map") = Ok false
  /\ mcontains container_rules ex_tree (s_ "/") (s_ "vis") = Ok true.
Proof. repeat split. Qed.

(** C204.  A container shows exactly the datasets of its root group. *)
Theorem C204_datasets : forall D V a (kids : list (str * node D V)),
  Forall Name (map fst kids) -> NoDup (map fst kids) ->
  exists l, miter container_rules (Grp a kids) [slash] = Ok l
  /\ forall k, In k l <-> exists d, dget k kids = Some (Dset d).
Proof.
  intros D V a kids G N.
  destruct (MdgProofs.iter_ok container_rules (Grp a kids) [slash] a kids) as (l & E & _ & _ & H & _); auto using MdgProofs.abs_slash.
  exists l. split; [exact E|]. intro k. rewrite H. split.
  - intros ([d|x y] & E1 & H1); [eauto|discriminate].
  - intros (d & E1). exists (Dset d). split; [exact E1|]. cbn [Visible].
    assert (Hk : Name k). { rewrite Forall_forall in G. apply G. exact (MdgProofs.key_dget _ _ _ _ E1). }
    change (canonical (words [slash] ++ [k])) with (slash :: k). cbn [dataset_allowed container_rules].
    rewrite MdgProofs.split_top by apply Hk. reflexivity.
Qed.
Print Assumptions C204_datasets.

(** What is below, and groups, cannot be looked up. *)
Theorem C204_hidden : forall D V a (kids : list (str * node D V)) name p n,
  mgetitem container_rules (Grp a kids) [slash] name = Ok (p, n) ->
  exists k d, Name k /\ p = slash :: k /\ n = Dset d /\ dget k kids = Some (Dset d).
Proof.
  intros D V a kids name p n H. rewrite MdgProofs.mget_eq in H by apply MdgProofs.abs_slash.
  destruct (crawl (Grp a kids) (target [slash] name)) as [m|e] eqn:E; [|discriminate]. cbn [rbind] in H.
  destruct m as [d|x y]; [|discriminate]. cbn [name_allowed dataset_allowed container_rules] in H.
  destruct (seqb (fst (path_split (canonical (target [slash] name)))) [slash]) eqn:S; [|discriminate].
  injection H as <- <-. apply seqb_eq in S.
  assert (G : Forall MemProofs.good (target [slash] name)) by apply MemProofs2.target_good, MdgProofs.abs_slash.
  apply MdgProofs.canonical_top in S; [|exact G]. destruct S as [S|(k & S)]; rewrite S in *; [discriminate|].
  exists k, d. inversion G; subst. split; [assumption|]. split; [reflexivity|]. split; [reflexivity|].
  cbn [crawl] in E. destruct (dget k kids); [now injection E as ->|discriminate].
Qed.
Print Assumptions C204_hidden.

Example C204_example :
  mgetitem container_rules ex_tree (s_ "/") (s_ "index_map/freq") = Err KeyError
  /\ mgetitem base_rules ex_tree (s_ "/") (s_ "index_map/freq") = Ok (s_ "/index_map/freq", Dset 5)
  /\ mgetitem container_rules ex_tree (s_ "/") (s_ "//vis/") = Ok (s_ "/vis", Dset 1).
Proof. repeat split. Qed.

(** C205.  Names that the class refuses raise and change nothing ... *)
Theorem C205_refused : forall D V r (t : node D V) self name d,
  (dataset_allowed r (path_join self name) = false -> mcreate_dataset r t self name d = (t, Err ValueError))
  /\ (group_allowed r (path_join self name) = false -> mcreate_group r t self name = (t, Err ValueError))
  /\ (absolute self -> forall m, crawl t (target self name) = Ok m -> ~ Visible r (target self name) m ->
      mgetitem r t self name = Err KeyError /\ mdelitem r t self name = (t, Err KeyError)).
Proof.
  intros D V r t self name d. split; [|split].
  - intro H. unfold mcreate_dataset. now rewrite H.
  - intro H. unfold mcreate_group. now rewrite H.
  - intros A m E H.
    assert (G : mgetitem r t self name = Err KeyError).
    { rewrite MdgProofs.mget_eq, E by assumption. cbn [rbind].
      destruct (name_allowed r (canonical (target self name)) m) eqn:N; [|reflexivity].
      apply MdgProofs.allowed_iff in N. contradiction. }
    split; [exact G|]. unfold mdelitem, mcontains. now rewrite G.
Qed.
Print Assumptions C205_refused.
(** ... and a container accepts for datasets exactly names in the root, and
    none for groups. *)
Theorem C205_container : forall name,
  (dataset_allowed container_rules (path_join [slash] name) = true <-> exists k, Toplevel name k)
  /\ group_allowed container_rules (path_join [slash] name) = false.
Proof. intro name. split; [apply MdgProofs.accepts|reflexivity]. Qed.
Print Assumptions C205_container.

(** A required object of the other kind raises and changes nothing. *)
Theorem C205_wrong_kind : forall D V r (t : node D V) self name p n, mgetitem r t self name = Ok (p, n) ->
  (forall a kids, n <> Grp a kids) -> mrequire_group r t self name = (t, Err TypeError).
Proof. intros D V r t self name p n E N. unfold mrequire_group. rewrite E. destruct n as [d|a kids]; [reflexivity|]. now contradiction (N a kids). Qed.
Theorem C205_wrong_kind_dataset : forall D V r (t : node D V) self name p n d, mgetitem r t self name = Ok (p, n) ->
  (forall d', n <> Dset d') -> mrequire_dataset r t self name d = (t, Err TypeError).
Proof. intros D V r t self name p n d E N. unfold mrequire_dataset. rewrite E. destruct n as [d'|a kids]; [|reflexivity]. now contradiction (N d'). Qed.
(** [MemDiskGroup] itself accepts all names. *)
Theorem C205_base : forall name, dataset_allowed base_rules name = true /\ group_allowed base_rules name = true.
Proof. intro name. split; reflexivity. Qed.
Print Assumptions C205_wrong_kind.
Print Assumptions C205_wrong_kind_dataset.
Print Assumptions C205_base.

Example C205_example :
  mcreate_dataset container_rules ex_tree (s_ "/") (s_ "index_map/time") 9 = (ex_tree, Err ValueError)
  /\ mcreate_dataset container_rules ex_tree (s_ "/") (s_ "//gain") 9 = (ex_tree, Err ValueError)
  /\ mcreate_group container_rules ex_tree (s_ "/") (s_ "extra") = (ex_tree, Err ValueError)
  /\ mdelitem container_rules ex_tree (s_ "/") (s_ "history") = (ex_tree, Err KeyError).
Proof. repeat split. Qed.

(** C206.  A dataset created in a container is found under its name, and no
    other entry changes. *)
Theorem C206_created : forall D V a (kids : list (str * node D V)) name k d, Toplevel name k -> k <> [] ->
  exists t, mcreate_dataset container_rules (Grp a kids) [slash] name d = (t, Ok (slash :: k, Dset d))
  /\ mgetitem container_rules t [slash] name = Ok (slash :: k, Dset d)
  /\ forall k', k' <> k -> crawl t [k'] = crawl (Grp a kids) [k'].
Proof. intros D V. exact MdgProofs.created_ok. Qed.
Print Assumptions C206_created.

Example C206_example :
  mcreate_dataset container_rules ex_tree (s_ "/") (s_ "/gain") 9
  = (match ex_tree with Grp a kids => Grp a (kids ++ [(s_ "gain", Dset 9)]) | t => t end, Ok (s_ "/gain", Dset 9)).
Proof. reflexivity. Qed.

(** C207.  False: every dataset that a container lets be created is found.  An
    empty name is accepted, and the dataset cannot be reached. *)
Theorem C207_refuted : exists (t t' : node nat nat) name x d,
  mcreate_dataset container_rules t [slash] name d = (t', Ok x)
  /\ t' <> t /\ mgetitem container_rules t' [slash] name = Err KeyError
  /\ miter container_rules t' [slash] = Ok [].
Proof.
  exists new_root. eexists. exists (s_ ""). eexists. exists 7. split; [reflexivity|].
  split; [discriminate|]. split; reflexivity.
Qed.
Print Assumptions C207_refuted.

(** C208.  False: the groups of a container are not changed by calls on the
    container.  A dataset of the same name replaces the group ... *)
Theorem C208_create_refuted : exists (t t' : node nat nat) name d x g kids,
  mcreate_dataset container_rules t [slash] name d = (t', Ok x)
  /\ crawl t [name] = Ok (Grp g kids) /\ kids <> [] /\ crawl t' [name] = Ok (Dset d).
Proof.
  exists ex_tree. eexists. exists (s_ "index_map"), 9. eexists _, _, _.
  split; [reflexivity|]. split; [reflexivity|]. split; [discriminate|reflexivity].
Qed.
Print Assumptions C208_create_refuted.
(** ... also if it is only required. *)
Theorem C208_require_refuted : exists (t t' : node nat nat) name d x g kids,
  mrequire_dataset container_rules t [slash] name d = (t', Ok x)
  /\ crawl t [name] = Ok (Grp g kids) /\ kids <> [] /\ crawl t' [name] = Ok (Dset d).
Proof.
  exists ex_tree. eexists. exists (s_ "index_map"), 9. eexists _, _, _.
  split; [reflexivity|]. split; [reflexivity|]. split; [discriminate|reflexivity].
Qed.
Print Assumptions C208_require_refuted.
(** Proved: nothing else changes them, in any history of calls.  (Missing: calls
    that create datasets of their names.) *)
Theorem C208_partial : forall D V (cs : list (call D)) a kids k (g : node D V), Forall on_root cs -> Forall (Spares k) cs ->
  dget k kids = Some g -> (exists b l, g = Grp b l) ->
  exists kids', fst (mrun_calls container_rules (Grp a kids) cs) = Grp a kids' /\ dget k kids' = Some g.
Proof. intros D V. exact MdgProofs.protected. Qed.
Print Assumptions C208_partial.

Example C208_example :
  let cs := [CreateDataset (s_ "/") (s_ "gain") 9; Delete (s_ "/") (s_ "index_map"); RequireGroup (s_ "/") (s_ "index_map");
             Delete (s_ "/") (s_ "//vis"); RequireDataset (s_ "/") (s_ "index_map/freq") 3; Delete (s_ "/") (s_ "weight/")] in
  mrun_calls container_rules ex_tree cs
  = (Grp [] [(s_ "index_map", Grp [(s_ "unit", 1)] [(s_ "freq", Dset 5)]); (s_ "history", Grp [] []); (s_ "weight", Dset 2); (s_ "gain", Dset 9)],
     [None; Some KeyError; Some ValueError; None; Some ValueError; Some TypeError]).
Proof. reflexivity. Qed.

(** C209.  False: [group_name_allowed] restricts which groups are created. *)
Theorem C209_refuted : exists (r : rules) (t t' : node nat nat) name d x g,
  (forall p, group_allowed r p = false) /\ mcreate_dataset r t [slash] name d = (t', Ok x)
  /\ crawl t [g] = Err KeyError /\ exists a kids, crawl t' [g] = Ok (Grp a kids).
Proof.
  exists (mkrules (fun _ => false) (fun _ => true)), new_root. eexists. exists (s_ "g/x"), 7. eexists. exists (s_ "g").
  split; [reflexivity|]. split; [reflexivity|]. split; [reflexivity|]. eexists _, _. reflexivity.
Qed.
Print Assumptions C209_refuted.

(** C210.  False: the group [create_group] returns is the one found under its
    name: its name is not brought into the usual form. *)
Theorem C210_refuted : exists (t t' : node nat nat) name p q n,
  mcreate_group base_rules t [slash] name = (t', Ok p) /\ mgetitem base_rules t' [slash] name = Ok (q, n) /\ p <> q.
Proof.
  exists new_root. eexists. exists (s_ "a//b"). eexists _, _, _.
  split; [reflexivity|]. split; [reflexivity|]. discriminate.
Qed.
Print Assumptions C210_refuted.
(** Proved: it is for names in that form.  (Missing: others.) *)
Theorem C210_partial : forall D V r (t t' : node D V) self name p, absolute self ->
  path_join self name = canonical (target self name) -> group_allowed r (path_join self name) = true ->
  (exists a kids, t = Grp a kids) ->
  mcreate_group r t self name = (t', Ok p) ->
  exists n, mgetitem r t' self name = Ok (p, n).
Proof.
  intros D V r t t' self name p A C G T H. unfold mcreate_group in H. rewrite G in H.
  pose proof (MemProofs2.create_group_ok t [slash] (path_join self name) MdgProofs.abs_slash T) as X.
  destruct (create_group t [slash] (path_join self name)) as [t1 [x|e]] eqn:E; [|discriminate].
  cbn [rbind] in H. injection H as <- <-. cbv zeta in X. destruct X as (_ & X1 & X2 & _).
  rewrite MemProofs.target_absolute, MemProofs.words_path_join in X1, X2 by (try apply MemProofs.path_join_absolute; assumption).
  cbn [outcome] in X1. specialize (X2 (target self name)).
  unfold s_create_group in X1, X2. destruct (MemProofs2.abstract t (target self name)) eqn:E1; [discriminate|].
  destruct (blocked (MemProofs2.abstract t) (target self name)); [discriminate|].
  cbn [fst] in X2. unfold with_groups in X2. rewrite MemProofs2.prefix_refl, E1 in X2.
  destruct (MemProofs2.abstract_group _ _ X2) as (a & kids & E2).
  exists (Grp a kids). rewrite MdgProofs.mget_eq, E2 by assumption. cbn [rbind name_allowed].
  rewrite <- C, G. reflexivity.
Qed.
Print Assumptions C210_partial.

Example C210_example : exists t : node nat nat,
  mcreate_group base_rules ex_tree (s_ "/history") (s_ "a/b") = (t, Ok (s_ "/history/a/b"))
  /\ mgetitem base_rules t (s_ "/history") (s_ "a/b") = Ok (s_ "/history/a/b", Grp [] []).
Proof. eexists. split; reflexivity. Qed.
