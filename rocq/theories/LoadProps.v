(** C174-C183: from a configuration to a pipeline. *)
From Coq Require Import String.
From Coq Require Import List Ascii Bool Arith ZArith Lia.
From Verif Require Import PyBase PyStr MemModel MemSpec MemProofs MemProofs2 LoadModel LoadSpec LoadProofs.
Import ListNotations.
Open Scope list_scope.
Open Scope nat_scope.

(** ** C174 *)

(** The part before the last dot names the module, the part after it the class. *)
Theorem C174_dotted : forall w m c md k, m <> [] -> ~ In dot c -> (forall r, m <> dot :: r) ->
  w_local w (m ++ dot :: c) = None -> w_module w m = Some md -> m_attr md c = Some k ->
  find_class w (YStr (m ++ dot :: c)) = Good k.
Proof.
  intros w m c md k NE N ND L M A. unfold find_class. rewrite L, import_class_dotted by assumption.
  unfold import_module. replace (startswith [dot] m) with false.
  - rewrite M. cbn [lbind]. now rewrite A.
  - destruct m as [|x m]; [reflexivity|]. cbn. destruct (ceqb dot x) eqn:E; [|reflexivity].
    apply ceqb_eq in E. subst. now destruct (ND m).
Qed.
Print Assumptions C174_dotted.

(** Local classes come first, under any name. *)
Theorem C174_local : forall w s k, w_local w s = Some k -> find_class w (YStr s) = Good k.
Proof. intros w s k H. unfold find_class. now rewrite H. Qed.
Print Assumptions C174_local.

(** Nothing else is ever loaded for a name with a dot. *)
Theorem C174_only : forall w m c k, m <> [] -> ~ In dot c -> find_class w (YStr (m ++ dot :: c)) = Good k ->
  w_local w (m ++ dot :: c) = Some k \/
  w_local w (m ++ dot :: c) = None /\ exists md, w_module w m = Some md /\ m_attr md c = Some k.
Proof.
  intros w m c k NE N. unfold find_class. destruct (w_local w (m ++ dot :: c)); [left; congruence|].
  rewrite import_class_dotted by assumption. unfold import_module.
  destruct (startswith [dot] m); [discriminate|]. destruct (w_module w m) as [md|]; [|discriminate].
  cbn [lbind]. destruct (m_attr md c) as [k'|] eqn:E; [|discriminate]. intros H. injection H as ->.
  right. split; [reflexivity|]. now exists md.
Qed.
Print Assumptions C174_only.

Definition example_world : world :=
  mkworld (fun n => if seqb n (s_ "a.b") then Some (mkmodule (fun c => if seqb c (s_ "C") then Some 7 else None) (Some (s_ "1.0")))
                    else if seqb n (s_ "plain") then Some (mkmodule (fun _ => None) None) else None)
          (fun n => if seqb n (s_ "Mine") then Some 3 else None)
          (fun _ => None)
          (fun c d => match dget (s_ "x") d with Some (YInt _) => Good c | _ => Bad (plain ConfigError) end)
          (fun _ _ => Good tt).
Example C174_example : find_class example_world (YStr (s_ "a.b.C")) = Good 7 /\ find_class example_world (YStr (s_ "Mine")) = Good 3.
Proof. split; reflexivity. Qed.

(** ** C175 *)

(** A single name that is not known is a [KeyError]. *)
Theorem C175_name_refuted : exists w s e, w_local w s = None /\ w_globals w s = None /\
  find_class w (YStr s) = Bad e /\ e_kind e <> ConfigError.
Proof. exists example_world, (s_ "Nine"), (plain KeyErr). repeat split. discriminate. Qed.
Print Assumptions C175_name_refuted.

(** So is a document without the section of the pipeline. *)
Theorem C175_section_refuted : exists n d e, no_entry d (s_ "pipeline") /\ pipeline_section (YDict n d) = Bad e /\ e_kind e <> ConfigError.
Proof.
  exists None, [(s_ "cluster", YNull)], (plain KeyErr). repeat split; [|discriminate].
  intros v [H|[]]. discriminate.
Qed.
Print Assumptions C175_section_refuted.

(** A group of parameters that is empty in the document is a [TypeError]. *)
Theorem C175_group_refuted : exists all spec e, dget (s_ "g") all = Some YNull /\
  dget (s_ "params") spec = Some (YStr (s_ "g")) /\ spec_params all spec = Bad e /\ e_kind e <> ConfigError.
Proof. exists [(s_ "g", YNull)], [(s_ "params", YStr (s_ "g"))], (plain TypeErr). repeat split. discriminate. Qed.
Print Assumptions C175_group_refuted.

(** A module without a version is an [AttributeError]. *)
Theorem C175_version_refuted : exists w m e, get_versions w (YStr m) = Bad e /\ e_kind e <> ConfigError.
Proof. exists example_world, (s_ "plain"), (plain AttributeErr). repeat split. discriminate. Qed.
Print Assumptions C175_version_refuted.

(** Configuration errors: names with a dot, documents or sections that are
    not mappings, unknown keys, no type, missing groups, modules that are
    missing. *)
Theorem C175_name_partial : forall w m c, m <> [] -> ~ In dot c -> (forall r, m <> dot :: r) ->
  w_local w (m ++ dot :: c) = None ->
  (w_module w m = None \/ exists md, w_module w m = Some md /\ m_attr md c = None) ->
  find_class w (YStr (m ++ dot :: c)) = Bad (mkerror ConfigError None).
Proof.
  intros w m c NE N ND L H. unfold find_class. rewrite L, import_class_dotted by assumption.
  unfold import_module. replace (startswith [dot] m) with false.
  - destruct H as [->|(md & -> & E)]; cbn [lbind]; [reflexivity|]. now rewrite E.
  - destruct m as [|x m]; [reflexivity|]. cbn. destruct (ceqb dot x) eqn:E; [|reflexivity].
    apply ceqb_eq in E. subst. now destruct (ND m).
Qed.
Print Assumptions C175_name_partial.

Theorem C175_section_partial : forall doc,
  match doc with
  | YDict n d => forall v, dget (s_ "pipeline") d = Some v ->
      (exists m p, v = YDict m p /\ pipeline_section doc = Good (m, p)) \/
      pipeline_section doc = Bad (mkerror ConfigError n)
  | _ => pipeline_section doc = Bad (mkerror ConfigError None)
  end.
Proof.
  destruct doc; try reflexivity. intros v E. cbn [pipeline_section]. rewrite E.
  destruct v; eauto. 
Qed.
Print Assumptions C175_section_partial.

Theorem C175_spec_partial : forall w all global line spec,
  ((exists k v, In (k, v) spec /\ ~ In k [s_ "type"; s_ "params"; s_ "requires"; s_ "in"; s_ "out"]) \/
   no_entry spec (s_ "type")) ->
  get_task w all global line spec = Bad (mkerror ConfigError None).
Proof.
  intros w all global line spec H. unfold get_task.
  destruct (negb (forallb (fun kv => existsb (seqb (fst kv)) spec_keys) spec)) eqn:E; [reflexivity|].
  destruct H as [(k & v & I & N)|H].
  - exfalso. apply negb_false_iff in E. rewrite forallb_forall in E. specialize (E _ I). cbn [fst] in E.
    apply N. apply existsb_exists in E as (x & Ix & Ex). apply seqb_eq in Ex. subst. exact Ix.
  - apply dget_no_entry in H. now rewrite H.
Qed.
Print Assumptions C175_spec_partial.

Theorem C175_missing_partial : forall all spec ks k,
  dget (s_ "params") spec = Some (YList (map YStr ks)) -> In k ks -> no_entry all k ->
  (forall k' v, In k' ks -> dget k' all = Some v -> exists n d, v = YDict n d) ->
  spec_params all spec = Bad (mkerror ConfigError None).
Proof.
  intros all spec ks k E I NK H. unfold spec_params. rewrite E. apply dget_no_entry in NK. clear E.
  assert (G : forall acc, fold_left (add_group all) (map YStr ks) (Good acc) = Bad (mkerror ConfigError None)).
  { induction ks as [|k1 ks IH]; intros acc; [contradiction|]. cbn [map fold_left]. unfold add_group at 2. cbn [lbind].
    destruct (dget k1 all) as [v|] eqn:E1.
    - destruct (H k1 v (or_introl eq_refl) E1) as (n & d & ->). cbn [update_with].
      destruct I as [->|I]; [congruence|]. apply IH; [exact I|]. intros k' v' I' E'. apply (H k'); [now right|exact E'].
    - apply add_group_bad. }
  apply G.
Qed.
Print Assumptions C175_missing_partial.
Example C175_example : find_class example_world (YStr (s_ "a.b.D")) = Bad (mkerror ConfigError None) /\
  get_task example_world [] [] (Some 4) [(s_ "typo", YNull)] = Bad (mkerror ConfigError None).
Proof. split; reflexivity. Qed.

(** ** C176 *)

(** The groups of parameters of a specification: inline, by one name, by a
    list of names, or none. *)
Inductive groups (all spec : list (str * yv)) : list (list (str * yv)) -> Prop :=
| groups_none : no_entry spec (s_ "params") -> groups all spec []
| groups_inline n d : dget (s_ "params") spec = Some (YDict n d) -> groups all spec [d]
| groups_one k n d : dget (s_ "params") spec = Some (YStr k) -> dget k all = Some (YDict n d) -> groups all spec [d]
| groups_list ks ds : dget (s_ "params") spec = Some (YList (map YStr ks)) ->
    Forall2 (fun k d => exists n, dget k all = Some (YDict n d)) ks ds -> groups all spec ds.

(** A task is made with the global parameters, over which its groups are laid
    in order. *)
Theorem C176_params : forall w all global line spec ds t,
  groups all spec ds -> Forall dict (global :: ds) -> get_task w all global line spec = Good t ->
  exists c args path, dget (s_ "type") spec = Some path /\ find_class w path = Good c /\ w_build w c args = Good t /\
    forall k v, dget k args = Some v <-> shows k (global :: ds) v.
Proof.
  intros w all global line spec ds t G F H. unfold get_task in H.
  destruct (negb _); [discriminate|]. destruct (dget (s_ "type") spec) as [path|] eqn:ET; [|discriminate].
  destruct (find_class w path) as [c|e] eqn:EC; [|discriminate]. cbn [lbind] in H.
  assert (P : spec_params all spec = Good (fold_left update ds [])).
  { unfold spec_params. destruct G as [N|n d E|k n d E1 E2|ks ds E1 E2].
    - apply dget_no_entry in N. now rewrite N.
    - now rewrite E.
    - rewrite E1. cbn [fold_left add_group lbind]. now rewrite E2.
    - rewrite E1. now apply add_groups. }
  rewrite P in H. cbn [lbind] in H. destruct (w_build w c (update global (fold_left update ds []))) as [t'|e] eqn:EB; [|discriminate].
  injection H as ->. exists c, (update global (fold_left update ds [])), path. repeat split; auto.
  - intros E. now apply update_shows in E.
  - intros E. now apply update_shows.
Qed.
Print Assumptions C176_params.

(** The global parameters: the versions, and the document if it is saved. *)
Theorem C176_global : forall versions save doc,
  dict (all_tasks_params versions save doc) /\
  entry (all_tasks_params versions save doc) (s_ "pipeline_config") (if save then doc else YNull) /\
  exists n d, entry (all_tasks_params versions save doc) (s_ "versions") (YDict n d) /\
    forall m v, In (m, v) versions <-> In (m, YStr v) d.
Proof.
  intros versions save doc. repeat split.
  - cbn. repeat constructor; intros []; try discriminate. contradiction.
  - right. now left.
  - exists None, (map (fun kv => (fst kv, YStr (snd kv))) versions). split; [now left|].
    intros m v. rewrite in_map_iff. split.
    + intros I. now exists (m, v).
    + intros [[m' v'] [E I]]. cbn in E. now injection E as -> ->.
Qed.
Print Assumptions C176_global.
Example C176_example :
  get_task example_world [(s_ "g", YDict (Some 1) [(s_ "x", YNull)]); (s_ "h", YDict (Some 2) [(s_ "x", YInt 1)])] [] (Some 9)
    [(s_ "type", YStr (s_ "Mine")); (s_ "params", YList [YStr (s_ "g"); YStr (s_ "h")])] = Good 3.
Proof. reflexivity. Qed.

(** ** C177 *)

(** A wrong value in inline parameters, which has a line, is reported without one … *)
Theorem C177_inline_refuted : exists w all global line spec n d e,
  dget (s_ "params") spec = Some (YDict (Some n) d) /\ setup_tasks w all global [(Some line, spec)] = Bad e /\
  e_kind e = ConfigError /\ e_line e = None.
Proof.
  exists example_world, [], [], 5, [(s_ "type", YStr (s_ "Mine")); (s_ "params", YDict (Some 6) [(s_ "x", YNull)])], 6, [(s_ "x", YNull)].
  eexists. repeat split.
Qed.
Print Assumptions C177_inline_refuted.

(** … and so is one of a task without parameters. *)
Theorem C177_none_refuted : exists w all global line spec e,
  no_entry spec (s_ "params") /\ setup_tasks w all global [(Some line, spec)] = Bad e /\
  e_kind e = ConfigError /\ e_line e = None.
Proof.
  exists example_world, [], [], 5, [(s_ "type", YStr (s_ "Mine"))]. eexists. repeat split.
  intros v [H|[]]. discriminate.
Qed.
Print Assumptions C177_none_refuted.

(** All other errors of a task have the line of its specification. *)
Theorem C177_line_partial : forall w all global line spec rest e p,
  dget (s_ "params") spec = Some p -> (forall n d, p <> YDict n d) ->
  (get_task w all global line spec = Bad e \/
   exists t, get_task w all global line spec = Good t /\ add_task w t spec [] = Bad e) -> e_kind e = ConfigError ->
  setup_tasks w all global ((line, spec) :: rest) = Bad (mkerror ConfigError line).
Proof.
  intros w all global line spec rest e p EP NP H K. cbn [setup_tasks].
  assert (LN : e_line e = None).
  { destruct H as [H|(t & Ht & H)].
    - unfold get_task in H. destruct (negb _); [injection H as <-; reflexivity|].
      destruct (dget (s_ "type") spec) as [path|]; [|injection H as <-; reflexivity].
      assert (FC : forall e', find_class w path = Bad e' -> e_line e' = None).
      { intros e' F. unfold find_class in F. destruct path; try (injection F as <-; reflexivity).
        destruct (w_local w s); [discriminate|]. destruct (import_class w s) as [k|e''] eqn:IC; [discriminate|].
        assert (e_line e'' = None).
        { unfold import_class, import_module in IC.
          destruct (join dot (removelast (split dot s))).
          - destruct (w_globals w (last (split dot s) [])); [discriminate|]. injection IC as <-. reflexivity.
          - destruct (startswith [dot] (a :: s0)); cbn [lbind] in IC; [injection IC as <-; reflexivity|].
            destruct (w_module w (a :: s0)) as [md|]; cbn [lbind] in IC; [|injection IC as <-; reflexivity].
            destruct (m_attr md (last (split dot s) [])); [discriminate|]. injection IC as <-. reflexivity. }
        injection F as <-. destruct (e_kind e''); auto. }
      destruct (find_class w path) as [c|e1]; cbn [lbind] in H; [|injection H as <-; now apply FC].
      assert (SP : forall e', spec_params all spec = Bad e' -> e_line e' = None).
      { intros e' S1. unfold spec_params in S1. rewrite EP in S1.
        assert (AG : forall ks acc, fold_left (add_group all) ks (Good acc) = Bad e' -> e_line e' = None).
        { induction ks as [|k ks IH]; intros acc A; [discriminate|]. cbn [fold_left] in A. unfold add_group at 2 in A.
          cbn [lbind] in A.
          destruct k; try (rewrite add_group_bad in A; injection A as <-; reflexivity).
          destruct (dget s all) as [v|]; [|rewrite add_group_bad in A; injection A as <-; reflexivity].
          destruct v as [| | |[|]|[|]|]; cbn [update_with] in A;
            try (rewrite add_group_bad in A; injection A as <-; reflexivity); eauto. }
        destruct p; try (now destruct (NP line0 d)); eauto. }
      destruct (spec_params all spec) as [ps|e1]; cbn [lbind] in H; [|injection H as <-; now apply SP].
      destruct (w_build w c (update global ps)) as [t|e1]; [discriminate|]. injection H as <-.
      destruct (e_kind e1) eqn:K1; try (cbn in K; congruence).
      cbn [e_line]. change (dget _ spec) with (dget (s_ "params") spec). rewrite EP. destruct p; try reflexivity. now destruct (NP line0 d).
    - unfold add_task in H. cbn in H. destruct (task_keys spec []) as [ks|e1] eqn:TK; cbn [lbind] in H.
      + destruct (w_keys w t spec); [discriminate|]. injection H as <-. reflexivity.
      + injection H as <-. unfold task_keys in TK.
        assert (CD : forall a b, exists v, check_duplicate a b spec [] = Good v).
        { intros a b. unfold check_duplicate. cbn. destruct (given _); eauto. }
        destruct (CD (s_ "requires") (s_ "requires")) as [v1 E1]. destruct (CD (s_ "in") (s_ "in_")) as [v2 E2].
        destruct (CD (s_ "out") (s_ "out")) as [v3 E3]. rewrite E1 in TK. cbn [lbind] in TK. rewrite E2 in TK.
        cbn [lbind] in TK. rewrite E3 in TK. discriminate. }
  destruct H as [H|(t & Ht & H)].
  - rewrite H. cbn [lbind]. now rewrite K, LN.
  - rewrite Ht. cbn [lbind]. rewrite H. cbn [lbind]. now rewrite K, LN.
Qed.
Print Assumptions C177_line_partial.
Example C177_example :
  setup_tasks example_world [] [] [(Some 5, [(s_ "type", YStr (s_ "Mine")); (s_ "params", YStr (s_ "g"))])]
  = Bad (mkerror ConfigError (Some 5)).
Proof. reflexivity. Qed.

(** ** C178 *)

(** The configured pattern is stored but the default one is used. *)
Theorem C178_pattern_refuted : exists section p, dget (s_ "key_pattern") section = Some (YStr p) /\
  key_pattern (manager_from_config section) = p /\ key_match (manager_from_config section) <> p.
Proof. exists [(s_ "key_pattern", YStr (s_ "^x"))], (s_ "^x"). repeat split. discriminate. Qed.
Print Assumptions C178_pattern_refuted.

Theorem C178_default_partial : forall section, no_entry section (s_ "key_pattern") ->
  key_match (manager_from_config section) = key_pattern (manager_from_config section) /\
  key_match (manager_from_config section) = s_ "[^\W_]".
Proof.
  intros section N. apply dget_no_entry in N. unfold manager_from_config, read_config. rewrite N. split; reflexivity.
Qed.
Print Assumptions C178_default_partial.
Example C178_example : key_match (manager_from_config [(s_ "interactive", YBool true)]) = s_ "[^\W_]".
Proof. reflexivity. Qed.

(** ** C179 *)

(** Every configured module gets its level; the root gets INFO if there are
    levels but none for it, or to lint. *)
Theorem C179_configured : forall d lint, dict d ->
  (forall m v, m <> s_ "root" -> (dget m (setup_logging (Some d) lint) = Some v <-> entry d m v)) /\
  (lint = true \/ no_entry d (s_ "root") -> dget (s_ "root") (setup_logging (Some d) lint) = Some (s_ "INFO")) /\
  (forall v, lint = false -> entry d (s_ "root") v -> dget (s_ "root") (setup_logging (Some d) lint) = Some v).
Proof.
  intros d lint D. unfold setup_logging. repeat split.
  - intros H1. apply dget_entry; [exact D|]. destruct (_ || _); [|exact H1]. now rewrite dget_dput_other in H1.
  - intros H1. apply dget_entry in H1; [|exact D]. destruct (_ || _); [|exact H1]. now rewrite dget_dput_other.
  - intros [->|N].
    + cbn [orb]. apply dget_dput_same.
    + apply dget_no_entry in N. rewrite N, orb_true_r. apply dget_dput_same.
  - intros v -> E. apply dget_entry in E; [|exact D]. rewrite E. cbn [orb]. exact E.
Qed.
Print Assumptions C179_configured.

(** Without configured levels the root gets WARNING. *)
Theorem C179_default : setup_logging None false = [(s_ "root", s_ "WARNING")].
Proof. reflexivity. Qed.
Print Assumptions C179_default.
Example C179_example : setup_logging (Some [(s_ "caput", s_ "DEBUG")]) false = [(s_ "caput", s_ "DEBUG"); (s_ "root", s_ "INFO")].
Proof. reflexivity. Qed.

(** ** C180 *)

(** To lint does not set the root to INFO if no levels are configured. *)
Theorem C180_lint_refuted : exists configured, dget (s_ "root") (setup_logging configured true) <> Some (s_ "INFO").
Proof. exists None. discriminate. Qed.
Print Assumptions C180_lint_refuted.
Theorem C180_lint_partial : forall d, dget (s_ "root") (setup_logging (Some d) true) = Some (s_ "INFO").
Proof. intros d. apply dget_dput_same. Qed.
Print Assumptions C180_lint_partial.
Example C180_example : setup_logging (Some [(s_ "root", s_ "DEBUG")]) true = [(s_ "root", s_ "INFO")].
Proof. reflexivity. Qed.

(** ** C181 *)

Lemma versions_ok : forall w ms acc,
  (forall m, In m ms -> (forall r, m <> dot :: r) /\ exists md v, w_module w m = Some md /\ m_version md = Some v) ->
  exists r, versions_loop w (map YStr ms) acc = Good r /\
    forall m, (In m ms -> exists md v, w_module w m = Some md /\ m_version md = Some v /\ dget m r = Some v) /\
              (~ In m ms -> dget m r = dget m acc).
Proof.
  intros w. induction ms as [|m0 ms IH]; intros acc H.
  - exists acc. split; [reflexivity|]. intros m. split; [contradiction|reflexivity].
  - destruct (H m0 (or_introl eq_refl)) as (ND & md & v & E1 & E2).
    cbn [map versions_loop]. unfold import_module. replace (startswith [dot] m0) with false.
    2:{ destruct m0 as [|x m1]; [reflexivity|]. cbn. destruct (ceqb dot x) eqn:E; [|reflexivity].
        apply ceqb_eq in E. subst. now destruct (ND m1). }
    rewrite E1, E2. destruct (IH (dput m0 v acc)) as (r & ER & HR); [intros m I; apply H; now right|].
    exists r. split; [exact ER|]. intros m. destruct (HR m) as [H1 H2]. split.
    + intros I. destruct (in_dec (list_eq_dec ascii_dec) m ms) as [J|J]; [now apply H1|].
      destruct I as [->|I]; [|contradiction]. exists md, v. repeat split; auto.
      rewrite H2 by exact J. apply dget_dput_same.
    + intros N. rewrite H2 by (intros J; apply N; now right). apply dget_dput_other.
      intros ->. apply N. now left.
Qed.

(** The versions of all modules of a list, and of nothing else. *)
Theorem C181_versions : forall w ms,
  (forall m, In m ms -> (forall r, m <> dot :: r) /\ exists md v, w_module w m = Some md /\ m_version md = Some v) ->
  exists r, get_versions w (YList (map YStr ms)) = Good r /\
    forall m, (In m ms -> exists md, w_module w m = Some md /\ m_version md = dget m r) /\
              (~ In m ms -> dget m r = None).
Proof.
  intros w ms H. destruct (versions_ok w ms [] H) as (r & E & HR). exists r. split; [exact E|].
  intros m. destruct (HR m) as [H1 H2]. split; [|exact H2]. intros I.
  destruct (H1 I) as (md & v & A & B & C). exists md. split; [exact A|congruence].
Qed.
Print Assumptions C181_versions.

(** A name alone is a list of one; other values and missing modules are refused. *)
Theorem C181_other : forall w,
  (forall m, get_versions w (YStr m) = get_versions w (YList [YStr m])) /\
  (forall v, (forall s, v <> YStr s) -> (forall l, v <> YList l) -> get_versions w v = Bad (mkerror ConfigError None)) /\
  (forall m, (forall r, m <> dot :: r) -> w_module w m = None -> get_versions w (YStr m) = Bad (mkerror ConfigError None)).
Proof.
  intros w. repeat split.
  - intros v H1 H2. destruct v; try reflexivity; [now destruct (H1 s)|now destruct (H2 l)].
  - intros m ND E. cbn [get_versions versions_loop]. unfold import_module. replace (startswith [dot] m) with false.
    + now rewrite E.
    + destruct m as [|x m1]; [reflexivity|]. cbn. destruct (ceqb dot x) eqn:Q; [|reflexivity].
      apply ceqb_eq in Q. subst. now destruct (ND m1).
Qed.
Print Assumptions C181_other.
Example C181_example : get_versions example_world (YList [YStr (s_ "a.b")]) = Good [(s_ "a.b", s_ "1.0")].
Proof. reflexivity. Qed.

(** ** C182 *)

(** The value of a key in a mapping, under the first or else the second name. *)
Definition value_of (d : list (str * yv)) (k k' : str) (v : yv) : Prop :=
  dget k d = Some v \/ no_entry d k /\ dget k' d = Some v.
Definition provides (d : list (str * yv)) (k k' : str) (v : yv) : Prop := value_of d k k' v /\ v <> YNull.

Lemma provides_given : forall d k k' v, provides d k k' v <-> given (dget_default k (dget k' d) d) = Some v.
Proof.
  intros d k k' v. unfold provides, value_of, dget_default. destruct (dget k d) as [x|] eqn:E.
  - split.
    + intros [[H|[N _]] NN]; [injection H as ->; cbn; destruct v; congruence|apply dget_no_entry in N; congruence].
    + cbn. intros H. destruct x; try discriminate; injection H as <-; split; [left; reflexivity|discriminate| | | | | | | |];
        (left; reflexivity) || discriminate.
  - split.
    + intros [[H|[_ H]] NN]; [discriminate|]. rewrite H. destruct v; cbn; congruence.
    + intros H. assert (N : no_entry d k) by now apply dget_no_entry.
      destruct (dget k' d) as [x|] eqn:E'; [|discriminate]. cbn in H. destruct x; try discriminate; injection H as <-;
        (split; [right; split; [exact N|reflexivity]|discriminate]).
Qed.

(** Each of the three keys comes from whichever of the two mappings gives it;
    given by both it is refused. *)
Theorem C182_keys : forall k k' d0 d1,
  (forall v, provides d0 k k' v -> (forall u, ~ provides d1 k k' u) -> check_duplicate k k' d0 d1 = Good (Some v)) /\
  (forall v, provides d1 k k' v -> (forall u, ~ provides d0 k k' u) -> check_duplicate k k' d0 d1 = Good (Some v)) /\
  ((forall u, ~ provides d0 k k' u) -> (forall u, ~ provides d1 k k' u) -> check_duplicate k k' d0 d1 = Good None) /\
  (forall u v, provides d0 k k' u -> provides d1 k k' v -> check_duplicate k k' d0 d1 = Bad (mkerror ValueErr None)).
Proof.
  intros k k' d0 d1. unfold check_duplicate.
  assert (NP : forall d, (forall u, ~ provides d k k' u) -> given (dget_default k (dget k' d) d) = None).
  { intros d H. destruct (given (dget_default k (dget k' d) d)) as [v|] eqn:E; [|reflexivity].
    apply provides_given in E. now destruct (H v). }
  repeat split.
  - intros v H1 H2. apply provides_given in H1. rewrite H1, (NP _ H2). reflexivity.
  - intros v H1 H2. apply provides_given in H1. rewrite H1, (NP _ H2). reflexivity.
  - intros H1 H2. now rewrite (NP _ H1), (NP _ H2).
  - intros u v H1 H2. apply provides_given in H1, H2. now rewrite H1, H2.
Qed.
Print Assumptions C182_keys.

(** Those of a specification alone are its entries. *)
Theorem C182_spec : forall spec, exists r i o, task_keys spec [] = Good (r, i, o) /\
  (forall v, r = Some v <-> provides spec (s_ "requires") (s_ "requires") v) /\
  (forall v, i = Some v <-> provides spec (s_ "in") (s_ "in_") v) /\
  (forall v, o = Some v <-> provides spec (s_ "out") (s_ "out") v).
Proof.
  intros spec.
  assert (CD : forall a b, check_duplicate a b spec [] = Good (given (dget_default a (dget b spec) spec))).
  { intros a b. unfold check_duplicate. cbn. now destruct (given (dget_default a (dget b spec) spec)). }
  unfold task_keys. rewrite !CD. cbn [lbind]. eexists _, _, _. split; [reflexivity|].
  split; [|split]; intros v; rewrite provides_given; tauto.
Qed.
Print Assumptions C182_spec.
Example C182_example :
  task_keys [(s_ "in", YStr (s_ "a")); (s_ "out", YNull)] [(s_ "out", YStr (s_ "b"))]
    = Good (None, Some (YStr (s_ "a")), Some (YStr (s_ "b"))) /\
  task_keys [(s_ "in", YStr (s_ "a"))] [(s_ "in_", YStr (s_ "a"))] = Bad (mkerror ValueErr None).
Proof. split; reflexivity. Qed.

(** ** C183 *)

(** Arguments beside a specification are accepted, and so are unknown ones. *)
Theorem C183_both_refuted : exists spec kwargs r, spec <> [] /\ kwargs <> [] /\ task_keys spec kwargs = Good r.
Proof. exists [(s_ "in", YStr (s_ "a"))], [(s_ "out", YStr (s_ "b"))]. eexists. repeat split; discriminate. Qed.
Print Assumptions C183_both_refuted.
Theorem C183_unknown_refuted : exists spec kwargs, kwargs <> [] /\ task_keys spec kwargs = task_keys spec [].
Proof. exists [(s_ "in", YStr (s_ "a"))], [(s_ "output", YStr (s_ "b"))]. split; [discriminate|reflexivity]. Qed.
Print Assumptions C183_unknown_refuted.
(** The same key in both is refused. *)
Theorem C183_same_partial : forall spec kwargs u v,
  provides spec (s_ "requires") (s_ "requires") u -> provides kwargs (s_ "requires") (s_ "requires") v ->
  task_keys spec kwargs = Bad (mkerror ValueErr None).
Proof.
  intros spec kwargs u v H1 H2. unfold task_keys.
  now rewrite (proj2 (proj2 (proj2 (C182_keys _ _ _ _))) u v H1 H2).
Qed.
Print Assumptions C183_same_partial.
Example C183_example : task_keys [(s_ "requires", YNull)] [(s_ "requires", YStr (s_ "b"))] = Good (Some (YStr (s_ "b")), None, None).
Proof. reflexivity. Qed.
