(** Lemmas for containers: selections, tables, redistribution. *)
From Coq Require Import String.
From Coq Require Import List Ascii Bool Arith ZArith Lia Sorting.Sorted Permutation.
From Verif Require Import PyBase PyStr MemModel MemProofs2 AttrModel AttrProofs CopyProofs ContModel ContSpec ContProofs.
Import ListNotations.
Open Scope list_scope.
Open Scope nat_scope.

(** * Selections *)
Section Select.
Context {S D : Type}.
Variable whole : S.
Variable axes_of : D -> list axis.
Variable args : list (str * S).

Definition sel_of (a : axis) : S := match axis_sel args a with Some s => s | None => whole end.
Definition is_sel (a : axis) : bool := match axis_sel args a with Some _ => true | None => false end.
Lemma dataset_sel_eq : forall d, dataset_sel whole axes_of args d = (map sel_of (axes_of d), existsb is_sel (axes_of d)).
Proof.
  intros d. unfold dataset_sel.
  assert (G : forall l acc b, fold_left (fun acc a => match axis_sel args a with
                          | Some s => (fst acc ++ [s], true)
                          | None => (fst acc ++ [whole], snd acc)
                          end) l (acc, b) = (acc ++ map sel_of l, b || existsb is_sel l)).
  { induction l as [|a l IH]; intros acc b; cbn [fold_left map existsb]; [now rewrite app_nil_r, orb_false_r|].
    unfold sel_of at 1, is_sel at 1. destruct (axis_sel args a); cbn [fst snd]; rewrite IH, <- app_assoc; cbn [app]; f_equal;
    destruct b; reflexivity. }
  apply G.
Qed.
Hypothesis N : NoDup (map fst args).
Lemma sel_gets : forall a, axis_gets whole args a (sel_of a).
Proof.
  intros [a|n]; unfold sel_of; cbn [axis_sel]; [|constructor]. destruct (dget a args) as [s|] eqn:E.
  - apply G_sel. now apply dget_elem.
  - apply G_whole. now apply dget_none.
Qed.
Lemma sels_get : forall l, Forall2 (axis_gets whole args) l (map sel_of l).
Proof. induction l; cbn; constructor; auto using sel_gets. Qed.
Lemma selected_iff : forall l, existsb is_sel l = true <-> selected args l.
Proof.
  intros l. rewrite existsb_exists. split.
  - intros ([a|n] & I & H); unfold is_sel in H; cbn [axis_sel] in H; [|discriminate].
    destruct (dget a args) as [s|] eqn:E; [|discriminate]. exists a, s. split; auto. now apply dget_elem.
  - intros (a & s & H & I). exists (AName a). split; auto. unfold is_sel. cbn [axis_sel]. now rewrite (dget_nodup _ args a s N H).
Qed.

Definition data_sels (spec : list (str * D)) : list (str * @selv S) :=
  flat_map (fun kv => if existsb is_sel (axes_of (snd kv)) then [("/"%char :: fst kv, STuple (map sel_of (axes_of (snd kv))))] else []) spec.
Definition map_sels : list (str * @selv S) := map (fun kv => (s_ "/index_map/" ++ fst kv, SOne (snd kv))) args.
Lemma make_selections_eq : forall known spec, make_selections whole axes_of known spec args =
  if forallb (fun kv => mem_name (fst kv) known) args then Ok (update (update [] (data_sels spec)) map_sels) else Err RuntimeError.
Proof.
  intros known spec. unfold make_selections. destruct (forallb _ args); [|reflexivity]. f_equal.
  assert (G1 : forall l d, fold_left (fun d kv => let '(l, relevant) := dataset_sel whole axes_of args (snd kv) in
      if relevant : bool then dput ("/"%char :: fst kv) (STuple l) d else d) l d = update d (data_sels l)).
  { induction l as [|kv l IH]; intros d; cbn [fold_left data_sels flat_map]; [reflexivity|]. rewrite dataset_sel_eq, IH.
    unfold data_sels, update. rewrite fold_left_app. destruct (existsb is_sel (axes_of (snd kv))); reflexivity. }
  assert (G2 : forall (l : list (str * S)) d, fold_left (fun d kv => dput (s_ "/index_map/" ++ fst kv) (SOne (snd kv)) d) l d
     = update d (map (fun kv => (s_ "/index_map/" ++ fst kv, SOne (snd kv))) l)).
  { induction l as [|kv l IH]; intros d; cbn [fold_left map]; [reflexivity|]. rewrite IH. reflexivity. }
  rewrite G2. unfold map_sels. f_equal. apply G1.
Qed.
Lemma map_sels_nodup : NoDup (map fst map_sels).
Proof.
  unfold map_sels. rewrite map_map. change (NoDup (map (fun x : str * S => s_ "/index_map/" ++ fst x) args)).
  assert (E : map (fun x : str * S => s_ "/index_map/" ++ fst x) args = map (app (s_ "/index_map/")) (map fst args)) by now rewrite map_map.
  rewrite E. clear E. induction N as [|x l Hx Hl IH]; cbn [map]; constructor; auto.
  intros K. apply in_map_iff in K as (y & E & K). apply app_inv_head in E. now subst.
Qed.
Lemma data_sels_keys : forall spec x, In x (map fst (data_sels spec)) <-> exists n d, In (n, d) spec /\ x = "/"%char :: n /\ existsb is_sel (axes_of d) = true.
Proof.
  intros spec x. unfold data_sels. rewrite in_map_iff. split.
  - intros (kv & <- & H). apply in_flat_map in H as ([n d] & I & H). cbn [fst snd] in H.
    destruct (existsb is_sel (axes_of d)) eqn:E; [|destruct H]. destruct H as [<-|[]]. exists n, d. auto.
  - intros (n & d & I & -> & E). exists ("/"%char :: n, STuple (map sel_of (axes_of d))). split; auto.
    apply in_flat_map. exists (n, d). split; auto. cbn [fst snd]. rewrite E. now left.
Qed.
Lemma data_sels_nodup : forall spec, NoDup (map fst spec) -> NoDup (map fst (data_sels spec)).
Proof.
  induction spec as [|[n d] spec IH]; intros H; [constructor|]. inversion H as [|? ? Hn Hs]; subst.
  change (data_sels ((n, d) :: spec)) with ((if existsb is_sel (axes_of d) then [("/"%char :: n, STuple (map sel_of (axes_of d)))] else []) ++ data_sels spec).
  destruct (existsb is_sel (axes_of d)); cbn [app map fst]; [|auto]. constructor; auto.
  rewrite data_sels_keys. intros (n' & d' & I & E & _). injection E as ->. apply Hn. exact (in_map fst _ _ I).
Qed.
Lemma dget_data : forall spec n d, NoDup (map fst spec) -> In (n, d) spec ->
  dget ("/"%char :: n) (data_sels spec) = if existsb is_sel (axes_of d) then Some (STuple (map sel_of (axes_of d))) else None.
Proof.
  intros spec n d H I. destruct (existsb is_sel (axes_of d)) eqn:E.
  - apply dget_nodup; [now apply data_sels_nodup|]. apply in_flat_map. exists (n, d). split; auto. cbn [fst snd]. rewrite E. now left.
  - apply dget_none. rewrite data_sels_keys. intros (n' & d' & I' & K & E'). injection K as <-.
    apply (dget_nodup _ spec n d H) in I. apply (dget_nodup _ spec n d' H) in I'. congruence.
Qed.
Lemma dget_map_sels : forall a s, In (a, s) args -> dget (s_ "/index_map/" ++ a) map_sels = Some (SOne s).
Proof.
  intros a s I. apply dget_nodup; [apply map_sels_nodup|]. unfold map_sels. apply in_map_iff. exists (a, s). auto.
Qed.
Lemma dget_map_other : forall n, (forall a, n <> s_ "index_map/" ++ a) -> dget ("/"%char :: n) map_sels = None.
Proof.
  intros n H. apply dget_none. unfold map_sels. rewrite map_map. intros K. apply in_map_iff in K as ([a s] & E & _).
  cbn [fst] in E. apply (H a). now injection E as <-.
Qed.
End Select.

(** * Tables *)
Section Tables.
Variable env : nat -> @cls dspec.
Variable mro : nat -> list nat.
Variable tables : nat -> option (list (str * tspec)).
Variable c : nat.
Let T := table_spec mro tables c.
Definition own_spec : list (str * dspec) := match c_spec (env c) with Some d => d | None => [] end.
Definition own_axes : list str := match c_axes (env c) with Some l => l | None => [] end.
Definition with_tables (l : list (str * tspec)) (acc : list (str * dspec) * list str) :=
  fold_left (fun acc kv =>
      (dput (fst kv) (table_dataset (fst kv) (snd kv)) (fst acc),
       let a := table_axis (fst kv) (snd kv) in if mem_name a (snd acc) then snd acc else snd acc ++ [a])) l acc.
Lemma with_tables_fst : forall l d ax, fst (with_tables l (d, ax)) = update d (map (fun kv => (fst kv, table_dataset (fst kv) (snd kv))) l).
Proof.
  unfold with_tables. induction l as [|kv l IH]; intros d ax; cbn [fold_left map]; [reflexivity|]. cbn [fst snd]. rewrite IH. reflexivity.
Qed.
Lemma with_tables_snd : forall l d ax a, In a (snd (with_tables l (d, ax))) <-> In a ax \/ exists n t, In (n, t) l /\ a = table_axis n t.
Proof.
  unfold with_tables. induction l as [|[n t] l IH]; intros d ax a; cbn [fold_left].
  - split; [now left|]. intros [H|(? & ? & [] & _)]; auto.
  - cbn [fst snd]. rewrite IH.
    assert (E : In a (if mem_name (table_axis n t) ax then ax else ax ++ [table_axis n t]) <-> In a ax \/ a = table_axis n t).
    { destruct (mem_name (table_axis n t) ax) eqn:E.
      - apply mem_name_in in E. split; [now left|]. now intros [H| ->].
      - rewrite in_app_iff. cbn [In]. firstorder. }
    rewrite E. clear E. split.
    + intros [[H|H]|(n' & t' & I & H)]; auto; right; [exists n, t|exists n', t']; cbn [In]; auto.
    + intros [H|(n' & t' & [I|I] & H)]; auto; [injection I as <- <-; auto|right; eauto].
Qed.
Lemma table_init_eq : forall env' d ax, table_init env mro tables c = (env', d, ax) ->
  d = update own_spec (map (fun kv => (fst kv, table_dataset (fst kv) (snd kv))) T) /\
  (forall a, In a ax <-> In a own_axes \/ exists n t, In (n, t) T /\ a = table_axis n t) /\
  forall k, c_axes (env' k) = c_axes (env k) /\ c_spec (env' k) = if k =? c then option_map (fun _ => d) (c_spec (env c)) else c_spec (env k).
Proof.
  intros env' d ax H. unfold table_init in H. fold own_spec own_axes in H.
  change (fold_left _ (table_spec mro tables c) (own_spec, own_axes)) with (with_tables T (own_spec, own_axes)) in H.
  destruct (with_tables T (own_spec, own_axes)) as [d0 ax0] eqn:E. injection H as <- -> ->.
  split; [|split].
  - rewrite <- (with_tables_fst T own_spec own_axes). now rewrite E.
  - intros a. rewrite <- (with_tables_snd T own_spec own_axes). now rewrite E.
  - intros k. destruct (Nat.eqb_spec k c) as [->|NE]; [|auto]. destruct (c_spec (env c)) eqn:F; cbn [c_axes c_spec option_map]; auto.
Qed.
Lemma table_spec_nodup : NoDup (map fst T).
Proof.
  unfold T, table_spec. rewrite <- (rev_involutive (rev (mro c))). induction (rev (rev (mro c))) as [|k r IH]; cbn [rev]; [constructor|].
  rewrite fold_left_app. cbn [fold_left]. destruct (table_attr mro tables k); auto. now apply update_nodup.
Qed.
Lemma tables_map_nodup : NoDup (map fst (map (fun kv => (fst kv, table_dataset (fst kv) (snd kv))) T)).
Proof. rewrite map_map. cbn [fst]. apply table_spec_nodup. Qed.
Lemma dget_tables : forall n, dget n (map (fun kv => (fst kv, table_dataset (fst kv) (snd kv))) T) = option_map (table_dataset n) (dget n T).
Proof.
  intros n. induction T as [|[k t] l IH]; cbn [map dget fst snd]; [reflexivity|]. destruct (seqb n k) eqn:E; [|exact IH].
  apply seqb_eq in E. now subst.
Qed.
End Tables.

(** * Redistribution *)
Lemma index_name_some : forall s l i, index_name s l = Some i <->
  nth_error l i = Some s /\ forall j, j < i -> nth_error l j <> Some s.
Proof.
  induction l as [|x l IH]; intros i; cbn [index_name].
  - split; [discriminate|]. intros [H _]. destruct i; discriminate.
  - destruct (seqb s x) eqn:E.
    + apply seqb_eq in E. subst x. split.
      * intros H. injection H as <-. split; [reflexivity|]. intros j Hj. lia.
      * intros [H F]. destruct i as [|i]; [reflexivity|]. destruct (F 0 ltac:(lia)). reflexivity.
    + apply seqb_neq in E. destruct i as [|i].
      * cbn [nth_error]. split; [destruct (index_name s l); discriminate|]. intros [H _]. congruence.
      * cbn [nth_error]. split.
        -- intros H. destruct (index_name s l) as [k|] eqn:F; cbn [option_map] in H; [|discriminate]. injection H as ->.
           destruct (proj1 (IH i) eq_refl) as [H1 H2]. split; auto. intros [|j] Hj; cbn [nth_error]; [congruence|]. apply H2. lia.
        -- intros [H1 H2]. rewrite (proj2 (IH i)); [reflexivity|]. split; auto. intros j Hj. apply (H2 (Datatypes.S j)). lia.
Qed.
Lemma index_name_none : forall s l, index_name s l = None -> forall i, nth_error l i <> Some s.
Proof.
  induction l as [|x l IH]; intros H [|i]; cbn [index_name nth_error] in *; try discriminate.
  - destruct (seqb s x) eqn:E; [discriminate|]. apply seqb_neq in E. congruence.
  - destruct (seqb s x); [discriminate|]. apply IH. destruct (index_name s l); [discriminate|reflexivity].
Qed.
Definition in_reach (n : nat) (a : axarg) : Prop := match a with XInt z => (- Z.of_nat n <= z)%Z | XName _ => True end.
Lemma pick_first : forall n labels l, Forall (in_reach n) l -> exists o, pick_axis n labels l = option_map Z.of_nat o /\ first_axis n labels l o.
Proof.
  induction l as [|a l IH]; intros F; [exists None; split; [reflexivity|constructor]|].
  inversion F as [|? ? Ha Fl]; subst. destruct (IH Fl) as (o & E & H). cbn [pick_axis].
  assert (SK : (forall i, ~ names_axis n labels a i) -> exists o0, pick_axis n labels l = option_map Z.of_nat o0 /\ first_axis n labels (a :: l) o0).
  { intros K. exists o. split; auto. now apply F_skip. }
  destruct a as [s|z].
  - destruct labels as [ls|]; [|apply SK; intros i K; inversion K; discriminate].
    destruct (index_name s ls) as [i|] eqn:G; cbn [option_map].
    + destruct (Z.leb_spec (Z.of_nat n) (Z.of_nat i)) as [L|L].
      * apply SK. intros j K. inversion K as [ls' s' j' E1 E2 E3 E4| |]; subst. injection E1 as <-.
        pose proof (proj2 (index_name_some s ls j) (conj E2 E3)) as X. rewrite G in X. injection X as ->. lia.
      * exists (Some i). split; [reflexivity|]. apply F_here. apply index_name_some in G as [G1 G2]. eapply N_label; eauto. lia.
    + apply SK. intros j K. inversion K as [ls' s' j' E1 E2 E3 E4| |]; subst. injection E1 as <-. exact (index_name_none _ _ G j E2).
  - cbn [in_reach] in Ha. destruct (Z.ltb_spec z 0) as [L|L].
    + destruct (Z.leb_spec (Z.of_nat n) (Z.of_nat n + z)) as [L'|L']; [lia|].
      exists (Some (Z.to_nat (Z.of_nat n + z))). cbn [option_map]. split; [f_equal; lia|]. apply F_here.
      replace z with (Z.of_nat (Z.to_nat (Z.of_nat n + z)) - Z.of_nat n)%Z at 1 by lia. apply N_neg. lia.
    + destruct (Z.leb_spec (Z.of_nat n) z) as [L'|L'].
      * apply SK. intros j K. inversion K; subst; lia.
      * exists (Some (Z.to_nat z)). cbn [option_map]. split; [f_equal; lia|]. apply F_here.
        replace z with (Z.of_nat (Z.to_nat z)) at 1 by lia. apply N_pos. lia.
Qed.

Definition sizes (l : list (str * node)) : nat := fold_right (fun x s => node_size (snd x) + s) 0 l.
Lemma sizes_app : forall a b, sizes (a ++ b) = sizes a + sizes b.
Proof. unfold sizes. induction a as [|x a IH]; intros b; cbn [app fold_right]; [reflexivity|]. rewrite IH. lia. Qed.
Definition all_dist (l : list (str * node)) : list (str * node) := flat_map (fun y => dist_datasets (fst y) (snd y)) l.
Definition result_ok (dist_axis : list axarg) (x : str * node * option Z) : Prop :=
  exists n labels, snd (fst x) = NDist n labels /\ snd x = pick_axis n labels dist_axis.
Lemma redist_loop_ok : forall f dist_axis stack, sizes stack < f ->
  exists r, redist_loop f dist_axis stack = Some r /\ Permutation (map fst r) (all_dist stack) /\ Forall (result_ok dist_axis) r.
Proof.
  induction f as [|f IH]; intros da stack H; [lia|]. cbn [redist_loop].
  destruct (rev stack) as [|[name item] below] eqn:E.
  - exists []. assert (stack = []) as -> by (rewrite <- (rev_involutive stack), E; reflexivity). repeat split; constructor.
  - assert (ES : stack = rev below ++ [(name, item)]) by (rewrite <- (rev_involutive stack), E; reflexivity).
    rewrite ES, sizes_app in H. assert (E1 : sizes [(name, item)] = node_size item + 0) by reflexivity. rewrite E1 in H. clear E1.
    rewrite ES. unfold all_dist. rewrite flat_map_app. cbn [flat_map fst snd]. rewrite app_nil_r. fold (all_dist (rev below)).
    destruct item as [l|n labels|]; cbn [node_size] in H.
    + destruct (IH da (rev below ++ l)) as (r & -> & P & F).
      { rewrite sizes_app. fold (sizes l) in H. lia. }
      exists r. split; [reflexivity|]. split; auto. unfold all_dist in P. rewrite flat_map_app in P. exact P.
    + destruct (IH da (rev below)) as (r & -> & P & F); [lia|]. eexists. split; [reflexivity|]. cbn [map fst dist_datasets]. split.
      * eapply perm_trans; [apply perm_skip; exact P|]. apply Permutation_cons_append.
      * constructor; auto. exists n, labels. auto.
    + destruct (IH da (rev below)) as (r & -> & P & F); [lia|]. exists r. cbn [dist_datasets]. rewrite app_nil_r. auto.
Qed.
