(** Proofs for whole containers of time-ordered data: the concatenation. *)
From Coq Require Import String.
From Coq Require Import List Ascii Bool Arith ZArith Permutation Lia Sorted.
From Verif Require Import PyBase PyStr MemModel AttrModel AttrProofs MemProofs2 TodModel TodSpec TodProofs TxModel TxSpec TxProofs.
Import ListNotations.
Open Scope list_scope.
Open Scope nat_scope.

Lemma dget_nodup : forall (V : Type) n (v : V) l, NoDup (map fst l) -> In (n, v) l -> dget n l = Some v.
Proof.
  induction l as [|[k w] l IH]; cbn [map fst dget In]; intros N H; [contradiction|]. inversion N; subst.
  destruct H as [E|H].
  - injection E as -> ->. now rewrite seqb_refl.
  - destruct (seqb n k) eqn:E; [|auto]. apply seqb_eq in E. subst. exfalso. apply H2. apply in_map_iff. exists (k, v). auto.
Qed.
Lemma dget_pair : forall (V : Type) n (v : V) l, dget n l = Some v -> In (n, v) l.
Proof.
  induction l as [|[k w] l IH]; cbn [dget In]; intros H; [discriminate|].
  destruct (seqb n k) eqn:E; [apply seqb_eq in E; injection H as ->; subst; now left|right; auto].
Qed.

Section Container.
Context {V : Type}.
Variable axes : list str.
Implicit Types (x : tod V) (d : dset V).

Lemma concat_axis_iff : forall d a, concat_axis axes d = Some a <-> TimeAxis axes (axes_of d) a.
Proof.
  intros d a. unfold concat_axis. fold (axes_of d). generalize (axes_of d). intros l. split.
  - induction l as [|b l IH]; cbn [find]; [discriminate|]. destruct (mem b axes) eqn:E; intros H.
    + injection H as ->. apply mem_iff in E. exists [], l. cbn [app In]. tauto.
    + destruct (IH H) as (p & r & -> & Ha & Hb). exists (b :: p), r. split; [reflexivity|]. split; [exact Ha|].
      intros c [<-|Hc]; [now apply mem_not|auto].
  - intros (p & r & -> & Ha & Hb). induction p as [|b p IH]; cbn [app find].
    + now rewrite (proj2 (mem_iff a axes) Ha).
    + rewrite (proj2 (mem_not b axes)) by (apply Hb; now left). apply IH. intros c Hc. apply Hb. now right.
Qed.
Lemma concat_axis_none : forall d, concat_axis axes d = None <-> NoTimeAxis axes d.
Proof.
  intros d. unfold concat_axis, NoTimeAxis. fold (axes_of d). generalize (axes_of d). intros l. split.
  - intros H b Hb Hm. apply (find_none _ _ H) in Hb. apply mem_iff in Hm. congruence.
  - induction l as [|b l IH]; intros H; [reflexivity|]. cbn [find].
    rewrite (proj2 (mem_not b axes)) by (apply H; now left). apply IH. intros c Hc. apply H. now right.
Qed.
Definition timed (p : str * dset V) : bool := match concat_axis axes (snd p) with Some _ => true | None => false end.
Lemma timed_has : forall p, timed p = existsb (fun a => mem a axes) (axes_of (snd p)).
Proof.
  intros p. unfold timed, concat_axis. fold (axes_of (snd p)). induction (axes_of (snd p)) as [|a l IH]; [reflexivity|].
  cbn [find existsb]. destruct (mem a axes); [reflexivity|exact IH].
Qed.

Definition kid (p : str * dset V) : str * entry := (fst p, EDset (slash :: fst p) (axes_of (snd p))).
Definition pair_le (p q : str * dset V) : bool := sleb (fst p) (fst q).
Lemma insert_map : forall p l, sort_insert key_le (kid p) (map kid l) = map kid (sort_insert pair_le p l).
Proof.
  intros p l. induction l as [|q l IH]; [reflexivity|]. cbn [map sort_insert].
  change (key_le (kid p) (kid q)) with (pair_le p q). destruct (pair_le p q); [reflexivity|]. cbn [map]. now rewrite IH.
Qed.
Lemma sorted_map : forall l, py_sorted key_le (map kid l) = map kid (py_sorted pair_le l).
Proof.
  intros l. unfold py_sorted. induction l as [|p l IH]; [reflexivity|]. cbn [map fold_right]. now rewrite IH, insert_map.
Qed.
Lemma insert_fst : forall p (l : list (str * dset V)),
  map fst (sort_insert pair_le p l) = sort_insert sleb (fst p) (map fst l).
Proof.
  intros p l. induction l as [|q l IH]; [reflexivity|]. cbn [map sort_insert]. unfold pair_le at 1.
  destruct (sleb (fst p) (fst q)); [reflexivity|]. cbn [map]. now rewrite IH.
Qed.
Lemma sorted_fst : forall l : list (str * dset V), map fst (py_sorted pair_le l) = py_sorted sleb (map fst l).
Proof.
  intros l. unfold py_sorted. induction l as [|p l IH]; [reflexivity|]. cbn [map fold_right]. now rewrite insert_fst, IH.
Qed.

Lemma view_order : forall x, order (view x) = view x :: map snd (map kid (py_sorted pair_le (x_dsets x))).
Proof.
  intros x. unfold view. rewrite order_group. unfold kids_up. f_equal.
  change (map (fun p : str * dset V => (fst p, EDset (slash :: fst p) match d_axis (snd p) with Some l => l | None => [] end)) (x_dsets x))
    with (map kid (x_dsets x)). rewrite sorted_map.
  induction (py_sorted pair_le (x_dsets x)) as [|p l IH]; [reflexivity|]. cbn [map flat_map]. now rewrite IH.
Qed.
Lemma view_absolute : forall x, Absolute (view x).
Proof.
  intros x e He. cbn [flatten view] in He. destruct He as [<-|He]; [eexists; reflexivity|].
  apply in_flat_map in He. destruct He as (p & Hp & He). apply in_map_iff in Hp. destruct Hp as (q & <- & Hq).
  cbn [snd flatten] in He. destruct He as [<-|[]]. eexists. reflexivity.
Qed.

Lemma names_of : forall (r : list (str * dset V)) (l : list str),
  map (cons slash) l = map ename (filter (fun e => dset_has_axis e axes) (map snd (map kid r))) ->
  l = map fst (filter timed r).
Proof.
  induction r as [|q r IHr]; intros l M; [now destruct l|]. cbn [map filter] in M |- *. rewrite (timed_has q).
  cbn [kid snd dset_has_axis] in M. destruct (existsb (fun a => mem a axes) (axes_of (snd q))); [|now apply IHr].
  cbn [map ename] in M |- *. destruct l as [|n l]; [discriminate|]. cbn [map] in M. injection M as -> M. f_equal. now apply IHr.
Qed.
Lemma time_names_exact : forall x,
  time_names axes x = Ok (map fst (filter timed (py_sorted pair_le (x_dsets x)))).
Proof.
  intros x. unfold time_names. destruct (walk_all axes (view x) (view_absolute x)) as (l & E & M & _).
  rewrite E. f_equal. rewrite view_order in M. cbn [filter] in M. change (dset_has_axis (view x) axes) with false in M.
  cbv iota in M. now apply names_of.
Qed.
Lemma filter_sub : forall {A} (f : A -> bool) (R : A -> A -> Prop) l, StronglySorted R l -> StronglySorted R (filter f l).
Proof.
  intros A f R l H. induction H as [|y l H IH F]; cbn [filter]; [constructor|].
  destruct (f y); [|exact IH]. constructor; [exact IH|]. rewrite Forall_forall in *. intros z Hz. apply filter_In in Hz. now apply F.
Qed.

Lemma time_names_in : forall x n, NoDup (map fst (x_dsets x)) ->
  (In n (map fst (filter timed (py_sorted pair_le (x_dsets x)))) <->
   exists d a, dget n (x_dsets x) = Some d /\ concat_axis axes d = Some a).
Proof.
  intros x n N. rewrite in_map_iff. split.
  - intros ((k, d) & E & H). cbn [fst] in E. subst k. apply filter_In in H. destruct H as (H & T).
    unfold timed in T. cbn [snd] in T. destruct (concat_axis axes d) as [a|] eqn:E; [|discriminate].
    exists d, a. split; [|exact E]. apply dget_nodup; [exact N|].
    apply (Permutation_in (n, d) (Permutation_sym (py_sorted_perm pair_le (x_dsets x)))). exact H.
  - intros (d & a & H & E). exists (n, d). split; [reflexivity|]. apply filter_In. split.
    + apply (Permutation_in (n, d) (py_sorted_perm pair_le (x_dsets x))). now apply dget_pair.
    + unfold timed. cbn [snd]. now rewrite E.
Qed.
Lemma nodup_filter_fst : forall (A : Type) f (l : list (str * A)), NoDup (map fst l) -> NoDup (map fst (filter f l)).
Proof.
  intros A f l. induction l as [|p l IH]; intros N; [constructor|]. cbn [map filter] in *. inversion N; subst.
  destruct (f p); [|auto]. cbn [map]. constructor; [|auto]. intros H. apply H1. apply in_map_iff in H.
  destruct H as (q & E & Hq). apply in_map_iff. exists q. split; [exact E|]. apply filter_In in Hq. tauto.
Qed.
Lemma time_names_nodup : forall x, NoDup (map fst (x_dsets x)) ->
  NoDup (map fst (filter timed (py_sorted pair_le (x_dsets x)))).
Proof.
  intros x N. apply nodup_filter_fst. apply (Permutation_NoDup (Permutation_map fst (py_sorted_perm pair_le (x_dsets x)))). exact N.
Qed.

(** The bounds. *)
Lemma total_whole : forall files a, total_length (V:=V) files a = Z.of_nat (length (whole_index a files)).
Proof.
  intros files a. unfold total_length.
  assert (G : forall fs t, fold_left (fun t (x : tod V) => (t + match dget a (x_index x) with Some l => Z.of_nat (length l) | None => 0 end)%Z) fs t
              = (t + Z.of_nat (length (whole_index a fs)))%Z).
  { induction fs as [|x fs IH]; intros t; cbn [fold_left whole_index flat_map length]; [lia|].
    rewrite IH. unfold whole_index. rewrite app_length. unfold index_of at 2. destruct (dget a (x_index x)); cbn [length]; lia. }
  rewrite G. lia.
Qed.

Lemma bget_as : forall b a, In a axes -> bget a (as_mapping axes b) = asked b a.
Proof.
  intros [z|m] a H; [|reflexivity]. cbn [as_mapping asked]. unfold bget.
  induction axes as [|c l IH]; [contradiction|]. cbn [map dget]. destruct (seqb a c) eqn:E; [reflexivity|].
  apply IH. destruct H as [->|H]; [rewrite seqb_refl in E; discriminate|exact H].
Qed.
Lemma real_bounds_ok : forall (files : list (tod V)) l s t, NoDup l ->
  let '(s', t') := fold_left (fun '(s, t) a =>
    let '(i, j) := start_stop_inds (bget a s) (bget a t) (total_length files a) in
    (dput a (Some i) s, dput a (Some j) t)) l (s, t) in
  (forall a, In a l -> (bget a s', bget a t') =
     let '(i, j) := start_stop_inds (bget a s) (bget a t) (total_length files a) in (Some i, Some j)) /\
  (forall a, ~ In a l -> dget a s' = dget a s /\ dget a t' = dget a t).
Proof.
  intros files l. induction l as [|c l IH]; intros s t N; cbn [fold_left]; [cbn [In]; tauto|]. inversion N; subst.
  destruct (start_stop_inds (bget c s) (bget c t) (total_length files c)) as (i, j) eqn:E.
  specialize (IH (dput c (Some i) s) (dput c (Some j) t) H2).
  destruct (fold_left _ l _) as (s', t'). destruct IH as (I1 & I2). split.
  - intros a [<-|Ha].
    + destruct (I2 c H1) as (J1 & J2). unfold bget at 1 2. rewrite J1, J2, !dget_dput_same. now rewrite E.
    + rewrite (I1 a Ha). assert (Hne : a <> c) by (intros ->; contradiction).
      unfold bget. now rewrite !dget_dput_other.
  - intros a Ha. cbn [In] in Ha. destruct (I2 a ltac:(tauto)) as (J1 & J2).
    assert (Hne : a <> c) by (intros ->; tauto). rewrite J1, J2. now rewrite !dget_dput_other.
Qed.

(** The loop. *)
Variables (files : list (tod V)) (first : tod V) (wanted : list str) (SS TT : str -> nat).
Variables (s t : str -> Z).
Hypothesis Hs : forall a, In a axes -> s a = Z.of_nat (SS a).
Hypothesis Ht : forall a, In a axes -> t a = Z.of_nat (TT a).
Hypothesis Hbounds : forall a, In a axes -> SS a <= TT a <= length (whole_index a files).
Hypothesis Haxes : NoDup axes.
Hypothesis HC : Compatible axes first files.

Lemma axis_length_ok : forall x a, axis_length x a = Z.of_nat (length (index_of a x)).
Proof. intros x a. unfold axis_length, index_of. now destruct (dget a (x_index x)). Qed.

Definition cur_of (done : list (tod V)) (a : str) : nat := length (whole_index a done).
Lemma whole_app : forall a u v, whole_index a (u ++ v) = whole_index a u ++ whole_index a (V:=V) v.
Proof. intros. apply flat_map_app. Qed.
Lemma rows_app : forall n u v, whole_rows n (u ++ v) = whole_rows n u ++ whole_rows n (V:=V) v.
Proof. intros. apply flat_map_app. Qed.

Lemma skipped_iff : forall S T cur n : nat,
  skipped (Z.of_nat S) (Z.of_nat T) (Z.of_nat cur) (Z.of_nat n) = true <-> T <= cur \/ cur + n <= S.
Proof.
  intros. unfold skipped. rewrite orb_true_iff, !Z.leb_le. lia.
Qed.

Section One.
Variables (done rest : list (tod V)) (x : tod V) (cur : str -> Z).
Hypothesis Hfiles : files = done ++ x :: rest.
Hypothesis Hcur : forall a, In a axes -> cur a = Z.of_nat (cur_of done a).

Lemma x_in : In x files.
Proof. rewrite Hfiles. apply in_or_app. right. now left. Qed.

Lemma index_fold : forall l index, NoDup l -> (forall a, In a l -> In a axes) ->
  (forall a, In a l -> dget a index = Some (st (SS a) (TT a) (cur_of done a) (whole_index a files))) ->
  exists index', fold_res (index_step s t cur x) index l = Ok index' /\
    (forall a, In a l -> dget a index' = Some (st (SS a) (TT a) (cur_of done a + length (index_of a x)) (whole_index a files))) /\
    (forall a, ~ In a l -> dget a index' = dget a index).
Proof.
  induction l as [|c l IH]; intros index N Hl Hi; cbn [fold_res].
  - exists index. cbn [In]. tauto.
  - apply NoDup_cons_iff in N; destruct N as (H1 & H2). assert (Hc : In c axes) by (apply Hl; now left).
    assert (E : exists i1, index_step s t cur x index c = Ok i1 /\
              dget c i1 = Some (st (SS c) (TT c) (cur_of done c + length (index_of c x)) (whole_index c files)) /\
              forall a, a <> c -> dget a i1 = dget a index).
    { unfold index_step. rewrite axis_length_ok, (Hs c Hc), (Ht c Hc), (Hcur c Hc).
      destruct (skipped _ _ _ _) eqn:K.
      - exists index. split; [reflexivity|]. split; [|auto]. apply skipped_iff in K.
        rewrite (Hi c (or_introl eq_refl)). rewrite st_same; [reflexivity|apply Hbounds, Hc|exact K].
      - assert (K' : ~ (TT c <= cur_of done c \/ cur_of done c + length (index_of c x) <= SS c))
          by (rewrite <- skipped_iff, K; discriminate).
        pose proof (st_step (SS c) (TT c) (whole_index c done) (index_of c x) (whole_index c rest)) as SA.
        assert (EW : whole_index c done ++ index_of c x ++ whole_index c rest = whole_index c files)
          by (rewrite Hfiles, whole_app; reflexivity).
        rewrite EW in SA. specialize (SA (Hbounds c Hc)). unfold cur_of in K'.
        specialize (SA ltac:(lia) ltac:(lia)). fold (cur_of done c) in SA.
        destruct (get_in_out_slice _ _ _ _) as ((ilo, ihi), (olo, ohi)).
        rewrite (Hi c (or_introl eq_refl)).
        destruct HC as (_ & HC2 & _). destruct (HC2 x c x_in Hc) as (lx & Elx). rewrite Elx.
        assert (Ei : index_of c x = lx) by (unfold index_of; now rewrite Elx). rewrite Ei in *.
        rewrite SA. cbn [rbind]. eexists. split; [reflexivity|]. split; [apply dget_dput_same|].
        intros a Hac. now apply dget_dput_other. }
    destruct E as (i1 & E1 & E2 & E3). rewrite E1. cbn [rbind].
    destruct (IH i1 H2) as (i2 & F1 & F2 & F3).
    + intros a Ha. apply Hl. now right.
    + intros a Ha. rewrite E3 by (intros ->; contradiction). apply Hi. now right.
    + exists i2. split; [exact F1|]. split.
      * intros a [<-|Ha]; [rewrite F3 by exact H1; exact E2|now apply F2].
      * intros a Ha. cbn [In] in Ha. rewrite F3 by tauto. apply E3. intros ->. tauto.
Qed.

(** Where a dataset is: not yet created or filled up to the current place. *)
Definition filled (c : nat) (n : str) (d : dset V) (a : str) (o : option (odset V)) : Prop :=
  match o with
  | None => wrote (SS a) (TT a) c = SS a
  | Some q => od_rows q = st (SS a) (TT a) c (whole_rows n files) /\ od_axis q = d_axis d
  end.

Lemma rows_length : forall (fs : list (tod V)) n d a, (forall y, In y fs -> In y files) ->
  dget n (x_dsets first) = Some d -> concat_axis axes d = Some a ->
  length (whole_rows n fs) = length (whole_index a fs).
Proof.
  intros fs n d a Hin Hn Ha. destruct HC as (_ & _ & _ & HC4 & HC5).
  induction fs as [|y fs IH]; [reflexivity|]. cbn [whole_rows whole_index flat_map]. rewrite !app_length.
  f_equal; [|apply IH; intros z Hz; apply Hin; now right].
  destruct (HC4 y n d (Hin y (or_introl eq_refl)) Hn) as (d' & E1 & E2).
  unfold rows_of. rewrite E1. apply (HC5 y n d' a); [apply Hin; now left|exact E1|].
  apply concat_axis_iff in Ha. unfold axes_of in *. now rewrite E2.
Qed.

Lemma dset_fold : forall l dsets, NoDup l ->
  (forall n, In n l -> exists d a, dget n (x_dsets first) = Some d /\ concat_axis axes d = Some a) ->
  (forall n d a, In n l -> In n wanted -> dget n (x_dsets first) = Some d -> concat_axis axes d = Some a ->
     filled (cur_of done a) n d a (dget n dsets)) ->
  exists dsets', fold_res (dset_step axes wanted s t cur x) dsets l = Ok dsets' /\
    (forall n d a, In n l -> In n wanted -> dget n (x_dsets first) = Some d -> concat_axis axes d = Some a ->
       filled (cur_of done a + length (index_of a x)) n d a (dget n dsets')) /\
    (forall n, ~ In n l \/ ~ In n wanted -> dget n dsets' = dget n dsets).
Proof.
  induction l as [|m l IH]; intros dsets N Hl Hi; cbn [fold_res].
  - exists dsets. cbn [In]. tauto.
  - apply NoDup_cons_iff in N; destruct N as (H1 & H2). destruct (Hl m (or_introl eq_refl)) as (d & a & Hd & Ha).
    assert (E : exists q1, dset_step axes wanted s t cur x dsets m = Ok q1 /\
              (In m wanted -> filled (cur_of done a + length (index_of a x)) m d a (dget m q1)) /\
              (~ In m wanted -> dget m q1 = dget m dsets) /\
              forall n, n <> m -> dget n q1 = dget n dsets).
    { unfold dset_step. pose proof HC as (_ & _ & _ & HC4 & HC5).
      destruct (HC4 x m d x_in Hd) as (d' & E1 & E2). rewrite E1.
      destruct (mem m wanted) eqn:Ew; cbn [negb].
      2:{ exists dsets. apply mem_not in Ew. split; [reflexivity|]. split; [contradiction|]. split; auto. }
      apply mem_iff in Ew. specialize (Hi m d a (or_introl eq_refl) Ew Hd Ha).
      assert (Ha' : concat_axis axes d' = Some a) by (unfold concat_axis in *; now rewrite E2).
      rewrite Ha'. assert (Hax : In a axes).
      { apply concat_axis_iff in Ha. destruct Ha as (? & ? & _ & Ha & _). exact Ha. }
      rewrite axis_length_ok, (Hs a Hax), (Ht a Hax), (Hcur a Hax).
      destruct (skipped _ _ _ _) eqn:K.
      - exists dsets. split; [reflexivity|]. apply skipped_iff in K. specialize (Hbounds a Hax). split; [|split; [contradiction|auto]].
        intros _. unfold filled in *. destruct (dget m dsets) as [q|].
        + rewrite st_same; [exact Hi|lia|exact K].
        + unfold wrote in *. lia.
      - assert (K' : ~ (TT a <= cur_of done a \/ cur_of done a + length (index_of a x) <= SS a))
          by (rewrite <- skipped_iff, K; discriminate).
        pose proof (rows_length done m d a ltac:(intros y Hy; rewrite Hfiles; apply in_or_app; now left) Hd Ha) as L1.
        pose proof (rows_length files m d a ltac:(auto) Hd Ha) as L2.
        assert (L3 : length (d_rows d') = length (index_of a x)).
        { apply (HC5 x m d' a x_in E1). now apply concat_axis_iff. }
        pose proof (st_step (SS a) (TT a) (whole_rows m done) (d_rows d') (whole_rows m rest)) as SB.
        assert (EW : whole_rows m done ++ d_rows d' ++ whole_rows m rest = whole_rows m files).
        { rewrite Hfiles, rows_app. f_equal. cbn [whole_rows flat_map]. f_equal. unfold rows_of. now rewrite E1. }
        rewrite EW, L1, L2, L3 in SB. fold (cur_of done a) in SB. specialize (SB (Hbounds a Hax)).
        specialize (SB ltac:(lia) ltac:(lia)).
        destruct (get_in_out_slice _ _ _ _) as ((ilo, ihi), (olo, ohi)).
        pose proof (Hbounds a Hax) as HB.
        assert (EQ : exists q, match dget m dsets with
                   | Some o => Ok o
                   | None => rbind (np_empty (Z.of_nat (TT a) - Z.of_nat (SS a))) (fun e => Ok (mkodset (d_axis d') (d_attrs d') e))
                   end = Ok q /\ od_rows q = st (SS a) (TT a) (cur_of done a) (whole_rows m files) /\ od_axis q = d_axis d).
        { unfold filled in Hi. destruct (dget m dsets) as [q|].
          - exists q. auto.
          - rewrite np_empty_ok by lia. cbn [rbind]. eexists. split; [reflexivity|]. cbn [od_rows od_axis]. split; [|exact E2].
            apply repeat_st; [lia|exact Hi]. }
        destruct EQ as (q & -> & Q1 & Q2). cbn [rbind]. rewrite Q1, SB. cbn [rbind].
        eexists. split; [reflexivity|]. split; [|split; [contradiction|]].
        + intros _. rewrite dget_dput_same. cbn [filled od_rows od_axis]. auto.
        + intros n Hn. now apply dget_dput_other. }
    destruct E as (q1 & E1 & E2 & E3 & E4). rewrite E1. cbn [rbind].
    destruct (IH q1 H2) as (q2 & F1 & F2 & F3).
    + intros n Hn. apply Hl. now right.
    + intros n d0 a0 Hn Hw Hd0 Ha0. rewrite E4 by (intros ->; contradiction). apply Hi; auto. now right.
    + exists q2. split; [exact F1|]. split.
      * intros n d0 a0 [<-|Hn] Hw Hd0 Ha0; [|now apply F2].
        rewrite F3 by (now left). rewrite Hd in Hd0. injection Hd0 as <-. rewrite Ha in Ha0. injection Ha0 as <-. auto.
      * intros n Hn. cbn [In] in Hn. destruct (str_eq_dec n m) as [->|Hne].
        -- destruct Hn as [Hn|Hn]; [tauto|]. rewrite F3 by (now right). auto.
        -- rewrite F3 by tauto. now apply E4.
Qed.
End One.


(** Writing to an array that was just read succeeds as well. *)
Lemma np_set_length : forall {A} (a : list (option A)) lo hi v r, np_set a lo hi v = Ok r -> length r = length a.
Proof.
  intros A a lo hi v r. unfold np_set. destruct (Nat.eqb_spec (Nat.max (Nat.min (Z.to_nat lo) (length a)) (Nat.min (Z.to_nat hi) (length a)) - Nat.min (Z.to_nat lo) (length a)) (length v)) as [E|E]; [|discriminate].
  intros H. injection H as <-. rewrite !app_length, map_length, firstn_length, skipn_length. lia.
Qed.
Lemma np_set_shape : forall {A} (a a' : list (option A)) lo hi v r, length a = length a' ->
  np_set a lo hi v = Ok r -> exists r', np_set a' lo hi v = Ok r'.
Proof.
  intros A a a' lo hi v r L. unfold np_set. rewrite L. destruct (_ =? _); [|discriminate]. eauto.
Qed.
Lemma st_length : forall {A} S T c (F : list A), S <= T <= length F -> length (st S T c F) = T - S.
Proof.
  intros A S T c F H. unfold st. rewrite app_length, map_length, repeat_length, length_lslice; unfold wrote; lia.
Qed.

Section Disk.
Variables (done rest : list (tod V)) (x : tod V) (cur : str -> Z).
Hypothesis Hfiles : files = done ++ x :: rest.
Hypothesis Hcur : forall a, In a axes -> cur a = Z.of_nat (cur_of done a).
Lemma index_fold_disk : forall l index, NoDup l -> (forall a, In a l -> In a axes) ->
  (forall a, In a l -> exists q, dget a index = Some q /\ length q = TT a - SS a) ->
  exists index', fold_res (index_step s t cur x) index l = Ok index'.
Proof.
  induction l as [|c l IH]; intros index N Hl Hi; cbn [fold_res]; [eauto|].
  apply NoDup_cons_iff in N; destruct N as (H1 & H2). assert (Hc : In c axes) by (apply Hl; now left).
  assert (E : exists i1, index_step s t cur x index c = Ok i1 /\ forall a, a <> c -> dget a i1 = dget a index).
  { destruct (index_fold done rest x cur Hfiles Hcur [c] [(c, st (SS c) (TT c) (cur_of done c) (whole_index c files))]) as (i1 & E & _).
    - constructor; [easy|constructor].
    - intros a [<-|[]]. exact Hc.
    - intros a [<-|[]]. cbn [dget]. now rewrite seqb_refl.
    - cbn [fold_res] in E. revert E. unfold index_step.
      rewrite axis_length_ok, (Hs c Hc), (Ht c Hc), (Hcur c Hc).
      destruct (skipped _ _ _ _); [exists index; auto|].
      destruct (get_in_out_slice _ _ _ _) as ((ilo, ihi), (olo, ohi)).
      destruct (Hi c (or_introl eq_refl)) as (q & -> & Lq). cbn [dget]. rewrite seqb_refl.
      destruct (dget c (x_index x)) as [lx|]; [|discriminate].
      destruct (np_set (st _ _ _ _) _ _ _) as [r|] eqn:E; [|discriminate]. intros _.
      destruct (np_set_shape _ q _ _ _ _ ltac:(rewrite st_length by (apply Hbounds, Hc); symmetry; exact Lq) E) as (r' & ->).
      cbn [rbind]. eexists. split; [reflexivity|]. intros a Ha. now apply dget_dput_other. }
  destruct E as (i1 & E1 & E2). rewrite E1. cbn [rbind]. apply IH; [exact H2|intros a Ha; apply Hl; now right|].
  intros a Ha. rewrite E2 by (intros ->; contradiction). apply Hi. now right.
Qed.
End Disk.

Definition index_cell (disk : bool) (done : list (tod V)) (a : str) : list (option V) :=
  if disk then repeat None (TT a - SS a) else st (SS a) (TT a) (cur_of done a) (whole_index a files).

Lemma main_ok : forall disk rest done cur index dsets,
  files = done ++ rest ->
  (forall a, In a axes -> cur a = Z.of_nat (cur_of done a)) ->
  (forall a, In a axes -> dget a index = Some (index_cell disk done a)) ->
  (forall n d a, In n wanted -> dget n (x_dsets first) = Some d -> concat_axis axes d = Some a ->
     filled (cur_of done a) n d a (dget n dsets)) ->
  exists index' dsets', main_loop axes disk wanted s t cur rest index dsets = Ok (index', dsets') /\
    (forall a, In a axes -> dget a index' = Some (index_cell disk files a)) /\
    (forall a, ~ In a axes -> dget a index' = dget a index) /\
    (forall n d a, In n wanted -> dget n (x_dsets first) = Some d -> concat_axis axes d = Some a ->
       filled (cur_of files a) n d a (dget n dsets')) /\
    (forall n, ~ In n wanted \/ (forall d, dget n (x_dsets first) = Some d -> concat_axis axes d = None) ->
       dget n dsets' = dget n dsets).
Proof.
  intros disk rest. induction rest as [|x rest IH]; intros done cur index dsets Hf Hcur Hi Hd.
  - cbn [main_loop]. exists index, dsets. rewrite app_nil_r in Hf. subst done. auto.
  - cbn [main_loop].
    assert (Hx : In x files) by (rewrite Hf; apply in_or_app; right; now left).
    assert (E : exists i1, fold_res (index_step s t cur x) index axes = Ok i1 /\
              (forall a, In a axes -> dget a (if disk then index else i1) = Some (index_cell disk (done ++ [x]) a)) /\
              (forall a, ~ In a axes -> dget a (if disk then index else i1) = dget a index)).
    { unfold index_cell in *. destruct disk.
      - destruct (index_fold_disk done rest x cur Hf Hcur axes index Haxes (fun a H => H)) as (i1 & E1).
        + intros a Ha. exists (repeat None (TT a - SS a)). split; [now apply Hi|apply repeat_length].
        + exists i1. auto.
      - destruct (index_fold done rest x cur Hf Hcur axes index Haxes (fun a H => H) Hi) as (i1 & E1 & E2 & E3).
        exists i1. split; [exact E1|]. split; [|exact E3]. intros a Ha. rewrite (E2 a Ha). unfold cur_of.
        rewrite whole_app, app_length. cbn [whole_index flat_map]. now rewrite app_nil_r. }
    destruct E as (i1 & E1 & E2 & E3). rewrite E1. cbn [rbind].
    rewrite time_names_exact. cbn [rbind].
    pose proof HC as (HC1 & HC2 & HC3 & HC4 & HC5). destruct (HC1 x Hx) as (Nx & _).
    assert (Hnames : forall n, In n (map fst (filter timed (py_sorted pair_le (x_dsets x)))) <->
              exists d a, dget n (x_dsets first) = Some d /\ concat_axis axes d = Some a).
    { intros n. rewrite (time_names_in x n Nx). split.
      - intros (d & a & H1 & H2). assert (Hin : In n (map fst (x_dsets first))).
        { apply (HC3 x n Hx). apply dget_in. eauto. }
        apply dget_in in Hin. destruct Hin as (d0 & Hd0). exists d0, a. split; [exact Hd0|].
        destruct (HC4 x n d0 Hx Hd0) as (d' & F1 & F2). rewrite H1 in F1. injection F1 as <-.
        unfold concat_axis in *. now rewrite <- F2.
      - intros (d & a & H1 & H2). destruct (HC4 x n d Hx H1) as (d' & F1 & F2). exists d', a. split; [exact F1|].
        unfold concat_axis in *. now rewrite F2. }
    destruct (dset_fold done rest x cur Hf Hcur (map fst (filter timed (py_sorted pair_le (x_dsets x)))) dsets) as (q & Q1 & Q2 & Q3).
    + now apply time_names_nodup.
    + intros n Hn. now apply Hnames.
    + intros n d a _. apply Hd.
    + rewrite Q1. cbn [rbind].
      destruct (IH (done ++ [x]) (fun a => (cur a + axis_length x a)%Z) (if disk then index else i1) q) as (i2 & q2 & G0 & G1 & G2 & G3 & G4).
      * rewrite <- app_assoc. exact Hf.
      * intros a Ha. rewrite (Hcur a Ha), axis_length_ok. unfold cur_of. rewrite whole_app, app_length.
        cbn [whole_index flat_map]. rewrite app_nil_r. lia.
      * exact E2.
      * intros n d a Hw Hn Ha. specialize (Q2 n d a ltac:(apply Hnames; eauto) Hw Hn Ha). unfold cur_of in *.
        rewrite whole_app, app_length. cbn [whole_index flat_map]. now rewrite app_nil_r.
      * exists i2, q2. split; [exact G0|]. split; [exact G1|]. split; [|split; [exact G3|]].
        -- intros a Ha. rewrite G2 by exact Ha. now apply E3.
        -- intros n Hn. rewrite G4 by exact Hn. apply Q3. destruct Hn as [Hn|Hn]; [now right|left].
           intros H. apply Hnames in H. destruct H as (d & a & H1 & H2). rewrite (Hn d H1) in H2. discriminate.
Qed.
End Container.
