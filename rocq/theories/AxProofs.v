From Coq Require Import List ZArith Bool Lia.
From Verif Require Import PyBase SliceModel RedModel RedProofs AxModel AxSpec.
Import ListNotations.
Open Scope nat_scope.

(** *** Reductions *)
Lemma existsb_Zeqb : forall l x, existsb (Z.eqb x) l = true <-> In x l.
Proof.
  intros l x. rewrite existsb_exists. split.
  - intros (y & Hy & E). apply Z.eqb_eq in E. subst. exact Hy.
  - intros H. exists x. split; [exact H|apply Z.eqb_refl].
Qed.
Lemma existsb_neqb : forall l x, existsb (Nat.eqb x) l = true <-> In x l.
Proof.
  intros l x. rewrite existsb_exists. split.
  - intros (y & Hy & E). apply Nat.eqb_eq in E. subst. exact Hy.
  - intros H. exists x. split; [exact H|apply Nat.eqb_refl].
Qed.

Lemma norm_names : forall ndim axes red,
  Forall2 (AxisName ndim) axes red ->
  map (fun ax => if (0 <=? ax)%Z then ax else (Z.of_nat ndim + ax)%Z) axes = map Z.of_nat red.
Proof.
  intros ndim axes red H. induction H as [|z k axes red (Hk & Hz) H IH]; [reflexivity|].
  cbn [map]. rewrite IH. f_equal.
  destruct (Z.leb_spec 0 z); lia.
Qed.

Lemma existsb_map_of_nat : forall red k,
  existsb (Z.eqb (Z.of_nat k)) (map Z.of_nat red) = existsb (Nat.eqb k) red.
Proof.
  induction red as [|r red IH]; intros k; cbn [map existsb]; [reflexivity|].
  rewrite IH. f_equal. destruct (Nat.eqb_spec k r) as [->|Hn]; [apply Z.eqb_refl|].
  apply Z.eqb_neq. lia.
Qed.

Lemma fold_count : forall (P : nat -> bool) l z,
  fold_left (fun final ii => if P ii then (final - 1)%Z else final) l z
  = (z - Z.of_nat (length (filter P l)))%Z.
Proof.
  intros P l. induction l as [|a l IH]; intros z; cbn [fold_left filter]; [cbn; lia|].
  rewrite IH. destruct (P a); cbn [length]; lia.
Qed.

Lemma nth_filter_seq : forall (P : nat -> bool) n s k,
  s <= k < s + n -> P k = true ->
  nth_error (filter P (seq s n))
    (length (filter P (seq s (k - s)))) = Some k.
Proof.
  intros P n. induction n as [|n IH]; intros s k Hk HP; [lia|].
  destruct (Nat.eq_dec k s) as [->|Hne].
  - rewrite Nat.sub_diag. cbn [seq filter length]. rewrite HP. reflexivity.
  - replace (k - s) with (S (k - S s)) by lia. cbn [seq filter].
    destruct (P s); cbn [length]; [cbn [nth_error]|]; apply IH; (lia || exact HP).
Qed.

Lemma filter_compl_len : forall (P : nat -> bool) l,
  length (filter P l) + length (filter (fun x => negb (P x)) l) = length l.
Proof.
  induction l as [|a l IH]; [reflexivity|]. cbn [filter].
  destruct (P a); cbn [negb length]; lia.
Qed.

Lemma filter_lt_seq : forall (P : nat -> bool) n k,
  k <= n ->
  filter (fun i => P i && (i <? k)) (seq 0 n) = filter P (seq 0 k).
Proof.
  intros P n k H. replace n with (k + (n - k)) by lia.
  rewrite seq_app, filter_app.
  rewrite (filter_ext_in _ P).
  2:{ intros a Ha. apply in_seq in Ha. destruct (Nat.ltb_spec a k); [apply andb_true_r|lia]. }
  rewrite <- (app_nil_r (filter P (seq 0 k))) at 2. f_equal.
  cbn. assert (forall m s, k <= s -> filter (fun i => P i && (i <? k)) (seq s m) = []) as E.
  { induction m as [|m IH]; intros s Hs; [reflexivity|]. cbn [seq filter].
    destruct (Nat.ltb_spec s k); [lia|]. rewrite andb_false_r. apply IH. lia. }
  apply E. lia.
Qed.

Lemma reduce_ok : forall ndim k axes red keep,
  k < ndim -> Forall2 (AxisName ndim) axes red ->
  (In k red -> ufunc_reduce ndim (Z.of_nat k) axes keep = Err AxisException) /\
  (~ In k red -> forall out, AxesOfReduction ndim red keep out ->
     exists p, ufunc_reduce ndim (Z.of_nat k) axes keep = Ok (Z.of_nat p)
               /\ nth_error out p = Some k).
Proof.
  intros ndim k axes red keep Hk HF. unfold ufunc_reduce.
  rewrite (norm_names _ _ _ HF), existsb_map_of_nat. split.
  - intros Hin. apply existsb_neqb in Hin. rewrite Hin. reflexivity.
  - intros Hn out Ho. unfold AxesOfReduction in Ho. subst out.
    destruct (existsb (Nat.eqb k) red) eqn:E; [apply existsb_neqb in E; tauto|].
    destruct keep.
    + exists k. split.
      * f_equal. rewrite (fold_count (fun ii => existsb (Z.eqb (Z.of_nat ii)) (map Z.of_nat red)
           && (Z.of_nat ii <? Z.of_nat k)%Z && negb true)).
        cbn [negb]. rewrite (filter_ext _ (fun _ => false)).
        2:{ intros a. rewrite !andb_false_r. reflexivity. }
        replace (filter (fun _ : nat => false) (seq 0 ndim)) with (@nil nat); [cbn; lia|].
        generalize (seq 0 ndim). induction l; [reflexivity|exact IHl].
      * rewrite nth_error_nth' with (d := 0) by (rewrite seq_length; exact Hk).
        rewrite seq_nth by exact Hk. reflexivity.
    + exists (length (filter (fun i => negb (existsb (Nat.eqb i) red)) (seq 0 (k - 0)))).
      split.
      * f_equal.
        rewrite (fold_count (fun ii => existsb (Z.eqb (Z.of_nat ii)) (map Z.of_nat red)
           && (Z.of_nat ii <? Z.of_nat k)%Z && negb false)).
        rewrite (filter_ext _ (fun i => existsb (Nat.eqb i) red && (i <? k))).
        2:{ intros a. cbn [negb]. rewrite andb_true_r, existsb_map_of_nat. f_equal.
            destruct (Nat.ltb_spec a k); [apply Z.ltb_lt|apply Z.ltb_ge]; lia. }
        rewrite filter_lt_seq by lia.
        pose proof (filter_compl_len (fun i => existsb (Nat.eqb i) red) (seq 0 k)) as HL.
        rewrite seq_length in HL. rewrite Nat.sub_0_r. cbv beta in HL. lia.
      * apply (nth_filter_seq (fun i => negb (existsb (Nat.eqb i) red)) ndim 0 k); [lia|].
        cbv beta. rewrite E. reflexivity.
Qed.

(** *** Transposition *)
Lemma index_of_spec : forall l x p, index_of x l = Some p ->
  nth_error l p = Some x.
Proof.
  induction l as [|y l IH]; intros x p H; [discriminate|]. cbn [index_of] in H.
  destruct (Z.eqb_spec x y) as [->|].
  - injection H as <-. reflexivity.
  - destruct (index_of x l) eqn:E; [|discriminate]. injection H as <-. cbn. apply IH, E.
Qed.
Lemma index_of_in : forall l x, In x l -> exists p, index_of x l = Some p.
Proof.
  induction l as [|y l IH]; intros x H; [contradiction|]. cbn [index_of].
  destruct (Z.eqb_spec x y) as [->|]; [eexists; reflexivity|].
  destruct H as [->|H]; [contradiction|]. destruct (IH _ H) as (p & ->). eexists; reflexivity.
Qed.

(** *** Transposition, continued *)
Lemma transpose_ok : forall ndim k gshape axes perm a,
  k < ndim ->
  (a = TEmpty /\ perm = rev (seq 0 ndim)) \/ (a = TAxes axes /\ axes = map Z.of_nat perm) ->
  Permutation.Permutation perm (seq 0 ndim) ->
  exists p, mpi_transpose ndim (Z.of_nat k) gshape a
            = Ok (Z.of_nat p, map (fun i => nth i gshape 0) perm)
            /\ nth_error perm p = Some k.
Proof.
  intros ndim k gshape axes perm a Hk Ha HP.
  assert (HT : mpi_transpose ndim (Z.of_nat k) gshape (TAxes (map Z.of_nat perm))
               = mpi_transpose ndim (Z.of_nat k) gshape a).
  { destruct Ha as [(-> & ->)|(-> & ->)]; reflexivity. }
  rewrite <- HT. clear HT Ha. cbn [mpi_transpose].
  assert (Hn : map (fun x => if (0 <=? x)%Z then x else (x + Z.of_nat ndim)%Z) (map Z.of_nat perm)
               = map Z.of_nat perm).
  { rewrite map_map. apply map_ext. intros i. destruct (Z.leb_spec 0 (Z.of_nat i)); lia. }
  rewrite Hn.
  assert (Hall : forallb (fun k => existsb (Z.eqb (Z.of_nat k)) (map Z.of_nat perm)) (seq 0 ndim) = true).
  { apply forallb_forall. intros x Hx. rewrite existsb_map_of_nat. apply existsb_neqb.
    apply (Permutation.Permutation_in x (Permutation.Permutation_sym HP) Hx). }
  rewrite Hall. rewrite map_length, (Permutation.Permutation_length HP), seq_length, Nat.eqb_refl.
  cbn [andb negb].
  assert (Hin : In (Z.of_nat k) (map Z.of_nat perm)).
  { apply in_map. apply (Permutation.Permutation_in k (Permutation.Permutation_sym HP)).
    apply in_seq. lia. }
  destruct (index_of_in _ _ Hin) as (p & Hp). rewrite Hp. exists p. split.
  - do 2 f_equal. rewrite map_map. apply map_ext. intros i.
    destruct (Z.leb_spec 0 (Z.of_nat i)); [|lia]. rewrite Nat2Z.id. reflexivity.
  - apply index_of_spec in Hp. rewrite nth_error_map in Hp.
    destruct (nth_error perm p) as [x|]; [|discriminate]. cbn in Hp. injection Hp as Hp.
    f_equal. lia.
Qed.

(** *** Basic indexing *)
Lemma find_ell_split : forall l, existsb is_ell l = true ->
  exists a b, l = a ++ IEll :: b /\ existsb is_ell a = false /\ find_ell l = length a.
Proof.
  induction l as [|e l IH]; intros H; [discriminate|]. cbn [existsb] in H.
  destruct e; cbn [is_ell orb] in H; cbn [find_ell is_ell];
    try (destruct (IH H) as (a & b & -> & Ha & ->);
         eexists (_ :: a), b; split; [reflexivity|split; [exact Ha|reflexivity]]).
  exists [], l. repeat split; reflexivity.
Qed.

Lemma filter_ell_none : forall l, existsb is_ell l = false <-> length (filter is_ell l) = 0.
Proof.
  induction l as [|e l IH]; cbn [existsb filter length]; [tauto|].
  destruct (is_ell e); cbn [orb length]; [split; discriminate|exact IH].
Qed.

Lemma consumed_app : forall a b, consumed (a ++ b) = consumed a + consumed b.
Proof. induction a as [|e a IH]; intros b; [reflexivity|]. destruct e; cbn [app consumed]; rewrite IH; lia. Qed.

Lemma consumed_len : forall l,
  consumed l + length (filter is_new l) + length (filter is_ell l) = length l.
Proof. induction l as [|e l IH]; [reflexivity|]. destruct e; cbn [consumed filter is_new is_ell length]; lia. Qed.

(** Items of an index without ellipsis that consumes every axis. *)
Fixpoint items (idx : list ient) (axes : list nat) : list (option nat * ient) :=
  match idx with
  | [] => []
  | INew :: t => (None, INew) :: items t axes
  | e :: t => match axes with a :: axes' => (Some a, e) :: items t axes' | [] => [] end
  end.

Lemma np_items_noell : forall a b axes,
  existsb is_ell a = false -> consumed a <= length axes ->
  np_items (a ++ b) axes = items a (firstn (consumed a) axes) ++ np_items b (skipn (consumed a) axes).
Proof.
  induction a as [|e a IH]; intros b axes H HL; [reflexivity|].
  destruct e; cbn [existsb is_ell orb] in H; try discriminate.
  - cbn [app np_items consumed items]. rewrite (IH b axes H) by exact HL. reflexivity.
  - cbn [consumed] in *. destruct axes as [|x axes]; cbn [length] in HL; [lia|].
    cbn [app np_items items firstn skipn]. rewrite (IH b axes H) by lia. reflexivity.
  - cbn [consumed] in *. destruct axes as [|x axes]; cbn [length] in HL; [lia|].
    cbn [app np_items items firstn skipn]. rewrite (IH b axes H) by lia. reflexivity.
Qed.

Lemma items_app : forall a b axes,
  existsb is_ell a = false -> consumed a <= length axes ->
  items (a ++ b) axes = items a (firstn (consumed a) axes) ++ items b (skipn (consumed a) axes).
Proof.
  induction a as [|e a IH]; intros b axes H HL; [reflexivity|].
  destruct e; cbn [existsb is_ell orb] in H; try discriminate.
  - cbn [app items consumed]. rewrite (IH b axes H) by exact HL. reflexivity.
  - cbn [consumed] in *. destruct axes as [|x axes]; cbn [length] in HL; [lia|].
    cbn [app items firstn skipn]. rewrite (IH b axes H) by lia. reflexivity.
  - cbn [consumed] in *. destruct axes as [|x axes]; cbn [length] in HL; [lia|].
    cbn [app items firstn skipn]. rewrite (IH b axes H) by lia. reflexivity.
Qed.

Lemma np_items_full : forall a axes, existsb is_ell a = false -> consumed a = length axes ->
  np_items a axes = items a axes.
Proof.
  intros a axes H HL. rewrite <- (app_nil_r a) at 1.
  rewrite np_items_noell by (assumption || lia). rewrite HL, firstn_all, skipn_all. cbn. apply app_nil_r.
Qed.

Lemma items_repeat_full : forall axes,
  items (repeat (ISl full_slice) (length axes)) axes = map (fun a => (Some a, ISl full_slice)) axes.
Proof. induction axes as [|a axes IH]; [reflexivity|]. cbn [length repeat items map]. rewrite IH. reflexivity. Qed.

Lemma consumed_repeat : forall k s, consumed (repeat (ISl s) k) = k.
Proof. induction k; intros s; cbn; [reflexivity|]. rewrite IHk. reflexivity. Qed.
Lemma noell_repeat : forall k s, existsb is_ell (repeat (ISl s) k) = false.
Proof. induction k; intros s; cbn; [reflexivity|]. apply IHk. Qed.

(** The normal form that sanitize_slice builds. *)
Lemma sanitize_form : forall idx n,
  IndexOk idx n ->
  exists sl, sanitize_slice idx n = Ok (sl, axis_positions 0 sl, final_positions 0 sl)
    /\ existsb is_ell sl = false /\ consumed sl = n
    /\ np_items idx (seq 0 n) = items sl (seq 0 n).
Proof.
  intros idx n (Hell & Hc). unfold sanitize_slice.
  destruct (Nat.ltb_spec 1 (length (filter is_ell idx))) as [|_]; [lia|].
  set (idx' := if (length (filter is_ell idx) =? 0)%nat then idx ++ [IEll] else idx).
  assert (HI : exists a b, idx' = a ++ IEll :: b /\ existsb is_ell a = false
                /\ existsb is_ell b = false /\ consumed a + consumed b <= n
                /\ np_items idx (seq 0 n) = np_items (a ++ IEll :: b) (seq 0 n)).
  { unfold idx'. destruct (Nat.eqb_spec (length (filter is_ell idx)) 0) as [E|E].
    - exists idx, []. apply filter_ell_none in E. repeat split; try assumption.
      + cbn [consumed]. lia.
      + rewrite <- (app_nil_r idx) at 1. rewrite !np_items_noell by (assumption || (rewrite seq_length; lia)).
        f_equal. cbn [np_items consumed]. rewrite Nat.sub_0_r, firstn_all, skipn_all. cbn [map].
        rewrite app_nil_r. reflexivity.
    - assert (X : existsb is_ell idx = true).
      { destruct (existsb is_ell idx) eqn:Y; [reflexivity|]. apply filter_ell_none in Y. lia. }
      destruct (find_ell_split _ X) as (a & b & Hab & Ha & _). exists a, b.
      split; [exact Hab|]. split; [exact Ha|].
      assert (Hb : length (filter is_ell b) = 0).
      { rewrite Hab, filter_app in Hell. cbn [filter is_ell] in Hell.
        rewrite app_length in Hell. cbn [length] in Hell. lia. }
      split; [apply filter_ell_none; exact Hb|].
      rewrite Hab, consumed_app in Hc. cbn [consumed] in Hc. split; [exact Hc|].
      rewrite Hab. reflexivity. }
  destruct HI as (a & b & Hab & Ha & Hb & Hn & Hit).
  assert (HF : find_ell (a ++ IEll :: b) = length a).
  { clear - Ha. induction a as [|e a IH]; [reflexivity|].
    cbn [existsb] in Ha. apply orb_false_iff in Ha as (H1 & H2).
    cbn [app find_ell]. rewrite H1. cbn [length]. f_equal. apply IH, H2. }
  rewrite Hab.
  pose proof (consumed_len (a ++ IEll :: b)) as HL.
  assert (HE : length (filter is_ell (a ++ IEll :: b)) = 1).
  { rewrite filter_app, app_length. cbn [filter is_ell length].
    rewrite (proj1 (filter_ell_none a) Ha), (proj1 (filter_ell_none b) Hb). reflexivity. }
  rewrite HE in HL. rewrite consumed_app in HL. cbn [consumed] in HL.
  set (k := n - (consumed a + consumed b)).
  assert (HK : (Z.of_nat n - Z.of_nat (length (a ++ IEll :: b))
                + Z.of_nat (length (filter is_new (a ++ IEll :: b))) + 1)%Z = Z.of_nat k).
  { unfold k. lia. }
  rewrite HK. destruct (Z.ltb_spec (Z.of_nat k) 0); [lia|]. rewrite Nat2Z.id, HF.
  rewrite firstn_app, Nat.sub_diag, firstn_all, firstn_O, app_nil_r.
  rewrite skipn_app, skipn_all2 by lia. replace (length a + 1 - length a) with 1 by lia.
  cbn [skipn app].
  set (sl := a ++ repeat (ISl full_slice) k ++ b).
  assert (Hsl : existsb is_ell sl = false).
  { unfold sl. rewrite !existsb_app, Ha, Hb, noell_repeat. reflexivity. }
  assert (Hcs : consumed sl = n).
  { unfold sl. rewrite !consumed_app, consumed_repeat. unfold k. lia. }
  assert (Hap : forall l ii, existsb is_ell l = false -> length (axis_positions ii l) = consumed l).
  { clear. induction l as [|e l IH]; intros ii H; [reflexivity|].
    cbn [existsb] in H. apply orb_false_iff in H as (H1 & H2).
    destruct e; cbn [axis_positions is_new consumed length]; try (rewrite IH by exact H2; reflexivity).
    discriminate. }
  rewrite Hap, Hcs by exact Hsl. rewrite Nat.ltb_irrefl.
  exists sl. split; [reflexivity|]. split; [exact Hsl|]. split; [exact Hcs|].
  rewrite Hit. rewrite np_items_noell by (assumption || (rewrite seq_length; lia)).
  unfold sl. rewrite (items_app a) by (assumption || (rewrite seq_length; lia)). f_equal.
  cbn [np_items]. rewrite skipn_length, seq_length.
  replace (n - consumed a - consumed b) with k by (unfold k; lia).
  set (rest := skipn (consumed a) (seq 0 n)).
  assert (Hr : length rest = k + consumed b).
  { unfold rest. rewrite skipn_length, seq_length. unfold k. lia. }
  rewrite items_app by (try apply noell_repeat; rewrite consumed_repeat; lia).
  rewrite consumed_repeat. f_equal.
  - rewrite <- items_repeat_full. f_equal. f_equal. rewrite firstn_length. lia.
  - apply np_items_full; [exact Hb|]. rewrite skipn_length. lia.
Qed.

Lemma items_lookup : forall sl axes ii k,
  existsb is_ell sl = false -> consumed sl = length axes -> k < length axes ->
  exists d e, nth_error (axis_positions ii sl) k = Some (ii + d)
    /\ nth_error sl d = Some e
    /\ nth_error (items sl axes) d = Some (nth_error axes k, e).
Proof.
  induction sl as [|e sl IH]; intros axes ii k H HL Hk; [cbn in HL; lia|].
  cbn [existsb] in H. apply orb_false_iff in H as (H1 & H2).
  destruct e as [|i|s|]; [| | |discriminate].
  - cbn [consumed] in HL. destruct (IH axes (S ii) k H2 HL Hk) as (d & e & A & B & C).
    exists (S d), e. cbn [axis_positions is_new items nth_error]. rewrite A, B, C.
    repeat split. f_equal. lia.
  - cbn [consumed] in HL. destruct axes as [|x axes]; [cbn in Hk; lia|]. cbn [length] in *.
    destruct k as [|k].
    + exists 0, (IInt i). cbn. repeat split. f_equal. lia.
    + destruct (IH axes (S ii) k H2) as (d & e & A & B & C); [lia|lia|].
      exists (S d), e. cbn [axis_positions is_new items nth_error]. rewrite A, B, C.
      repeat split. f_equal. lia.
  - cbn [consumed] in HL. destruct axes as [|x axes]; [cbn in Hk; lia|]. cbn [length] in *.
    destruct k as [|k].
    + exists 0, (ISl s). cbn. repeat split. f_equal. lia.
    + destruct (IH axes (S ii) k H2) as (d & e & A & B & C); [lia|lia|].
      exists (S d), e. cbn [axis_positions is_new items nth_error]. rewrite A, B, C.
      repeat split. f_equal. lia.
Qed.

Lemma items_snd : forall sl axes, existsb is_ell sl = false -> consumed sl = length axes ->
  map snd (items sl axes) = sl.
Proof.
  induction sl as [|e sl IH]; intros axes H HL; [reflexivity|].
  cbn [existsb] in H. apply orb_false_iff in H as (H1 & H2).
  destruct e as [|i|s|]; [| | |discriminate]; cbn [consumed] in HL.
  - cbn [items map snd]. rewrite IH by assumption. reflexivity.
  - destruct axes as [|x axes]; [cbn in HL; lia|]. cbn [length] in HL.
    cbn [items map snd]. rewrite IH by (assumption || lia). reflexivity.
  - destruct axes as [|x axes]; [cbn in HL; lia|]. cbn [length] in HL.
    cbn [items map snd]. rewrite IH by (assumption || lia). reflexivity.
Qed.

Lemma final_positions_spec : forall (its : list (option nat * ient)) o d x e,
  nth_error its d = Some (x, e) -> is_int e = false ->
  exists p, nth_error (final_positions o (map snd its)) d = Some (Some (o + p))
    /\ nth_error (map fst (filter (fun it => match snd it with IInt _ => false | _ => true end) its)) p
       = Some x.
Proof.
  induction its as [|(y, f) its IH]; intros o d x e H He; [destruct d; discriminate|].
  destruct d as [|d].
  - cbn [nth_error] in H. injection H as -> ->. exists 0.
    destruct e; cbn [map snd final_positions is_int filter fst nth_error] in *; try discriminate;
      (split; [do 2 f_equal; lia|reflexivity]).
  - cbn [nth_error] in H.
    destruct f; cbn [map snd final_positions is_int filter].
    1,3,4: destruct (IH (S o) d x e H He) as (p & A & B); exists (S p);
      cbn [nth_error map fst]; rewrite A, B; split; [do 2 f_equal; lia|reflexivity].
    destruct (IH o d x e H He) as (p & A & B); exists p;
      cbn [nth_error map fst]; rewrite A, B; split; reflexivity.
Qed.

Lemma items_nodup : forall sl axes k x e,
  NoDup axes -> existsb is_ell sl = false -> consumed sl = length axes ->
  In (Some x, e) (items sl axes) -> nth_error axes k = Some x ->
  forall d f, nth_error (items sl axes) d = Some (Some x, f) -> e = f.
Proof.
  induction sl as [|g sl IH]; intros axes k x e HN H HL Hin Hk d f Hd; [contradiction|].
  cbn [existsb] in H. apply orb_false_iff in H as (H1 & H2).
  assert (G : forall l ax, In (Some x, l) (items sl ax) -> In x ax).
  { clear. induction sl as [|g sl IH]; intros l ax Hin; [contradiction|].
    destruct g as [|i|s|]; cbn [items] in Hin.
    - destruct Hin as [Hin|Hin]; [discriminate|]. eapply IH, Hin.
    - destruct ax as [|a ax]; [contradiction|]. destruct Hin as [Hin|Hin]; [injection Hin as -> _; left; reflexivity|right; eapply IH, Hin].
    - destruct ax as [|a ax]; [contradiction|]. destruct Hin as [Hin|Hin]; [injection Hin as -> _; left; reflexivity|right; eapply IH, Hin].
    - destruct ax as [|a ax]; [contradiction|]. destruct Hin as [Hin|Hin]; [injection Hin as -> _; left; reflexivity|right; eapply IH, Hin]. }
  destruct g as [|i|s|]; [| | |discriminate]; cbn [consumed items] in *.
  - destruct Hin as [Hin|Hin]; [discriminate|]. destruct d as [|d]; [discriminate|].
    cbn [nth_error] in Hd. eapply (IH axes k x e); eassumption.
  - destruct axes as [|a axes]; [contradiction|]. cbn [length] in HL.
    assert (HN2 := HN). apply NoDup_cons_iff in HN2 as (Hna & HN').
    destruct Hin as [Hin|Hin]; destruct d as [|d]; cbn [nth_error] in Hd.
    + congruence.
    + injection Hin as -> <-. apply nth_error_In in Hd. apply G in Hd. contradiction.
    + injection Hd as -> <-. apply G in Hin. contradiction.
    + pose proof (G _ _ Hin) as Hx. destruct (In_nth_error _ _ Hx) as (k' & Hk').
      eapply (IH axes k' x e); try eassumption. lia.
  - destruct axes as [|a axes]; [contradiction|]. cbn [length] in HL.
    assert (HN2 := HN). apply NoDup_cons_iff in HN2 as (Hna & HN').
    destruct Hin as [Hin|Hin]; destruct d as [|d]; cbn [nth_error] in Hd.
    + congruence.
    + injection Hin as -> <-. apply nth_error_In in Hd. apply G in Hd. contradiction.
    + injection Hd as -> <-. apply G in Hin. contradiction.
    + pose proof (G _ _ Hin) as Hx. destruct (In_nth_error _ _ Hx) as (k' & Hk').
      eapply (IH axes k' x e); try eassumption. lia.
Qed.

Lemma slice_is_spec : forall s a b, slice_is s a b = true <-> s = mkslice a b None.
Proof.
  intros [st sp [step|]] a b; unfold slice_is; cbn [sl_step sl_start sl_stop].
  - split; [discriminate|]. intros H; discriminate.
  - split.
    + intros H. apply andb_true_iff in H as (H1 & H2).
      destruct st, a; try discriminate; destruct sp, b; try discriminate;
      repeat match goal with H : (_ =? _)%Z = true |- _ => apply Z.eqb_eq in H; subst end; reflexivity.
    + intros H. injection H as -> ->. destruct a, b; cbn; rewrite ?Z.eqb_refl; reflexivity.
Qed.

Lemma getitem_ok : forall idx n axis len,
  IndexOk idx n -> axis < n ->
  exists e, In (Some axis, e) (np_items idx (seq 0 n)) /\
  (forall f, In (Some axis, f) (np_items idx (seq 0 n)) -> f = e) /\
  (Whole e len -> exists p, mpi_getitem idx n axis len = Ok (ToDist p)
                            /\ nth_error (np_out idx n) p = Some (Some axis)) /\
  (~ Whole e len -> mpi_getitem idx n axis len = Ok ToLocal).
Proof.
  intros idx n axis len HO Ha.
  destruct (sanitize_form _ _ HO) as (sl & Hs & Hell & Hc & Hit).
  assert (HL : consumed sl = length (seq 0 n)) by (rewrite seq_length; exact Hc).
  destruct (items_lookup sl (seq 0 n) 0 axis Hell HL) as (d & e & A & B & C);
    [rewrite seq_length; exact Ha|].
  assert (Hax : nth_error (seq 0 n) axis = Some axis).
  { rewrite nth_error_nth' with (d := 0) by (rewrite seq_length; exact Ha).
    rewrite seq_nth by exact Ha. reflexivity. }
  rewrite Hax in C. cbn [Nat.add] in A.
  assert (HG : mpi_getitem idx n axis len =
    (let whole := match e with
                  | ISl s => slice_is s None None || slice_is s (Some 0%Z) (Some (Z.of_nat len))
                  | _ => false end in
     if negb whole then Ok ToLocal
     else match nth_error (final_positions 0 sl) d with
          | Some (Some p) => Ok (ToDist p) | _ => Err IndexError end)).
  { unfold mpi_getitem. rewrite Hs. cbn [rbind]. rewrite A, B. reflexivity. }
  exists e. rewrite Hit. split; [eapply nth_error_In, C|]. split.
  { intros f Hf. eapply items_nodup; try eassumption. apply seq_NoDup. }
  rewrite HG. clear HG. cbv zeta. split.
  - intros HW.
    assert (He : is_int e = false) by (destruct HW as [->| ->]; reflexivity).
    destruct (final_positions_spec _ 0 d (Some axis) e C He) as (p & P1 & P2).
    rewrite items_snd in P1 by assumption. rewrite P1. cbn [Nat.add]. exists p.
    split; [|unfold np_out; rewrite Hit; exact P2].
    destruct HW as [->| ->].
    + rewrite (proj2 (slice_is_spec full_slice None None) eq_refl). reflexivity.
    + rewrite (proj2 (slice_is_spec (mkslice (Some 0%Z) (Some (Z.of_nat len)) None) (Some 0%Z) _) eq_refl), orb_true_r.
      reflexivity.
  - intros HW. destruct e as [|i|s|]; try reflexivity.
    destruct (slice_is s None None) eqn:E1.
    { apply slice_is_spec in E1. subst. exfalso. apply HW. left. reflexivity. }
    destruct (slice_is s (Some 0%Z) (Some (Z.of_nat len))) eqn:E2.
    { apply slice_is_spec in E2. subst. exfalso. apply HW. right. reflexivity. }
    reflexivity.
Qed.

Lemma getitem_bad : forall idx n axis len,
  ~ IndexOk idx n -> mpi_getitem idx n axis len = Err IndexError.
Proof.
  intros idx n axis len H.
  assert (HS : sanitize_slice idx n = Err IndexError).
  { unfold sanitize_slice.
    destruct (Nat.ltb_spec 1 (length (filter is_ell idx))) as [|H1]; [reflexivity|].
    assert (Hc : n < consumed idx).
    { destruct (Nat.lt_ge_cases n (consumed idx)) as [|G]; [assumption|]. exfalso. apply H. split; assumption. }
    set (idx' := if (length (filter is_ell idx) =? 0)%nat then idx ++ [IEll] else idx).
    assert (X : consumed idx' = consumed idx /\ length (filter is_ell idx') = 1).
    { unfold idx'. destruct (Nat.eqb_spec (length (filter is_ell idx)) 0) as [E|E].
      - rewrite consumed_app, filter_app, app_length, E. cbn. lia.
      - split; [reflexivity|lia]. }
    pose proof (consumed_len idx') as HL. destruct X as (X1 & X2).
    match goal with |- (if (?z <? 0)%Z then _ else _) = _ => destruct (Z.ltb_spec z 0) as [|G] end;
      [reflexivity|lia]. }
  unfold mpi_getitem. rewrite HS. reflexivity.
Qed.
