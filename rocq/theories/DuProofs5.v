(** Reductions and accumulations of distributed arrays. *)
From Coq Require Import List Arith ZArith Bool Lia Sorted Permutation.
From Verif Require Import PyBase PartSpec PartModel PartProofs SliceModel RedModel RedSpec RedProofs AxModel AxSpec AxProofs AxProofs2 DuModel DuSpec DuProofs DuProofs2 DuProofs3 DuProofs4.
Import ListNotations.
Open Scope nat_scope.

Lemma rsequence_names : forall ndim axes red, Forall2 (AxisName ndim) axes red ->
  rsequence (map (pyaxis ndim) axes) = Ok red.
Proof.
  intros ndim axes red H. induction H as [|a r axes red Ha _ IH]; [reflexivity|].
  cbn [map rsequence]. rewrite (pyaxis_names _ _ _ Ha), IH. reflexivity.
Qed.
Lemma nodupb_iff : forall l, nodupb l = true <-> NoDup l.
Proof.
  induction l as [|x l IH]; cbn [nodupb].
  - split; [constructor|reflexivity].
  - rewrite andb_true_iff, negb_true_iff, IH, NoDup_cons_iff. split; intros [H1 H2]; split; auto.
    + intros Hin. apply existsb_neqb in Hin. congruence.
    + destruct (existsb (Nat.eqb x) l) eqn:E; [|reflexivity]. apply existsb_neqb in E. contradiction.
Qed.
Lemma np_axes_names : forall ndim axes red, Forall2 (AxisName ndim) axes red -> NoDup red -> np_axes ndim axes = Ok red.
Proof.
  intros ndim axes red H N. unfold np_axes. rewrite (rsequence_names _ _ _ H). cbn [rbind].
  now rewrite (proj2 (nodupb_iff _) N).
Qed.
Lemma nsize_zero : forall sh, nsize sh = 0 <-> In 0 sh.
Proof.
  induction sh as [|n sh IH]; cbn [nsize fold_right In]; [split; [lia|contradiction]|].
  fold (nsize sh). rewrite <- IH. lia.
Qed.
Lemma in_nth0 : forall l : list nat, In 0 l -> exists k, k < length l /\ nth k l 0 = 0.
Proof.
  intros l H. apply In_nth_error in H. destruct H as (k & E). exists k.
  split; [apply nth_error_Some; congruence|exact (nth_error_nth _ _ 0 E)].
Qed.
Lemma nth_set_nth : forall k x (l : list nat) j, nth j (set_nth k x l) 0 = if (j =? k) && (j <? length l) then x else nth j l 0.
Proof.
  intros k x l j. destruct (Nat.ltb_spec j (length l)) as [L|L].
  - apply nth_error_nth. rewrite nth_error_set_nth, (nth_error_nth' l 0) by exact L. cbn [option_map].
    rewrite andb_true_r. reflexivity.
  - rewrite andb_false_r. rewrite !nth_overflow by (rewrite ?length_set_nth; lia). reflexivity.
Qed.

Section WithA.
Context {A : Type}.

Lemma dist_params_part : forall c k (G : nd A) d p, Part c k G d ->
  dist_params d p = Ok (p, nth k (shp G) 0, start c (nth k (shp G) 0)).
Proof.
  intros c k G d p ((K & _) & E1 & E2 & E3 & E4 & E5). unfold dist_params. rewrite E1, E2, E4, !pynth_nat.
  rewrite (nth_error_nth' (shp G) 0) by exact K. cbn [rbind]. rewrite nth_error_set_nth, Nat.eqb_refl.
  rewrite (nth_error_nth' (repeat 0 (length (shp G))) 0) by (rewrite repeat_length; exact K). reflexivity.
Qed.

(** One result without an array to write to. *)
Lemma finish_one : forall u m d (kw : kwargs A) c p R r, m <> MOther -> plain_call kw -> k_out kw = None ->
  d_comm d = Some c -> Share c p R r ->
  validate m [InDist d] kw = Ok (Z.of_nat p, nth p (shp R) 0, start c (nth p (shp R) 0)) ->
  numpy_ufunc u m [InDist d] kw None = Ok [r] ->
  array_ufunc u m [InDist d] kw = Ok [mkpart c p (shp R) r].
Proof.
  intros u m d kw c p R r Hm Hw Ho Hc Sh Hv Hn.
  rewrite (ufunc_head u m [InDist d] kw c _ Hm Hw) with (2 := Hv); [|cbn [common_comm]; now rewrite Hc].
  rewrite Ho, Hn. cbn [rbind map rsequence]. destruct Sh as (K & S1 & S2).
  rewrite as_vector_id by (rewrite S1; intros E; apply (f_equal (@length nat)) in E; rewrite length_set_nth in E; cbn in E; lia).
  rewrite view_part by auto. reflexivity.
Qed.

Lemma reduce_data : forall c k (G : nd A) d u (kw : kwargs A) axes red R,
  c_rank c < c_size c -> Part c k G d -> plain_call kw -> k_out kw = None -> k_axis kw = Some (Some axes) ->
  Forall2 (AxisName (length (shp G))) axes red -> NoDup red -> ~ In k red ->
  (u_ident u = true \/ forall a, In a red -> nth a (shp G) 0 <> 0) ->
  Reduction (u_red u) red (k_keepdims kw) G R ->
  exists d' p, array_ufunc u MReduce [InDist d] kw = Ok [d'] /\ Part c p R d'
    /\ nth_error (if k_keepdims kw then seq 0 (length (shp G)) else kept (length (shp G)) red) p = Some k.
Proof.
  intros c k G d u kw axes red R Hc HP Hw Ho Ha HN ND NK HI (RS & RE).
  pose proof HP as ((K & S1 & S2) & E1 & E2 & E3 & E4 & E5).
  set (n := nth k (shp G) 0) in *. set (bm := mask (length (shp G)) red). set (keep := k_keepdims kw) in *.
  assert (HL : length bm = length (shp G)) by apply mask_length.
  assert (LD : length (shp (d_data d)) = length (shp G)) by (rewrite S1; apply length_set_nth).
  assert (Hk : nth k bm false = false).
  { subst bm. rewrite mask_nth by exact K. destruct (existsb (Nat.eqb k) red) eqn:E; [|reflexivity]. apply existsb_neqb in E. contradiction. }
  destruct (red_shape_set (shp G) bm keep k (part c n) HL K Hk) as (F1 & F2 & F3). set (p := bpos bm keep k) in *.
  assert (PN : nth_error (if keep then seq 0 (length (shp G)) else kept (length (shp G)) red) p = Some k).
  { rewrite kept_mask. fold bm. rewrite <- HL. subst p. apply bpos_nth; [lia|exact Hk]. }
  assert (RSh : shp R = red_shape (shp G) bm keep).
  { rewrite RS, red_shape_spec by exact HL. rewrite kept_mask. destruct keep; [|reflexivity].
    apply map_ext_in. intros a Ha'. apply in_seq in Ha'. subst bm. rewrite mask_nth by lia. reflexivity. }
  set (r := mknd (red_shape (shp (d_data d)) bm keep) (fun idx => u_red u (map (elt (d_data d)) (red_indices (shp (d_data d)) bm keep idx)))).
  assert (Sh : Share c p R r).
  { unfold Share. rewrite RSh, F2. fold n. split; [exact F3|]. split; [cbn [shp r]; rewrite S1; exact F1|].
    intros idx Hidx. subst r. cbn [shp elt] in *. rewrite S1 in Hidx. rewrite F1 in Hidx.
    assert (HidxL : length idx = length (red_shape (shp G) bm keep)).
    { apply inshape_iff in Hidx. rewrite (proj1 Hidx). apply length_set_nth. }
    pose proof (start_part c n Hc) as SP.
    assert (HidxG : InShape (shift p (start c n) idx) (red_shape (shp G) bm keep)).
    { apply inshape_iff in Hidx. destruct Hidx as [_ Hidx]. apply inshape_iff. rewrite length_shift. split; [exact HidxL|].
      intros q x m Hx Hm. unfold shift in Hx. rewrite nth_error_set_nth in Hx.
      destruct (nth_error idx q) as [y|] eqn:Ey; [|discriminate]. cbn [option_map] in Hx. injection Hx as <-.
      specialize (Hidx q y). rewrite nth_error_set_nth, Hm in Hidx. cbn [option_map] in Hidx. specialize (Hidx _ Ey eq_refl).
      destruct (Nat.eqb_spec q p) as [->|]; [|exact Hidx]. rewrite (nth_error_nth _ _ 0 Ey).
      rewrite (nth_error_nth _ _ 0 Hm) in F2. lia. }
    destruct (RE (shift p (start c n) idx)) as (L & SL & IL & ->); [rewrite RSh; exact HidxG|]. f_equal.
    assert (EL : L = red_indices (shp G) bm keep (shift p (start c n) idx)).
    { apply (sorted_unique _ LexLt lex_irrefl lex_trans); [exact SL|apply red_sorted|]. intros i. rewrite IL.
      rewrite (red_in _ _ _ _ _ HL HidxG). unfold Belongs, bbelongs. rewrite kept_mask. fold bm. reflexivity. }
    rewrite EL. subst p. rewrite (red_indices_shift _ _ _ _ _ _ HL K Hk HidxL), map_map.
    rewrite S1, red_indices_set by auto. apply map_ext_in. intros i Hi. rewrite S2; [reflexivity|].
    rewrite S1. rewrite <- (red_indices_set (shp G) bm keep idx k (part c n)) in Hi by auto.
    apply red_in in Hi; [apply Hi|rewrite length_set_nth; exact HL|]. rewrite F1. exact Hidx. }
  exists (mkpart c p (shp R) r), p. split; [|split; [now apply mkpart_part|exact PN]].
  apply finish_one; auto; try discriminate.
  - cbn [validate]. rewrite Ha, LD, E1.
    destruct (reduce_ok (length (shp G)) k axes red keep K HN) as [_ RO].
    destruct (RO NK _ eq_refl) as (p' & E & Ep'). fold keep. rewrite E. cbn [rbind].
    rewrite (dist_params_part c k G d _ HP). fold n. rewrite RSh, F2. do 2 f_equal. f_equal.
    assert (p' = p); [|now subst].
    change (if keep then seq 0 (length (shp G)) else filter (fun k => negb (existsb (Nat.eqb k) red)) (seq 0 (length (shp G))))
      with (if keep then seq 0 (length (shp G)) else kept (length (shp G)) red) in Ep'.
    apply (proj1 (NoDup_nth_error (if keep then seq 0 (length (shp G)) else kept (length (shp G)) red))).
    + destruct keep; [apply seq_NoDup|]. apply NoDup_filter, seq_NoDup.
    + apply nth_error_Some. congruence.
    + congruence.
  - cbn [numpy_ufunc]. rewrite Ha. cbn [local_of]. unfold np_reduce. rewrite LD.
    rewrite (np_axes_names _ _ _ HN ND). cbn [rbind]. fold keep bm. fold r.
    replace (negb (u_ident u) && (nsize (shp (d_data d)) =? 0) && negb (nsize (red_shape (shp (d_data d)) bm keep) =? 0)) with false; [reflexivity|].
    symmetry. destruct HI as [->|HI]; [reflexivity|]. destruct (u_ident u); [reflexivity|]. cbn [negb andb].
    destruct (Nat.eqb_spec (nsize (shp (d_data d))) 0) as [Z|]; [|reflexivity]. cbn [andb].
    apply negb_false_iff, Nat.eqb_eq. apply nsize_zero in Z. apply nsize_zero. apply in_nth0 in Z. destruct Z as (a & La & Za).
    rewrite LD in La. rewrite S1, nth_set_nth in Za.
    destruct (in_dec Nat.eq_dec a red) as [Hin|Hin].
    { exfalso. destruct (Nat.eqb_spec a k) as [->|]; [contradiction|]. cbn [andb] in Za. exact (HI _ Hin Za). }
    assert (Hka : nth a bm false = false).
    { subst bm. rewrite mask_nth by exact La. destruct (existsb (Nat.eqb a) red) eqn:E; [|reflexivity]. apply existsb_neqb in E. contradiction. }
    destruct (red_shape_set (shp (d_data d)) bm keep a 0 ltac:(lia) ltac:(lia) Hka) as (_ & Q2 & Q3).
    rewrite S1, nth_set_nth, Za in Q2. rewrite S1 in Q3. rewrite S1, <- Q2. now apply nth_In.
Qed.

Lemma shift_inshape : forall c k sh idx, c_rank c < c_size c ->
  InShape idx (set_nth k (part c (nth k sh 0)) sh) -> InShape (shift k (start c (nth k sh 0)) idx) sh.
Proof.
  intros c k sh idx Hc H. pose proof (start_part c (nth k sh 0) Hc) as SP.
  apply inshape_iff in H. destruct H as [HL H]. rewrite length_set_nth in HL. apply inshape_iff. rewrite length_shift.
  split; [exact HL|]. intros q x m Hx Hm. unfold shift in Hx. rewrite nth_error_set_nth in Hx.
  destruct (nth_error idx q) as [y|] eqn:Ey; [|discriminate]. cbn [option_map] in Hx. injection Hx as <-.
  specialize (H q y). rewrite nth_error_set_nth, Hm in H. cbn [option_map] in H. specialize (H _ Ey eq_refl).
  destruct (Nat.eqb_spec q k) as [->|]; [|exact H]. rewrite (nth_error_nth _ _ 0 Ey).
  rewrite (nth_error_nth _ _ 0 Hm) in H, SP |- *. lia.
Qed.

Lemma accumulate_data : forall c k (G : nd A) d u (kw : kwargs A) z a R,
  c_rank c < c_size c -> Part c k G d -> plain_call kw -> k_out kw = None -> k_axis kw = Some (Some [z]) ->
  AxisName (length (shp G)) z a -> a <> k ->
  Accumulation (u_red u) a G R ->
  exists d', array_ufunc u MAccumulate [InDist d] kw = Ok [d'] /\ Part c k R d'.
Proof.
  intros c k G d u kw z a R Hc HP Hw Ho Ha HN Nak (RS & RE).
  pose proof HP as ((K & S1 & S2) & E1 & E2 & E3 & E4 & E5). set (n := nth k (shp G) 0) in *.
  assert (LD : length (shp (d_data d)) = length (shp G)) by (rewrite S1; apply length_set_nth).
  set (r := mknd (shp (d_data d)) (fun idx => u_red u (map (fun j => elt (d_data d) (set_nth a j idx)) (seq 0 (S (nth a idx 0)))))).
  assert (Sh : Share c k R r).
  { unfold Share. rewrite RS. fold n. split; [exact K|]. split; [exact S1|]. intros idx Hidx. subst r. cbn [shp elt] in *.
    pose proof (proj1 (inshape_iff idx (shp (d_data d))) Hidx) as [IL IX].
    rewrite RE.
    - f_equal. assert (EN : nth a (shift k (start c n) idx) 0 = nth a idx 0).
      { unfold shift. rewrite nth_set_nth. destruct (Nat.eqb_spec a k); [contradiction|reflexivity]. }
      rewrite EN. apply map_ext_in. intros j Hj. apply in_seq in Hj.
      rewrite S2.
      + f_equal. apply nth_error_ext. intros q. unfold shift. rewrite !nth_error_set_nth, nth_set_nth.
        destruct (nth_error idx q) as [y|]; cbn [option_map]; [|reflexivity].
        destruct (Nat.eqb_spec k a); [congruence|]. cbn [andb].
        destruct (Nat.eqb_spec q k), (Nat.eqb_spec q a); try reflexivity. congruence.
      + apply inshape_iff. rewrite length_set_nth. split; [exact IL|]. intros q x m Hx Hm.
        rewrite nth_error_set_nth in Hx. destruct (nth_error idx q) as [y|] eqn:Ey; [|discriminate]. cbn [option_map] in Hx. injection Hx as <-.
        specialize (IX _ _ _ Ey Hm). destruct (Nat.eqb_spec q a) as [->|]; [|exact IX]. rewrite (nth_error_nth _ _ 0 Ey) in Hj. lia.
    - apply shift_inshape; [exact Hc|]. fold n. rewrite <- S1. exact Hidx. }
  exists (mkpart c k (shp R) r). split; [|now apply mkpart_part].
  apply finish_one; auto; try discriminate.
  - cbn [validate]. rewrite Ha, E1. unfold ufunc_accumulate.
    destruct (Z.eqb_spec z (Z.of_nat k)) as [->|].
    { exfalso. apply Nak. destruct HN as [? [?|?]]; lia. }
    cbn [rbind]. rewrite (dist_params_part c k G d _ HP), RS. reflexivity.
  - cbn [numpy_ufunc]. rewrite Ha. cbn [local_of]. unfold np_accumulate_axes.
    destruct (shp (d_data d)) as [|n0 sh0] eqn:Es.
    { exfalso. cbn in LD. destruct HN as [? _]. lia. }
    unfold np_accumulate. rewrite Es, LD, (pyaxis_names _ _ _ HN). reflexivity.
Qed.

(** ** Reduction over all axes *)
Lemma part_self : forall m r, r < m -> part_of m m r = 1 /\ start_of m m r = r.
Proof.
  intros m r H. unfold part_of, start_of. rewrite Nat.div_same, Nat.mod_same by lia.
  split; [destruct r; reflexivity|]. rewrite Nat.mul_1_r, Nat.min_0_r. lia.
Qed.
Lemma mask_all : forall n k, k < n -> nth k (mask n (seq 0 n)) false = true.
Proof. intros n k H. rewrite mask_nth by exact H. apply existsb_neqb, in_seq. lia. Qed.
Lemma bkept_all : forall bm, (forall k, k < length bm -> nth k bm false = true) -> bkept bm = [].
Proof.
  induction bm as [|b bm IH]; intros H; [reflexivity|]. rewrite bkept_cons, IH.
  - specialize (H 0 ltac:(cbn; lia)). cbn in H. subst b. reflexivity.
  - intros k Hk. apply (H (S k)). cbn. lia.
Qed.
(** The indices of the rank of [c] in the whole array. *)
Definition own_indices (c : comm) (k : nat) (sh : list nat) : list (list nat) :=
  map (shift k (start c (nth k sh 0)))
      (red_indices (set_nth k (part c (nth k sh 0)) sh) (mask (length sh) (seq 0 (length sh))) false []).
Lemma all_indices : forall sh i, In i (red_indices sh (mask (length sh) (seq 0 (length sh))) false []) <-> InShape i sh.
Proof.
  intros sh i. set (bm := mask (length sh) (seq 0 (length sh))).
  assert (HL : length bm = length sh) by apply mask_length.
  assert (BK : bkept bm = []) by (apply bkept_all; rewrite HL; intros; apply mask_all; assumption).
  assert (RS : red_shape sh bm false = []) by (rewrite red_shape_spec by exact HL; now rewrite BK).
  rewrite red_in by (auto; rewrite RS; constructor). unfold bbelongs. rewrite BK. tauto.
Qed.
Lemma in_own : forall c k sh i, c_rank c < c_size c -> k < length sh ->
  (In i (own_indices c k sh) <->
   InShape i sh /\ start c (nth k sh 0) <= nth k i 0 < start c (nth k sh 0) + part c (nth k sh 0)).
Proof.
  intros c k sh i Hc K. set (n := nth k sh 0). unfold own_indices. fold n. rewrite in_map_iff.
  assert (M : mask (length sh) (seq 0 (length sh)) = mask (length (set_nth k (part c n) sh)) (seq 0 (length (set_nth k (part c n) sh))))
    by now rewrite length_set_nth.
  rewrite M. split.
  - intros (t & <- & Ht). apply all_indices in Ht. split; [now apply shift_inshape|].
    destruct (inshape_lt _ _ k (part c n) Ht) as (x & Ex & Lx).
    { rewrite nth_error_set_nth, (nth_error_nth' sh 0) by exact K. cbn [option_map]. now rewrite Nat.eqb_refl. }
    unfold shift. rewrite nth_set_nth, Nat.eqb_refl. rewrite (nth_error_nth _ _ 0 Ex).
    assert (k < length t) by (apply nth_error_Some; congruence). rewrite (proj2 (Nat.ltb_lt _ _)) by assumption. cbn [andb]. lia.
  - intros [HI HB]. exists (set_nth k (nth k i 0 - start c n) i). split.
    + apply nth_error_ext. intros q. unfold shift. rewrite !nth_error_set_nth, nth_set_nth.
      apply inshape_iff in HI. destruct HI as [HL _].
      rewrite Nat.eqb_refl, (proj2 (Nat.ltb_lt _ _)) by lia. cbn [andb].
      destruct (nth_error i q) as [y|] eqn:Ey; cbn [option_map]; [|reflexivity].
      destruct (Nat.eqb_spec q k) as [->|]; [|reflexivity]. rewrite (nth_error_nth _ _ 0 Ey) in HB |- *. f_equal. lia.
    + apply all_indices. apply inshape_iff in HI. destruct HI as [HL HI]. apply inshape_iff. rewrite !length_set_nth. split; [exact HL|].
      intros q x m. rewrite !nth_error_set_nth. destruct (nth_error i q) as [y|] eqn:Ey; [|discriminate].
      destruct (nth_error sh q) as [w|] eqn:Ew; [|discriminate]. cbn [option_map]. intros H1 H2. injection H1 as <-. injection H2 as <-.
      destruct (Nat.eqb_spec q k) as [->|]; [lia|eauto].
Qed.
Lemma lex_shift : forall k s a b, LexLt a b -> length a = length b -> LexLt (shift k s a) (shift k s b).
Proof.
  induction k as [|k IH]; intros s [|x a] [|y b]; cbn [LexLt length]; try contradiction.
  - unfold shift. cbn. intros [H|[-> H]] _; [left; lia|right; split; auto].
  - intros H E. rewrite !shift_S. cbn [LexLt]. destruct H as [H|[-> H]]; [now left|right; split; [reflexivity|apply IH; [exact H|lia]]].
Qed.
Lemma own_sorted : forall c k sh, StronglySorted LexLt (own_indices c k sh).
Proof.
  intros c k sh. unfold own_indices. set (sh' := set_nth k (part c (nth k sh 0)) sh).
  assert (M : mask (length sh) (seq 0 (length sh)) = mask (length sh') (seq 0 (length sh'))) by (subst sh'; now rewrite length_set_nth).
  rewrite M.
  assert (FL : forall i, In i (red_indices sh' (mask (length sh') (seq 0 (length sh'))) false []) -> length i = length sh').
  { intros i Hi. apply all_indices, inshape_iff in Hi. apply Hi. }
  assert (SS : StronglySorted LexLt (red_indices sh' (mask (length sh') (seq 0 (length sh'))) false [])) by apply red_sorted.
  revert FL SS. generalize (red_indices sh' (mask (length sh') (seq 0 (length sh'))) false []) as L.
  induction L as [|i L IH]; intros FL SS; cbn [map]; [constructor|].
  apply StronglySorted_inv in SS. destruct SS as [SS F]. constructor.
  - apply IH; [intros; apply FL; now right|exact SS].
  - apply Forall_map. apply Forall_forall. intros t Ht. rewrite Forall_forall in F.
    apply lex_shift; [apply F, Ht|]. rewrite (FL i), (FL t); auto; [now right|now left].
Qed.

Lemma total_ok : forall c k (G : nd A) d u (kw : kwargs A),
  c_rank c < c_size c -> Part c k G d -> plain_call kw -> k_out kw = None -> k_axis kw = Some None -> k_keepdims kw = false ->
  (u_ident u = true \/ nsize (shp (d_data d)) <> 0) ->
  exists d', array_ufunc u MReduce [InDist d] kw = Ok [d'] /\
    forall V, shp V = [c_size c] -> elt V [c_rank c] = u_red u (map (elt G) (own_indices c k (shp G))) -> Part c 0 V d'.
Proof.
  intros c k G d u kw Hc HP Hw Ho Ha Hkd HI.
  pose proof HP as ((K & S1 & S2) & E1 & E2 & E3 & E4 & E5). set (n := nth k (shp G) 0) in *.
  assert (LD : length (shp (d_data d)) = length (shp G)) by (rewrite S1; apply length_set_nth).
  set (bm := mask (length (shp G)) (seq 0 (length (shp G)))).
  assert (HL : length bm = length (shp (d_data d))) by (rewrite LD; apply mask_length).
  assert (BK : bkept bm = []) by (apply bkept_all; rewrite HL, LD; intros; apply mask_all; assumption).
  set (x := u_red u (map (elt (d_data d)) (red_indices (shp (d_data d)) bm false []))).
  exists (mkdarr 0%Z [c_size c] [1] [c_rank c] (Some c) (mknd [1] (fun _ => x))). split.
  - rewrite (ufunc_head u MReduce [InDist d] kw c (0%Z, c_size c, c_rank c)); auto; try discriminate.
    + rewrite Ho. cbn [numpy_ufunc local_of]. rewrite Ha. unfold np_reduce. cbn [rbind]. rewrite LD. fold bm. rewrite Hkd.
      rewrite red_shape_spec by exact HL. rewrite BK. cbn [map].
      replace (negb (u_ident u) && (nsize (shp (d_data d)) =? 0) && negb (nsize [] =? 0)) with false.
      * cbn [check_out_shape rbind map rsequence as_vector shp elt]. reflexivity.
      * symmetry. destruct HI as [->|HI]; [reflexivity|]. destruct (Nat.eqb_spec (nsize (shp (d_data d))) 0); [contradiction|].
        now rewrite andb_false_r.
    + cbn [common_comm]. now rewrite E5.
    + cbn [validate]. rewrite Ha, E5. reflexivity.
  - intros V VS VE. destruct (part_self (c_size c) (c_rank c) Hc) as [P1 P2].
    unfold Part, Share. rewrite VS. cbn [nth d_data d_axis d_gshape d_lshape d_loffset d_comm shp elt length repeat].
    unfold part, start. rewrite P1, P2. repeat split; auto; try lia.
    intros idx Hidx. inversion Hidx as [|y m t sh Hy Ht]; subst. inversion Ht; subst. replace y with 0 by lia.
    cbn [shift nth set_nth firstn skipn app Nat.add]. rewrite VE. subst x. f_equal.
    unfold own_indices. fold n. rewrite map_map. fold bm. rewrite <- S1. apply map_ext_in. intros i Hi. apply S2.
    apply red_in in Hi; [apply Hi|exact HL|]. rewrite red_shape_spec by exact HL. rewrite BK. constructor.
Qed.

Lemma fold_perm : forall (op : A -> A -> A) zero l1 l2, (forall a b c, op a (op b c) = op (op a b) c) -> (forall a b, op a b = op b a) ->
  Permutation l1 l2 -> fold_right op zero l1 = fold_right op zero l2.
Proof.
  intros op zero l1 l2 As Co P. induction P; cbn [fold_right]; auto; [now rewrite IHP|now rewrite !As, (Co y x)|congruence].
Qed.
Lemma fold_concat : forall (op : A -> A -> A) zero ls, (forall a b c, op a (op b c) = op (op a b) c) -> (forall a, op zero a = a) ->
  fold_right op zero (map (fold_right op zero) ls) = fold_right op zero (concat ls).
Proof.
  intros op zero ls As Ze. induction ls as [|l ls IH]; [reflexivity|]. cbn [map fold_right concat]. rewrite IH.
  assert (E : forall y t, op (fold_right op zero t) y = fold_right op y t).
  { intros y. induction t as [|a t IHt]; cbn [fold_right]; [apply Ze|]. now rewrite <- As, IHt. }
  rewrite E. now rewrite fold_right_app.
Qed.

Definition rank_comm (id m q : nat) : comm := mkcomm id m q.
Lemma owner_unique : forall n m q q' x, q < m -> q' < m ->
  start_of n m q <= x < start_of n m q + part_of n m q ->
  start_of n m q' <= x < start_of n m q' + part_of n m q' -> q = q'.
Proof.
  intros n m q q' x Hq Hq' H1 H2. rewrite <- !start_of_S in *.
  destruct (Nat.lt_trichotomy q q') as [L|[L|L]]; [|exact L|].
  - pose proof (start_of_mono n m (S q) q' ltac:(lia)). lia.
  - pose proof (start_of_mono n m (S q') q ltac:(lia)). lia.
Qed.
Lemma owner_exists : forall n m x, x < n -> 0 < m -> exists q, q < m /\ start_of n m q <= x < start_of n m q + part_of n m q.
Proof.
  intros n m x Hx Hm.
  assert (E : forall t, t <= m -> x < start_of n m t -> exists q, q < t /\ start_of n m q <= x < start_of n m (S q)).
  { induction t as [|t IH]; intros Ht L.
    - unfold start_of in L. cbn in L. lia.
    - destruct (le_lt_dec (start_of n m t) x) as [G|G]; [exists t; auto|].
      destruct (IH ltac:(lia) G) as (q & Q1 & Q2). exists q. split; [lia|exact Q2]. }
  destruct (E m (le_n _)) as (q & Q1 & Q2); [rewrite start_of_m by lia; exact Hx|].
  exists q. split; [exact Q1|]. rewrite <- start_of_S. exact Q2.
Qed.
Lemma lex_nodup : forall L, StronglySorted LexLt L -> NoDup L.
Proof.
  induction L as [|i L IH]; intros H; [constructor|]. apply StronglySorted_inv in H. destruct H as [H F].
  constructor; [|auto]. intros Hin. rewrite Forall_forall in F. exact (lex_irrefl _ (F _ Hin)).
Qed.
Lemma nodup_app : forall (T : Type) (l1 l2 : list T), NoDup l1 -> NoDup l2 -> (forall x, In x l1 -> ~ In x l2) -> NoDup (l1 ++ l2).
Proof.
  intros T l1 l2 H1 H2 D. induction H1 as [|x l1 Hx H1 IH]; [exact H2|]. cbn [app]. constructor.
  - rewrite in_app_iff. intros [H|H]; [contradiction|]. exact (D x (or_introl eq_refl) H).
  - apply IH. intros y Hy. apply D. now right.
Qed.
Lemma nodup_concat : forall (T : Type) (f : nat -> list T) l, NoDup l -> (forall q, In q l -> NoDup (f q)) ->
  (forall q q' x, In q l -> In q' l -> In x (f q) -> In x (f q') -> q = q') -> NoDup (concat (map f l)).
Proof.
  intros T f l H HF D. induction H as [|q l Hq H IH]; cbn [map concat]; [constructor|]. apply nodup_app.
  - apply HF. now left.
  - apply IH; [intros; apply HF; now right|]. intros q1 q2 x I1 I2. apply D; now right.
  - intros x Hx Hc. apply in_concat in Hc. destruct Hc as (lx & Hl & Hx'). apply in_map_iff in Hl. destruct Hl as (q' & <- & Hq').
    pose proof (D q q' x (or_introl eq_refl) (or_intror Hq') Hx Hx'). subst q'. contradiction.
Qed.

Lemma own_perm : forall id m k sh L, 0 < m -> k < length sh -> Lists sh L ->
  Permutation (concat (map (fun q => own_indices (rank_comm id m q) k sh) (seq 0 m))) L.
Proof.
  intros id m k sh L Hm K [ND IN]. apply NoDup_Permutation; [|exact ND|].
  - apply nodup_concat; [apply seq_NoDup|intros; apply lex_nodup, own_sorted|].
    intros q q' x Hq Hq' Hx Hx'. apply in_seq in Hq, Hq'.
    apply in_own in Hx; [|cbn; lia|exact K]. apply in_own in Hx'; [|cbn; lia|exact K].
    destruct Hx as [_ Hx], Hx' as [_ Hx']. unfold start, part in Hx, Hx'. cbn [c_size c_rank rank_comm] in Hx, Hx'.
    eapply owner_unique; [| |exact Hx|exact Hx']; lia.
  - intros i. rewrite IN, in_concat. split.
    + intros (l & Hl & Hi). apply in_map_iff in Hl. destruct Hl as (q & <- & Hq). apply in_seq in Hq.
      apply in_own in Hi; [apply Hi|cbn; lia|exact K].
    + intros HI. destruct (inshape_lt _ _ k (nth k sh 0) HI) as (x & Ex & Lx); [now apply nth_error_nth'|].
      destruct (owner_exists (nth k sh 0) m x Lx Hm) as (q & Hq & B).
      exists (own_indices (rank_comm id m q) k sh). split.
      * apply in_map_iff. exists q. split; [reflexivity|]. apply in_seq. lia.
      * apply in_own; [cbn; lia|exact K|]. split; [exact HI|]. rewrite (nth_error_nth _ _ 0 Ex). exact B.
Qed.

Lemma rsequence_some : forall (T : Type) (f : nat -> res T) l, (forall q, In q l -> exists y, f q = Ok y) ->
  exists ys, rsequence (map f l) = Ok ys.
Proof.
  intros T f l. induction l as [|q l IH]; intros H; cbn [map rsequence]; [eauto|].
  destruct (H q (or_introl eq_refl)) as (y & ->). destruct IH as (ys & ->); [intros; apply H; now right|]. cbn [rbind]. eauto.
Qed.

Lemma total_allreduce : forall id m k (G : nd A) ds u (kw : kwargs A) op zero L rs r,
  (forall q, q < m -> Part (rank_comm id m q) k G (ds q)) -> r < m ->
  plain_call kw -> k_out kw = None -> k_axis kw = Some None -> k_keepdims kw = false -> u_ident u = true ->
  (forall l, u_red u l = fold_right op zero l) ->
  (forall a b c, op a (op b c) = op (op a b) c) -> (forall a b, op a b = op b a) -> (forall a, op zero a = a) ->
  Lists (shp G) L ->
  (forall q, q < m -> array_ufunc u MReduce [InDist (ds q)] kw = Ok [rs q]) ->
  allreduce op zero rs m r = Ok (fold_right op zero (map (elt G) L)).
Proof.
  intros id m k G ds u kw op zero L rs r HP Hr Hw Ho Ha Hkd HI HU As Co Ze HL HR.
  set (V := mknd [m] (fun i => u_red u (map (elt G) (own_indices (rank_comm id m (nth 0 i 0)) k (shp G))))).
  assert (K : k < length (shp G)) by (destruct (HP r Hr) as ((K & _) & _); exact K).
  assert (HV : forall q, q < m -> Part (rank_comm id m q) 0 V (rs q)).
  { intros q Hq. destruct (total_ok (rank_comm id m q) k G (ds q) u kw) as (d' & E & D); auto.
    rewrite HR in E by exact Hq. injection E as ->. apply D; reflexivity. }
  unfold allreduce. assert (SH : forall q, q < m -> d_lshape (rs q) = [1] /\ elt (d_data (rs q)) [0] = elt V [q]).
  { intros q Hq. destruct (HV q Hq) as ((_ & S1 & S2) & _ & _ & S3 & _). destruct (part_self m q Hq) as [P1 P2].
    cbn [shp V nth] in S1, S2. unfold part, start in S1, S2. cbn [c_size c_rank rank_comm] in S1, S2. rewrite P1 in S1. rewrite P2 in S2.
    cbn [set_nth] in S1. split; [rewrite S3, S1; reflexivity|]. rewrite S2 by (rewrite S1; repeat constructor).
    unfold shift. cbn. rewrite ?Nat.add_0_r. reflexivity. }
  rewrite (proj1 (SH r Hr)). cbn [shape_eqb]. replace (shape_eqb [1] [1]) with true by reflexivity. f_equal.
  transitivity (fold_right op zero (map (fold_right op zero) (map (fun q => map (elt G) (own_indices (rank_comm id m q) k (shp G))) (seq 0 m)))).
  - f_equal. rewrite map_map. apply map_ext_in. intros q Hq. apply in_seq in Hq. rewrite (proj2 (SH q ltac:(lia))).
    subst V. cbn [elt nth]. apply HU.
  - rewrite fold_concat by assumption. apply fold_perm; [exact As|exact Co|].
    rewrite <- (map_map (fun q => own_indices (rank_comm id m q) k (shp G)) (map (elt G))), <- concat_map.
    apply Permutation_map. apply (own_perm id); [lia|exact K|exact HL].
Qed.
End WithA.
