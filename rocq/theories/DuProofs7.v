(** Indexing on one rank, transposition, and arrays made from those of the ranks. *)
From Coq Require Import List Arith ZArith Bool Lia Permutation.
From Verif Require Import PyBase PartSpec PartModel PartProofs PartProps0 SliceModel RedModel RedSpec RedProofs AxModel AxSpec AxProofs AxProofs2 DuModel DuSpec DuProofs DuProofs2 DuProofs3 DuProofs5 DuProofs6.
Import ListNotations.
Open Scope nat_scope.

Section WithA.
Context {A : Type}.

Lemma getitem_local : forall c k (G : nd A) d sl e t,
  Part c k G d -> IndexOk sl (length (shp G)) ->
  In (Some k, e) (np_items sl (seq 0 (length (shp G)))) -> ~ Whole e (part c (nth k (shp G) 0)) ->
  Extent (entries sl (length (shp G))) (shp (d_data d)) t ->
  exists a, getitem d sl = Ok (GLocal a) /\ shp a = t /\ Indexed (entries sl (length (shp G))) (d_data d) a.
Proof.
  intros c k G d sl e t HP HO Hin HW HX.
  pose proof HP as ((K & S1 & S2) & E1 & E2 & E3 & E4 & E5). set (n := nth k (shp G) 0) in *.
  assert (LD : length (shp (d_data d)) = length (shp G)) by (rewrite S1; apply length_set_nth).
  destruct (sanitize_form _ _ HO) as (sl' & Hs & Hell & Hcn & Hit).
  assert (EE : entries sl (length (shp G)) = sl').
  { unfold entries. rewrite Hit. apply items_snd; [exact Hell|]. now rewrite seq_length. }
  rewrite EE in HX |- *. destruct (np_index_ok _ _ _ HX) as (g & Eg & Hg).
  exists (mknd t (fun o => elt (d_data d) (g o))). split; [|split; [reflexivity|]].
  - destruct (getitem_ok sl (length (shp G)) k (part c n) HO K) as (e' & _ & U & _ & L).
    assert (e' = e) by (symmetry; apply U, Hin). subst e'.
    unfold getitem. rewrite LD, E1, pyaxis_nat by exact K. cbn [rbind]. rewrite Hs. cbn [rbind].
    replace (nth k (shp (d_data d)) 0) with (part c n).
    + rewrite (L HW). cbn [rbind]. unfold np_getitem. rewrite Eg. reflexivity.
    + rewrite S1, nth_set_nth, Nat.eqb_refl, (proj2 (Nat.ltb_lt _ _)) by exact K. reflexivity.
  - split; [exact HX|]. intros o Ho. cbn [shp elt] in *. destruct (Hg _ Ho) as [Q1 Q2]. exists (g o). repeat split; assumption.
Qed.
Lemma getitem_index : forall c k (G : nd A) d sl, Part c k G d -> ~ IndexOk sl (length (shp G)) -> getitem d sl = Err IndexError.
Proof.
  intros c k G d sl HP HO. pose proof HP as ((K & S1 & S2) & E1 & _).
  assert (LD : length (shp (d_data d)) = length (shp G)) by (rewrite S1; apply length_set_nth).
  pose proof (getitem_bad sl _ k (nth k (shp (d_data d)) 0) HO) as GB.
  unfold getitem. rewrite LD, E1, pyaxis_nat by exact K. cbn [rbind].
  rewrite GB. unfold mpi_getitem in GB. destruct (sanitize_slice sl (length (shp G))) as [((?, ?), ?)|e]; cbn [rbind] in *; [reflexivity|congruence].
Qed.

(** ** Transposition *)
Lemma pos_of_nth : forall perm x, In x perm -> nth_error perm (pos_of x perm) = Some x.
Proof.
  induction perm as [|y perm IH]; intros x H; [contradiction|]. cbn [pos_of]. destruct (Nat.eqb_spec x y) as [->|N]; [reflexivity|].
  cbn [nth_error]. apply IH. destruct H as [->|H]; [contradiction|exact H].
Qed.
Lemma pos_of_unique : forall perm p x, NoDup perm -> nth_error perm p = Some x -> pos_of x perm = p.
Proof.
  intros perm p x N H. apply (proj1 (NoDup_nth_error perm) N).
  - apply nth_error_Some. rewrite pos_of_nth; [discriminate|]. eapply nth_error_In, H.
  - rewrite H. apply pos_of_nth. eapply nth_error_In, H.
Qed.
Lemma map_set_nth : forall perm k p m (l : list nat), NoDup perm -> nth_error perm p = Some k -> k < length l ->
  map (fun q => nth q (set_nth k m l) 0) perm = set_nth p m (map (fun q => nth q l 0) perm).
Proof.
  intros perm k p m l N H K. apply nth_error_ext. intros j. rewrite nth_error_map, nth_error_set_nth, nth_error_map.
  destruct (nth_error perm j) as [q|] eqn:E; cbn [option_map]; [|reflexivity]. f_equal. rewrite nth_set_nth.
  destruct (Nat.eqb_spec j p) as [->|Nj].
  - rewrite H in E. injection E as <-. rewrite Nat.eqb_refl, (proj2 (Nat.ltb_lt _ _)) by exact K. reflexivity.
  - destruct (Nat.eqb_spec q k) as [->|]; [|reflexivity]. exfalso. apply Nj.
    apply (proj1 (NoDup_nth_error perm) N); [apply nth_error_Some; congruence|congruence].
Qed.
Lemma transpose_data : forall c k (G : nd A) d a perm R,
  c_rank c < c_size c -> Part c k G d -> TransposeBy (length (shp G)) a perm -> Permutation perm (seq 0 (length (shp G))) ->
  Transposed perm G R ->
  exists d' p, transpose d a = Ok d' /\ Part c p R d' /\ nth_error perm p = Some k.
Proof.
  intros c k G d a perm R Hc HP HT HPm (RS & RE).
  pose proof HP as ((K & S1 & S2) & E1 & E2 & E3 & E4 & E5). set (n := nth k (shp G) 0) in *.
  assert (LD : length (shp (d_data d)) = length (shp G)) by (rewrite S1; apply length_set_nth).
  set (ndim := length (shp G)) in *.
  assert (HT' : (a = TEmpty /\ perm = rev (seq 0 ndim)) \/ (a = TAxes (map Z.of_nat perm) /\ map Z.of_nat perm = map Z.of_nat perm)) by (destruct HT; auto).
  assert (ND : NoDup perm) by (apply (Permutation_NoDup (Permutation_sym HPm)), seq_NoDup).
  assert (INp : forall q, In q perm <-> q < ndim).
  { intros q. split; intros H; [apply (Permutation_in _ HPm), in_seq in H; lia|apply (Permutation_in _ (Permutation_sym HPm)), in_seq; lia]. }
  destruct (transpose_ok ndim k (shp G) _ perm a K HT' HPm) as (p & T1 & Hp).
  assert (UP : forall l, mpi_transpose ndim (Z.of_nat k) l a = Ok (Z.of_nat p, map (fun i => nth i l 0) perm)).
  { intros l. destruct (transpose_ok ndim k l _ perm a K HT' HPm) as (p' & T2 & Hp'). rewrite T2. do 2 f_equal. f_equal.
    apply (proj1 (NoDup_nth_error perm) ND); [apply nth_error_Some; congruence|congruence]. }
  assert (PO : perm_of ndim a = perm).
  { unfold perm_of. destruct HT as [[-> ->]| ->]; [reflexivity|]. rewrite map_map. rewrite <- (map_id perm) at 2. apply map_ext. intros q.
    destruct (Z.leb_spec 0 (Z.of_nat q)); lia. }
  assert (Lp : p < length perm) by (apply nth_error_Some; congruence).
  assert (NP : nth p (shp R) 0 = n).
  { rewrite RS. apply nth_error_nth. rewrite nth_error_map, Hp. reflexivity. }
  set (r := np_transpose (d_data d) perm).
  assert (Sh : Share c p R r).
  { unfold Share. rewrite NP. split; [rewrite RS, map_length; exact Lp|]. split.
    - subst r. cbn [shp np_transpose]. rewrite S1, RS. now apply map_set_nth.
    - intros idx Hidx. subst r. cbn [shp elt np_transpose] in *. rewrite LD. 
      set (i := map (fun q => nth (pos_of q perm) idx 0) (seq 0 ndim)).
      assert (NI : forall q, q < ndim -> nth_error i q = Some (nth (pos_of q perm) idx 0)).
      { intros q Hq. subst i. now apply nth_error_map_seq. }
      apply inshape_iff in Hidx. destruct Hidx as [IL IX]. rewrite map_length in IL.
      assert (II : InShape i (shp (d_data d))).
      { apply inshape_iff. subst i. rewrite map_length, seq_length. split; [now rewrite LD|]. intros q x m Hx Hm.
        assert (Lq : q < ndim) by (rewrite <- LD; apply nth_error_Some; congruence).
        rewrite NI in Hx by exact Lq. injection Hx as <-. pose proof (pos_of_nth perm q (proj2 (INp q) Lq)) as PN.
        apply (IX (pos_of q perm)).
        - apply nth_error_nth'. rewrite IL. apply nth_error_Some. congruence.
        - rewrite nth_error_map, PN. cbn [option_map]. f_equal. apply (nth_error_nth _ _ 0 Hm). }
      rewrite S2 by exact II.
      assert (IG : InShape (shift k (start c n) i) (shp G)) by (apply shift_inshape; [exact Hc|]; fold n; rewrite <- S1; exact II).
      rewrite <- (RE _ IG). f_equal. apply nth_error_ext. intros j. unfold shift. rewrite nth_error_map, nth_error_set_nth.
      destruct (nth_error perm j) as [q|] eqn:Ej; cbn [option_map].
      + assert (Lq : q < ndim) by (apply INp; eapply nth_error_In, Ej).
        assert (Lj : j < length idx) by (rewrite IL; apply nth_error_Some; congruence).
        rewrite (nth_error_nth' idx 0 Lj). cbn [option_map]. f_equal. rewrite nth_set_nth.
        assert (Li : length i = ndim) by (subst i; now rewrite map_length, seq_length).
        rewrite Li. rewrite (proj2 (Nat.ltb_lt _ _) Lq), andb_true_r.
        pose proof (nth_error_nth _ _ 0 (NI q Lq)) as N1. pose proof (nth_error_nth _ _ 0 (NI k K)) as N2.
        rewrite (pos_of_unique _ _ _ ND Ej) in N1. rewrite (pos_of_unique _ _ _ ND Hp) in N2.
        destruct (Nat.eqb_spec j p) as [->|Nj].
        * rewrite Hp in Ej. injection Ej as <-. rewrite Nat.eqb_refl. lia.
        * destruct (Nat.eqb_spec q k) as [->|]; [|cbn [andb]; congruence]. exfalso. apply Nj.
          apply (proj1 (NoDup_nth_error perm) ND); [apply nth_error_Some; congruence|congruence].
      + apply nth_error_None in Ej. rewrite <- IL in Ej. apply nth_error_None in Ej. rewrite Ej. reflexivity. }
  exists (mkpart c p (shp R) r), p. split; [|split; [now apply mkpart_part|exact Hp]].
  unfold transpose. rewrite LD, E1, E2, E3, E4, E5. cbv zeta. rewrite !UP. cbn [rbind]. rewrite PO. fold r.
  unfold mkpart. rewrite NP. f_equal. f_equal; [now rewrite RS|].
  rewrite (map_set_nth perm k p) by (auto; rewrite repeat_length; exact K). f_equal.
  rewrite RS, map_length. clear. induction perm as [|q perm IH]; [reflexivity|]. cbn [map length repeat]. now rewrite IH, nth_repeat.
Qed.

(** ** Arrays made from those of the ranks *)
Lemma pynth_share : forall c k (G a : nd A), Share c k G a -> pynth (shp a) (Z.of_nat k) = Ok (part c (nth k (shp G) 0)).
Proof.
  intros c k G a (K & S1 & _). rewrite pynth_nat, S1, nth_error_set_nth, (nth_error_nth' _ 0 K), Nat.eqb_refl. reflexivity.
Qed.
Lemma rsequence_map : forall (T : Type) (f : nat -> res T) g l, (forall q, In q l -> f q = Ok (g q)) -> rsequence (map f l) = Ok (map g l).
Proof.
  intros T f g l H. induction l as [|q l IH]; [reflexivity|]. cbn [map rsequence]. rewrite (H q) by now left.
  rewrite IH by (intros; apply H; now right). reflexivity.
Qed.
Lemma sum_parts : forall n m t, fold_right Nat.add 0 (map (part_of n m) (seq 0 t)) = start_of n m t.
Proof.
  intros n m t. induction t as [|t IH]; [reflexivity|]. rewrite seq_S, map_app, fold_right_app. cbn [map fold_right Nat.add].
  rewrite start_of_S, <- IH. generalize (map (part_of n m) (seq 0 t)) as l. generalize (part_of n m t) as x. clear.
  intros x l. induction l as [|y l IH]; cbn [fold_right]; lia.
Qed.
Lemma wrap_share : forall id m k (G : nd A) arrays r, r < m ->
  (forall q, q < m -> Share (rank_comm id m q) k G (arrays q)) ->
  wrap arrays (Z.of_nat k) (Some (rank_comm id m r)) = Ok (mkpart (rank_comm id m r) k (shp G) (arrays r)).
Proof.
  intros id m k G arrays r Hr H. unfold wrap. cbn [size_of rank_of rank_comm c_size c_rank].
  set (n := nth k (shp G) 0). rewrite (pynth_share _ _ _ _ (H r Hr)).
  rewrite (rsequence_map _ _ (part_of n m)).
  2:{ intros q Hq. apply in_seq in Hq. apply (pynth_share _ _ _ _ (H q ltac:(lia))). }
  cbn [rbind]. rewrite sum_parts, start_of_m by lia. rewrite split_local_closed by exact Hr. cbn [rbind].
  rewrite (rsequence_map _ _ (fun q => (part_of n m q, start_of n m q, start_of n m (S q)))).
  2:{ intros q Hq. apply in_seq in Hq. apply split_local_closed. lia. }
  cbn [rbind].
  replace (forallb _ _) with true.
  - cbn [negb]. destruct (H r Hr) as (K & S1 & _). exact (view_part (rank_comm id m r) k (arrays r) (shp G) K S1).
  - symmetry. apply forallb_forall. intros (l, ((x, y), z)) Hin.
    assert (E : forall s, combine (map (part_of n m) s) (map (fun q => (part_of n m q, start_of n m q, start_of n m (S q))) s)
      = map (fun q => (part_of n m q, (part_of n m q, start_of n m q, start_of n m (S q)))) s).
    { induction s as [|q s IH]; [reflexivity|]. cbn [map combine]. now rewrite IH. }
    rewrite E in Hin. apply in_map_iff in Hin. destruct Hin as (q & Hq & _). injection Hq as <- <- _ _. apply Nat.eqb_refl.
Qed.
(** Lengths that are not those of the even division. *)
Lemma wrap_uneven : forall id m k arrays r lens, r < m -> (forall q, q < m -> nth_error (shp (arrays q)) k = Some (lens q)) ->
  (exists q, q < m /\ lens q <> part_of (fold_right Nat.add 0 (map lens (seq 0 m))) m q) ->
  wrap (A := A) arrays (Z.of_nat k) (Some (rank_comm id m r)) = Err AxisException.
Proof.
  intros id m k arrays r lens Hr H (q & Hq & Nq). unfold wrap. cbn [size_of rank_of rank_comm c_size c_rank].
  assert (PN : forall q, q < m -> pynth (shp (arrays q)) (Z.of_nat k) = Ok (lens q)).
  { intros q' Hq'. rewrite pynth_nat, (H q' Hq'). reflexivity. }
  rewrite (PN r Hr). rewrite (rsequence_map _ _ lens) by (intros q' Hq'; apply in_seq in Hq'; apply PN; lia).
  cbn [rbind]. set (n := fold_right Nat.add 0 (map lens (seq 0 m))) in *. rewrite split_local_closed by exact Hr. cbn [rbind].
  rewrite (rsequence_map _ _ (fun q => (part_of n m q, start_of n m q, start_of n m (S q)))).
  2:{ intros q' Hq'. apply in_seq in Hq'. apply split_local_closed. lia. }
  cbn [rbind]. replace (forallb _ _) with false; [reflexivity|]. symmetry. apply not_true_is_false. intros F.
  rewrite forallb_forall in F.
  assert (E : forall s, combine (map lens s) (map (fun q => (part_of n m q, start_of n m q, start_of n m (S q))) s)
      = map (fun q => (lens q, (part_of n m q, start_of n m q, start_of n m (S q)))) s).
  { induction s as [|x s IH]; [reflexivity|]. cbn [map combine]. now rewrite IH. }
  rewrite E in F. specialize (F (lens q, (part_of n m q, start_of n m q, start_of n m (S q)))). cbv beta in F.
  assert (I : In (lens q, (part_of n m q, start_of n m q, start_of n m (S q))) (map (fun q => (lens q, (part_of n m q, start_of n m q, start_of n m (S q)))) (seq 0 m))).
  { apply in_map_iff. exists q. split; [reflexivity|]. apply in_seq. lia. }
  specialize (F I). apply Nat.eqb_eq in F. contradiction.
Qed.
Lemma copy_part : forall id m k (G : nd A) ds r, r < m -> (forall q, q < m -> Part (rank_comm id m q) k G (ds q)) ->
  exists d', copy ds r = Ok d' /\ Part (rank_comm id m r) k G d' /\ d_data d' = d_data (ds r).
Proof.
  intros id m k G ds r Hr H. destruct (H r Hr) as (_ & E1 & _ & _ & _ & E5).
  exists (mkpart (rank_comm id m r) k (shp G) (d_data (ds r))). unfold copy. rewrite E1, E5.
  rewrite (wrap_share id m k G (fun q => d_data (ds q)) r Hr) by (intros q Hq; apply (H q Hq)).
  split; [reflexivity|]. split; [|reflexivity]. apply mkpart_part, (H r Hr).
Qed.
End WithA.
