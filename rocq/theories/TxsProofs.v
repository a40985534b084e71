(** Proofs about concatenating what was concatenated before. *)
From Coq Require Import String.
From Coq Require Import List Ascii Bool Arith ZArith Permutation Lia.
From Verif Require Import PyBase PyStr MemModel AttrModel AttrProofs MemProofs2 ContProofs TodModel TodSpec TodProofs TxModel TxSpec TxProofs TxProofs2 TxProofs3 TxmSpec TxsSpec.
Import ListNotations.
Open Scope list_scope.
Open Scope nat_scope.

Lemma dget_map : forall A B (f : A -> B) k l, dget k (map (fun p => (fst p, f (snd p))) l) = option_map f (dget k l).
Proof. intros A B f k l. induction l as [|[k' v] l IH]; [reflexivity|]. cbn [map dget fst snd]. destruct (seqb k k'); [reflexivity|exact IH]. Qed.
Lemma keys_map : forall A B (f : A -> B) (l : list (str * A)), map fst (map (fun p => (fst p, f (snd p))) l) = map fst l.
Proof. intros A B f l. rewrite map_map. apply map_ext. reflexivity. Qed.
Lemma written_some : forall V (l : list V), written (map Some l) = l.
Proof. intros V l. induction l as [|v l IH]; [reflexivity|]. cbn. now rewrite <- IH at 2. Qed.
Lemma slice_all : forall A (l : list A), py_slice None None l = l.
Proof. intros A l. unfold py_slice, bound. rewrite Nat.sub_0_r. apply firstn_all. Qed.

Section Stages.
Context {V : Type}.
Variable axes : list str.
Notation tod := (tod V).

(** ** The keys of the result are distinct *)
Lemma rmap_keys : forall s t (l : list (str * list V)) r, init_index axes s t l = Ok r -> map fst r = map fst l.
Proof.
  intros s t l. unfold init_index. induction l as [|[a v] l IH]; intros r H; cbn [rmap] in H.
  - injection H as <-. reflexivity.
  - destruct (mem a axes).
    + destruct (np_empty (t a - s a)%Z) as [e|] eqn:E2; cbn [rbind] in H; try discriminate;
      destruct (rmap _ l) as [r'|] eqn:E; cbn [rbind] in H; try discriminate; injection H as <-; cbn [map fst]; f_equal; now apply IH.
    + cbn [rbind] in H. destruct (rmap _ l) as [r'|] eqn:E; cbn [rbind] in H; try discriminate. injection H as <-. cbn [map fst]. f_equal. now apply IH.
Qed.
Lemma index_step_nodup : forall s t c x i a r, NoDup (map fst i) -> index_step (V:=V) s t c x i a = Ok r -> NoDup (map fst r).
Proof.
  intros s t c x i a r N H. unfold index_step in H. destruct (skipped _ _ _ _); [now injection H as <-|].
  destruct (get_in_out_slice _ _ _ _) as [[? ?] [? ?]]. destruct (dget a i); [|discriminate]. destruct (dget a (x_index x)); [|discriminate].
  destruct (np_set _ _ _ _); cbn [rbind] in H; [|discriminate]. injection H as <-. now apply dput_nodup.
Qed.
Lemma dset_step_nodup : forall w s t c x i a r, NoDup (map fst i) -> dset_step (V:=V) axes w s t c x i a = Ok r -> NoDup (map fst r).
Proof.
  intros w s t c x i a r N H. unfold dset_step in H. destruct (dget a (x_dsets x)); [|discriminate].
  destruct (negb _); [now injection H as <-|]. destruct (concat_axis _ _); [|discriminate].
  destruct (skipped _ _ _ _); [now injection H as <-|].
  destruct (get_in_out_slice _ _ _ _) as [[? ?] [? ?]].
  destruct (match dget a i with Some o => Ok o | None => _ end); cbn [rbind] in H; [|discriminate].
  destruct (np_set _ _ _ _); cbn [rbind] in H; [|discriminate]. injection H as <-. now apply dput_nodup.
Qed.
Lemma fold_res_inv : forall A S (f : S -> A -> res S) (P : S -> Prop) l s r,
  (forall s a s', P s -> f s a = Ok s' -> P s') -> P s -> fold_res f s l = Ok r -> P r.
Proof.
  intros A S f P l. induction l as [|x l IH]; intros s r Hf Hs H; cbn [fold_res] in H; [now injection H as <-|].
  destruct (f s x) as [s'|] eqn:E; cbn [rbind] in H; [|discriminate]. eapply IH; [exact Hf| |exact H]. eapply Hf; eauto.
Qed.
Lemma main_loop_nodup : forall disk w s t files c i d i' d', NoDup (map fst i) -> NoDup (map fst d) ->
  main_loop (V:=V) axes disk w s t c files i d = Ok (i', d') -> NoDup (map fst i') /\ NoDup (map fst d').
Proof.
  intros disk w s t files. induction files as [|x files IH]; intros c i d i' d' Ni Nd H; cbn [main_loop] in H.
  - injection H as <- <-. auto.
  - destruct (fold_res _ i axes) as [i1|] eqn:E1; cbn [rbind] in H; [|discriminate].
    destruct (time_names axes x) as [names|]; cbn [rbind] in H; [|discriminate].
    destruct (fold_res _ d names) as [d1|] eqn:E2; cbn [rbind] in H; [|discriminate].
    apply IH in H; [exact H| |].
    + destruct disk; [exact Ni|]. refine (fold_res_inv _ _ _ (fun i => NoDup (map fst i)) _ _ _ _ Ni E1).
      intros ? ? ? K. apply index_step_nodup, K.
    + refine (fold_res_inv _ _ _ (fun i => NoDup (map fst i)) _ _ _ _ Nd E2). intros ? ? ? K. apply dset_step_nodup, K.
Qed.
Lemma concat_nodup : forall disk is_list first rest s t ds s' t' o, NoDup (map fst (x_index first)) -> NoDup (map fst (x_dsets first)) ->
  concatenate_all (V:=V) axes disk is_list (first :: rest) s t ds = (s', t', Ok o) -> is_list = true ->
  NoDup (map fst (o_index o)) /\ NoDup (map fst (o_dsets o)).
Proof.
  intros disk is_list first rest s t ds s' t' o N1 N2 H ->. unfold concatenate_all in H.
  destruct (real_bounds _ _ _ _) as [ms mt]. cbn zeta in H.
  match type of H with (_, _, ?r) = _ => assert (H' : r = Ok o) by congruence end. clear H.
  destruct (init_index _ _ _ _) as [index|] eqn:E; cbn [rbind pick_first] in H'; [|discriminate].
  destruct (time_names axes first) as [names|]; cbn [rbind] in H'; [|discriminate].
  destruct (main_loop _ _ _ _ _ _ _ _ _) as [[i d]|] eqn:E2; cbn [rbind] in H'; [|discriminate]. injection H' as <-. cbn [o_index o_dsets].
  eapply main_loop_nodup; [| |exact E2].
  - rewrite (rmap_keys _ _ _ _ E). exact N1.
  - unfold copy_common. rewrite map_map. cbn [fst]. clear - N2. induction (x_dsets first) as [|p l IH]; [constructor|].
    cbn [map] in N2. inversion N2; subst. cbn [filter]. destruct (concat_axis axes (snd p)); [auto|]. cbn [map]. constructor; [|auto].
    intro K. apply in_map_iff in K as (q & Eq & K). apply filter_In in K as [K _]. apply H1. rewrite <- Eq. now apply in_map.
Qed.

(** ** Datasets are as long as their axes *)
Lemma rows_length : forall (first : tod) (files : list tod) n (d : dset V) a, Compatible axes first files ->
  dget n (x_dsets first) = Some d -> TimeAxis axes (axes_of d) a -> length (whole_rows n files) = length (whole_index a files).
Proof.
  intros first files n d a (_ & _ & _ & A4 & A5) Hd Ht.
  assert (K : forall l : list tod, (forall x, In x l -> In x files) -> length (whole_rows n l) = length (whole_index a l)).
  { induction l as [|x l IH]; intro S0; [reflexivity|]. unfold whole_rows, whole_index in *. cbn [flat_map]. rewrite !app_length, IH by (intros; apply S0; now right).
    f_equal. destruct (A4 x n d (S0 x (or_introl eq_refl)) Hd) as (d' & D1 & D2). unfold rows_of. rewrite D1.
    eapply A5; [apply S0; now left|exact D1|]. unfold axes_of in *. now rewrite D2. }
  apply K. auto.
Qed.

(** ** All of some files *)
Record Whole (first : tod) (files : list tod) (o : out V) : Prop := {
  w_attrs : o_attrs o = x_attrs first;
  w_index : forall a, In a axes -> dget a (o_index o) = Some (map Some (whole_index a files));
  w_common : forall n d, dget n (x_dsets first) = Some d -> NoTimeAxis axes d ->
    dget n (o_dsets o) = Some (mkodset (d_axis d) (d_attrs d) (map Some (d_rows d)));
  w_rows : forall n d a, dget n (x_dsets first) = Some d -> TimeAxis axes (axes_of d) a ->
    exists q, dget n (o_dsets o) = Some q /\ od_rows q = map Some (whole_rows n files) /\ od_axis q = d_axis d;
  w_none : forall n, dget n (x_dsets first) = None -> dget n (o_dsets o) = None;
  w_nodup : NoDup (map fst (o_index o)) /\ NoDup (map fst (o_dsets o)) }.
Lemma whole_ok : forall (first : tod) rest, NoDup axes -> Compatible axes first (first :: rest) -> Some_times axes (first :: rest) ->
  exists s t o, concatenate_all axes false true (first :: rest) (Scalar None) (Scalar None) None = (s, t, Ok o) /\ Whole first (first :: rest) o.
Proof.
  intros first rest HN HC HS.
  assert (HB : BoundsOk axes (first :: rest) (Scalar None) (Scalar None)).
  { intros a _. unfold asked, StartIn, InOrder, resolve. lia. }
  destruct (concat_result axes false first rest (Scalar None) (Scalar None) None HN HC HB) as (s & t & o & E & H1 & H2 & H3 & H4 & H5 & H6 & H7 & H8).
  exists s, t, o. split; [exact E|]. cbn [asked] in *. split.
  - exact H1.
  - intros a Ha. specialize (H3 a Ha). cbv zeta in H3. now rewrite slice_all in H3.
  - exact H5.
  - intros n d a Hd Ht. specialize (H6 n d a Hd Ht I). cbv zeta in H6. rewrite slice_all in H6. destruct H6 as [H6|[_ H6]]; [exact H6|].
    exfalso. assert (Ha : In a axes) by (destruct Ht as (? & ? & _ & Ha & _); exact Ha). apply (HS a Ha).
    pose proof (rows_length first (first :: rest) n d a HC Hd Ht) as L. rewrite H6 in L. cbn [length] in L. now destruct (whole_index a (first :: rest)).
  - exact H8.
  - destruct HC as (A1 & _). destruct (A1 first (or_introl eq_refl)) as [N1 N2]. eapply concat_nodup; [exact N2|exact N1|exact E|reflexivity].
Qed.
Lemma in_dget : forall A n (l : list (str * A)), In n (map fst l) -> dget n l <> None.
Proof. intros A n l H. apply dget_in in H as [v H]. congruence. Qed.

(** ** The parts as inputs *)
Lemma part_compatible : forall (f1 : tod) r1 f2 r2, Compatible axes f1 ((f1 :: r1) ++ (f2 :: r2)) ->
  Compatible axes f1 (f1 :: r1) /\ Compatible axes f2 (f2 :: r2).
Proof.
  intros f1 r1 f2 r2 (A1 & A2 & A3 & A4 & A5).
  assert (I1 : forall x, In x (f1 :: r1) -> In x ((f1 :: r1) ++ f2 :: r2)) by (intros; apply in_or_app; now left).
  assert (I2 : forall x, In x (f2 :: r2) -> In x ((f1 :: r1) ++ f2 :: r2)) by (intros; apply in_or_app; now right).
  assert (F2 : In f2 ((f1 :: r1) ++ f2 :: r2)) by (apply I2; now left). split.
  - split; [auto|]. split; [eauto|]. split; [eauto|]. split; eauto.
  - split; [auto|]. split; [eauto|]. split; [|split; [|eauto]].
    + intros x n Hx Hn. pose proof (A3 x n (I2 _ Hx) Hn) as K. apply dget_in in K as [d K]. destruct (A4 f2 n d F2 K) as (d' & D & _). apply dget_in. eauto.
    + intros x n d Hx Hd. assert (K : In n (map fst (x_dsets f1))) by (apply (A3 f2 n F2), dget_in; eauto).
      apply dget_in in K as [d0 K]. destruct (A4 f2 n d0 F2 K) as (d1 & D1 & E1). destruct (A4 x n d0 (I2 _ Hx) K) as (d2 & D2 & E2).
      exists d2. split; [exact D2|]. congruence.
Qed.
Lemma input_dset : forall (o : out V) n, dget n (x_dsets (as_input o)) =
  option_map (fun q => mkdset (od_axis q) (od_attrs q) (written (od_rows q))) (dget n (o_dsets o)).
Proof. intros o n. unfold as_input. cbn [x_dsets]. exact (dget_map _ _ (fun q => mkdset (od_axis q) (od_attrs q) (written (od_rows q))) n (o_dsets o)). Qed.
Lemma input_index : forall (o : out V) a, dget a (x_index (as_input o)) = option_map written (dget a (o_index o)).
Proof. intros o a. unfold as_input. cbn [x_index]. exact (dget_map _ _ written a (o_index o)). Qed.
Lemma timed_or_not : forall d : dset V, (exists a, TimeAxis axes (axes_of d) a) \/ NoTimeAxis axes d.
Proof. intro d. destruct (concat_axis axes d) as [a|] eqn:E; [left; exists a; now apply concat_axis_iff|right; now apply concat_axis_none]. Qed.
Lemma whole_axis : forall first files o n d, Whole first files o -> dget n (x_dsets first) = Some d ->
  exists q, dget n (o_dsets o) = Some q /\ od_axis q = d_axis d.
Proof.
  intros first files o n d W Hd. destruct (timed_or_not d) as [[a Ht]|Ht].
  - destruct (w_rows _ _ _ W n d a Hd Ht) as (q & Q1 & _ & Q2). eauto.
  - eexists. split; [apply (w_common _ _ _ W n d Hd Ht)|]. reflexivity.
Qed.
Lemma whole_inv : forall first files o n q, Whole first files o -> dget n (o_dsets o) = Some q ->
  exists d, dget n (x_dsets first) = Some d /\ od_axis q = d_axis d.
Proof.
  intros first files o n q W Hq. destruct (dget n (x_dsets first)) as [d|] eqn:Hd; [|rewrite (w_none _ _ _ W n Hd) in Hq; discriminate].
  exists d. split; [reflexivity|]. destruct (whole_axis _ _ _ _ _ W Hd) as (q' & Q1 & Q2). congruence.
Qed.
Lemma whole_part : forall first files o, Whole first files o ->
  NoDup (map fst (x_dsets (as_input o))) /\ NoDup (map fst (x_index (as_input o))) /\
  (forall a, In a axes -> dget a (x_index (as_input o)) = Some (whole_index a files)) /\
  (forall n d a, dget n (x_dsets first) = Some d -> TimeAxis axes (axes_of d) a -> rows_of n (as_input o) = whole_rows n files).
Proof.
  intros first files o W. destruct (w_nodup _ _ _ W) as [N1 N2]. split; [|split; [|split]].
  - unfold as_input. cbn [x_dsets]. rewrite (keys_map _ _ (fun q : odset V => mkdset (od_axis q) (od_attrs q) (written (od_rows q)))). exact N2.
  - unfold as_input. cbn [x_index]. rewrite (keys_map _ _ written). exact N1.
  - intros a Ha. rewrite input_index, (w_index _ _ _ W a Ha). cbn [option_map]. now rewrite written_some.
  - intros n d a Hd Ht. destruct (w_rows _ _ _ W n d a Hd Ht) as (q & Q1 & Q2 & _). unfold rows_of. rewrite input_dset, Q1. cbn [option_map d_rows].
    now rewrite Q2, written_some.
Qed.
Lemma stages_compatible : forall (f1 : tod) r1 f2 r2 o1 o2, Compatible axes f1 ((f1 :: r1) ++ (f2 :: r2)) ->
  Whole f1 (f1 :: r1) o1 -> Whole f2 (f2 :: r2) o2 -> Compatible axes (as_input o1) [as_input o1; as_input o2].
Proof.
  intros f1 r1 f2 r2 o1 o2 HC W1 W2. destruct (part_compatible _ _ _ _ HC) as [C1 C2].
  destruct (whole_part _ _ _ W1) as (M1 & M2 & M3 & M4). destruct (whole_part _ _ _ W2) as (P1 & P2 & P3 & P4).
  assert (F2 : In f2 ((f1 :: r1) ++ f2 :: r2)) by (apply in_or_app; right; now left).
  pose proof HC as (A1 & A2 & A3 & A4 & A5). split; [|split; [|split; [|split]]].
  - intros x [<-|[<-|[]]]; auto.
  - intros x a [<-|[<-|[]]] Ha; eauto.
  - intros x n [<-|[<-|[]]] Hn; [exact Hn|]. apply dget_in in Hn as [d Hn]. rewrite input_dset in Hn.
    destruct (dget n (o_dsets o2)) as [q|] eqn:Hq; [|discriminate]. destruct (whole_inv _ _ _ _ _ W2 Hq) as (d2 & D2 & _).
    assert (K : In n (map fst (x_dsets f1))) by (apply (A3 f2 n F2), dget_in; eauto). apply dget_in in K as [d1 K].
    destruct (whole_axis _ _ _ _ _ W1 K) as (q1 & Q1 & _). apply dget_in. rewrite input_dset, Q1. cbn. eauto.
  - intros x n d [<-|[<-|[]]] Hd; [eauto|]. rewrite input_dset in Hd. destruct (dget n (o_dsets o1)) as [q|] eqn:Hq; [|discriminate].
    cbn [option_map] in Hd. injection Hd as <-. cbn [d_axis]. destruct (whole_inv _ _ _ _ _ W1 Hq) as (d1 & D1 & E1).
    destruct (A4 f2 n d1 F2 D1) as (d2 & D2 & E2). destruct (whole_axis _ _ _ _ _ W2 D2) as (q2 & Q2 & E3).
    rewrite input_dset, Q2. cbn [option_map]. eexists. split; [reflexivity|]. cbn [d_axis]. congruence.
  - assert (K : forall f r o n d a, Whole f (f :: r) o -> Compatible axes f (f :: r) -> dget n (x_dsets (as_input o)) = Some d ->
      TimeAxis axes (axes_of d) a -> length (d_rows d) = length (index_of a (as_input o))).
    { intros f r o n d a W C Hd Ht. destruct (whole_part _ _ _ W) as (_ & _ & Q3 & Q4). pose proof Hd as Hd'.
      rewrite input_dset in Hd. destruct (dget n (o_dsets o)) as [q|] eqn:Hq; [|discriminate]. destruct (whole_inv _ _ _ _ _ W Hq) as (d1 & D1 & E1).
      assert (Ht' : TimeAxis axes (axes_of d1) a).
      { cbn [option_map] in Hd. injection Hd as <-. unfold axes_of in *. cbn [d_axis] in Ht. now rewrite <- E1. }
      assert (Ha : In a axes) by (destruct Ht as (? & ? & _ & Ha & _); exact Ha).
      pose proof (Q4 n d1 a D1 Ht') as R. unfold rows_of in R. rewrite Hd' in R. rewrite R. unfold index_of. rewrite (Q3 a Ha).
      eapply rows_length; [exact C|exact D1|exact Ht']. }
    intros x n d a [<-|[<-|[]]] Hd Ht; [eapply (K f1 r1)|eapply (K f2 r2)]; eauto.
Qed.
Lemma whole_index_app : forall a (l1 l2 : list tod), whole_index a (l1 ++ l2) = whole_index a l1 ++ whole_index a l2.
Proof. intros. unfold whole_index. apply flat_map_app. Qed.
Lemma whole_rows_app : forall a (l1 l2 : list tod), whole_rows a (l1 ++ l2) = whole_rows a l1 ++ whole_rows a l2.
Proof. intros. unfold whole_rows. apply flat_map_app. Qed.
Theorem stages : forall (f1 : tod) r1 f2 r2 start stop datasets, NoDup axes -> Compatible axes f1 ((f1 :: r1) ++ (f2 :: r2)) ->
  Some_times axes (f1 :: r1) -> Some_times axes (f2 :: r2) -> BoundsOk axes ((f1 :: r1) ++ (f2 :: r2)) start stop ->
  exists o1 o2 o o',
    snd (concatenate_all axes false true (f1 :: r1) (Scalar None) (Scalar None) None) = Ok o1 /\
    snd (concatenate_all axes false true (f2 :: r2) (Scalar None) (Scalar None) None) = Ok o2 /\
    snd (concatenate_all axes false true ((f1 :: r1) ++ (f2 :: r2)) start stop datasets) = Ok o /\
    snd (concatenate_all axes false true [as_input o1; as_input o2] start stop datasets) = Ok o' /\
    o_attrs o' = o_attrs o /\
    (forall a, In a axes -> dget a (o_index o') = dget a (o_index o)) /\
    (forall n d, dget n (x_dsets f1) = Some d -> rows_out n o' = rows_out n o).
Proof.
  intros f1 r1 f2 r2 start stop datasets HN HC S1 S2 HB. destruct (part_compatible _ _ _ _ HC) as [C1 C2].
  destruct (whole_ok f1 r1 HN C1 S1) as (x1 & y1 & o1 & E1 & W1). destruct (whole_ok f2 r2 HN C2 S2) as (x2 & y2 & o2 & E2 & W2).
  pose proof (stages_compatible _ _ _ _ _ _ HC W1 W2) as C3.
  destruct (whole_part _ _ _ W1) as (_ & _ & M3 & M4). destruct (whole_part _ _ _ W2) as (_ & _ & P3 & P4).
  assert (WI : forall a, In a axes -> whole_index a [as_input o1; as_input o2] = whole_index a ((f1 :: r1) ++ f2 :: r2)).
  { intros a Ha. rewrite whole_index_app. unfold whole_index at 1. cbn [flat_map]. rewrite app_nil_r. unfold index_of. now rewrite (M3 a Ha), (P3 a Ha). }
  assert (HB' : BoundsOk axes [as_input o1; as_input o2] start stop) by (intros a Ha; rewrite (WI a Ha); exact (HB a Ha)).
  destruct (concat_result axes false (as_input o1) [as_input o2] start stop datasets HN C3 HB') as (s3 & t3 & o' & E3 & A1 & _ & A3 & _ & A5 & A6 & A7 & _).
  destruct (concat_result axes false f1 (r1 ++ f2 :: r2) start stop datasets HN HC HB) as (s4 & t4 & o & E4 & B1 & _ & B3 & _ & B5 & B6 & B7 & _).
  exists o1, o2, o, o'. rewrite E1, E2. cbn [app snd]. rewrite E4, E3. cbn [snd]. do 4 (split; [reflexivity|]). split; [|split].
  - rewrite A1, B1. cbn [as_input x_attrs]. apply (w_attrs _ _ _ W1).
  - intros a Ha. rewrite (A3 a Ha), (B3 a Ha). cbv zeta. now rewrite (WI a Ha).
  - intros n d Hd. destruct (whole_axis _ _ _ _ _ W1 Hd) as (q & Q1 & Q2).
    assert (Hd' : dget n (x_dsets (as_input o1)) = Some (mkdset (od_axis q) (od_attrs q) (written (od_rows q)))) by (rewrite input_dset, Q1; reflexivity).
    assert (AX : axes_of (mkdset (od_axis q) (od_attrs q) (written (od_rows q))) = axes_of d) by (unfold axes_of; cbn [d_axis]; now rewrite Q2).
    unfold rows_out. destruct (timed_or_not d) as [[a Ht]|Ht].
    + assert (Ht' : TimeAxis axes (axes_of (mkdset (od_axis q) (od_attrs q) (written (od_rows q)))) a) by (rewrite AX; exact Ht).
      assert (WR : whole_rows n [as_input o1; as_input o2] = whole_rows n ((f1 :: r1) ++ f2 :: r2)).
      { rewrite whole_rows_app. unfold whole_rows at 1. cbn [flat_map]. rewrite app_nil_r. rewrite (M4 n d a Hd Ht).
        destruct HC as (_ & _ & _ & A4 & _). destruct (A4 f2 n d ltac:(apply in_or_app; right; now left) Hd) as (d2 & D2 & X2).
        rewrite (P4 n d2 a D2); [reflexivity|]. unfold axes_of in *. now rewrite X2. }
      destruct (match datasets with None => true | Some l => mem n l end) eqn:Em.
      * assert (Hw : Wanted datasets n). { destruct datasets as [l|]; [|exact I]. cbn. now apply mem_iff. }
        specialize (A6 n _ a Hd' Ht' Hw). specialize (B6 n d a Hd Ht Hw). cbv zeta in A6, B6. rewrite WR in A6.
        change (f1 :: r1 ++ f2 :: r2) with ((f1 :: r1) ++ f2 :: r2) in B6.
        destruct A6 as [(p & -> & -> & _)|[-> Z1]], B6 as [(p' & -> & -> & _)|[-> Z2]]; try reflexivity; rewrite ?Z1, ?Z2; reflexivity.
      * assert (Hw : ~ Wanted datasets n). { destruct datasets as [l|]; [|discriminate]. cbn. intro K. apply mem_iff in K. congruence. }
        rewrite (A7 n _ a Hd' Ht' Hw), (B7 n d a Hd Ht Hw). reflexivity.
    + assert (Ht' : NoTimeAxis axes (mkdset (od_axis q) (od_attrs q) (written (od_rows q)))) by (unfold NoTimeAxis; rewrite AX; exact Ht).
      rewrite (A5 n _ Hd' Ht'), (B5 n d Hd Ht). cbn [od_rows d_rows]. rewrite (w_common _ _ _ W1 n d Hd Ht) in Q1. injection Q1 as <-. cbn [od_rows].
      now rewrite written_some.
Qed.
End Stages.
