(** Theorems about reading several files at once, and about reading them in pieces. *)
From Coq Require Import String.
From Coq Require Import List Ascii Bool Arith ZArith Permutation Lia Sorted.
From Verif Require Import PyBase PyStr MemModel AttrModel AttrProofs MemProofs2 ContProofs TodModel TodSpec TodProofs TxModel TxSpec TxProofs TxProofs2 TxProofs3 TxProps TxmModel TxmSpec.
Import ListNotations.
Open Scope list_scope.
Open Scope nat_scope.

Lemma opens_rmap V (open : str -> res (tod V)) names l : Opens open names l -> rmap open names = Ok l.
Proof. induction 1 as [|n x names l H _ IH]; [reflexivity|]. cbn [rmap]. rewrite H. cbn [rbind]. rewrite IH. reflexivity. Qed.
Lemma rmap_first_error A B (f : A -> res B) l1 x l2 e : (forall y, In y l1 -> exists z, f y = Ok z) -> f x = Err e -> rmap f (l1 ++ x :: l2) = Err e.
Proof.
  induction l1 as [|y l1 IH]; intros H E; cbn [app rmap]; [rewrite E; reflexivity|].
  destruct (H y (or_introl eq_refl)) as (z & ->). cbn [rbind]. rewrite IH; [reflexivity| |exact E]. intros q Q. apply H. now right.
Qed.

(** ** C381 *)
(** A pattern: the files that match it are joined in the order of their names, along each time axis. *)
Theorem C381_pattern : forall (V : Type) axes glob (open : str -> res (tod V)) p start stop datasets (content : str -> tod V),
  NoDup axes -> glob p <> [] -> (forall n, In n (glob p) -> open n = Ok (content n)) ->
  (forall f, In f (glob p) -> Compatible axes (content f) (map content (glob p))) ->
  (forall l, Permutation l (glob p) -> BoundsOk axes (map content l) start stop) ->
  exists names o, Permutation names (glob p) /\ StronglySorted (fun a b => sleb a b = true) names /\
    from_mult_files axes glob open false (FStr p) start stop datasets = Ok o /\
    (forall a, In a axes ->
       dget a (o_index o) = Some (map Some (py_slice (asked start a) (asked stop a) (flat_map (fun n => index_of a (content n)) names)))) /\
    (forall n f d a, hd_error names = Some f -> dget n (x_dsets (content f)) = Some d -> TimeAxis axes (axes_of d) a -> Wanted datasets n ->
       rows_out n o = map Some (py_slice (asked start a) (asked stop a) (flat_map (fun f => rows_of n (content f)) names))).
Proof.
  intros V axes glob open p start stop datasets content HN HG HO HC HB.
  destruct (C236_files glob p) as ((names & E & P & S0) & _). exists names.
  assert (HO' : Opens open names (map content names)).
  { assert (K : forall n, In n names -> open n = Ok (content n)) by (intros n I; apply HO; eapply Permutation_in; [exact P|exact I]).
    clear - K. induction names as [|n names IH]; [constructor|]. cbn [map]. constructor; [apply K; now left|]. apply IH. intros; apply K; now right. }
  unfold from_mult_files. rewrite E. cbn [rbind]. rewrite (opens_rmap _ _ _ _ HO'). cbn [rbind].
  destruct names as [|f rest]; [apply Permutation_nil in P; congruence|].
  assert (If : In f (glob p)) by (eapply Permutation_in; [exact P|now left]).
  assert (C : Compatible axes (content f) (content f :: map content rest)).
  { pose proof (HC f If) as (A1 & A2 & A3 & A4 & A5).
    assert (M : forall x, In x (content f :: map content rest) -> In x (map content (glob p))).
    { intros x Hx. change (In x (map content (f :: rest))) in Hx. eapply Permutation_in; [apply Permutation_map; exact P|exact Hx]. }
    split; [intros; apply A1; auto|]. split; [intros; apply A2; auto|]. split; [intros; eapply A3; eauto|].
    split; [intros; eapply A4; eauto|]. intros; eapply A5; eauto. }
  pose proof (HB _ P) as B. cbn [map] in B.
  destruct (C227_index V axes (content f) (map content rest) start stop datasets HN C B) as (s & t & o & E1 & _ & _ & H1 & _).
  destruct (C228_datasets V axes false (content f) (map content rest) start stop datasets HN C B) as (s' & t' & o' & E2 & _ & H2 & _).
  pose proof E1 as E1'. rewrite E2 in E1'. assert (o' = o) by congruence. subst o'. clear E1'.
  exists o. split; [exact P|]. split; [exact S0|]. cbn [map]. rewrite E1. split; [reflexivity|]. split.
  - intros a Ha. specialize (H1 a Ha). unfold whole_index in H1. cbn [flat_map] in H1 |- *. rewrite flat_map_concat_map, map_map, <- flat_map_concat_map in H1. exact H1.
  - intros n f' d a Hf Hd Ht Hw. cbn [hd_error] in Hf. injection Hf as <-. specialize (H2 n d a Hd Ht Hw). cbv zeta in H2.
    unfold whole_rows in H2. cbn [flat_map] in H2 |- *. rewrite flat_map_concat_map, map_map, <- flat_map_concat_map in H2. unfold rows_out.
    destruct H2 as [(q & Q1 & Q2 & _)|[Q1 Q2]]; rewrite Q1; [exact Q2|]. rewrite Q2. reflexivity.
Qed.
Print Assumptions C381_pattern.
(** What cannot be read. *)
Theorem C381_errors : forall (V : Type) axes glob (open : str -> res (tod V)) disk start stop datasets,
  from_mult_files axes glob open disk FOther start stop datasets = Err ValueError /\
  (forall p, glob p = [] -> from_mult_files axes glob open disk (FStr p) start stop datasets = Err IndexError) /\
  from_mult_files axes glob open disk (FSeq []) start stop datasets = Err IndexError /\
  (forall l1 n l2 e, (forall m, In m l1 -> exists x, open m = Ok x) -> open n = Err e ->
     from_mult_files axes glob open disk (FSeq (l1 ++ n :: l2)) start stop datasets = Err e).
Proof.
  intros V axes glob open disk start stop datasets. split; [reflexivity|]. split; [|split; [reflexivity|]].
  - intros p E. unfold from_mult_files, ensure_file_list. rewrite E. reflexivity.
  - intros l1 n l2 e H E. unfold from_mult_files, ensure_file_list. cbn [rbind]. rewrite (rmap_first_error _ _ _ _ _ _ _ H E). reflexivity.
Qed.
Print Assumptions C381_errors.
Definition m_glob (p : str) : list str := if seqb p (s_ "*.h5") then [s_ "b.h5"; s_ "a.h5"] else [].
Definition m_open (n : str) : res (tod nat) :=
  if seqb n (s_ "a.h5") then Ok t_first else if seqb n (s_ "b.h5") then Ok t_second else Err FileNotFoundError.
Example C381_example : rbind (from_mult_files t_axes m_glob m_open false (FStr (s_ "*.h5")) (Scalar None) (Scalar None) (Some [s_ "vis"]))
    (fun o => Ok (dget t_axis (o_index o), rows_out (s_ "vis") o, rows_out (s_ "temp") o))
  = Ok (Some [Some 10; Some 20; Some 30; Some 40; Some 50], [Some 1; Some 2; Some 3; Some 4; Some 5], []).
Proof. vm_compute. reflexivity. Qed.

(** ** C382 *)
(** Reading up to a bound and then from it gives what reading at once gives. *)
Lemma skip_add A (l : list A) a d : skipn (a + d) l = skipn d (skipn a l).
Proof. revert l. induction a as [|a IH]; intro l; [reflexivity|]. destruct l as [|x l]; cbn [skipn Nat.add]; [now destruct d|apply IH]. Qed.
Lemma first_add A (r : list A) d e : firstn (d + e) r = firstn d r ++ firstn e (skipn d r).
Proof. revert r. induction d as [|d IH]; intro r; [reflexivity|]. destruct r as [|x r]; cbn [firstn skipn Nat.add app]; [now destruct e|]. f_equal. apply IH. Qed.
Lemma slice_join : forall A (l : list A) i j k, (0 <= i <= j)%Z -> (j <= k)%Z ->
  py_slice (Some i) (Some j) l ++ py_slice (Some j) (Some k) l = py_slice (Some i) (Some k) l.
Proof.
  intros A l i j k H1 H2. unfold py_slice, bound, clip.
  destruct (Z.ltb_spec i 0), (Z.ltb_spec j 0), (Z.ltb_spec k 0); try lia.
  set (n := length l). set (a := Z.to_nat (Z.min (Z.of_nat n) (Z.max 0 i))). set (b := Z.to_nat (Z.min (Z.of_nat n) (Z.max 0 j))).
  set (c := Z.to_nat (Z.min (Z.of_nat n) (Z.max 0 k))). assert (a <= b <= c) by lia.
  assert (E0 : skipn b l = skipn (b - a) (skipn a l)).
  { assert (E1 : b = a + (b - a)) by lia. rewrite E1 at 1. apply skip_add. }
  rewrite E0. replace (c - a) with ((b - a) + (c - b)) by lia. generalize (skipn a l). intro r. symmetry. apply first_add.
Qed.
Lemma between_ok V axes (files : list (tod V)) lo mid hi : Between axes files lo mid hi ->
  BoundsOk axes files lo mid /\ BoundsOk axes files mid hi /\ BoundsOk axes files lo hi.
Proof.
  intro H. unfold BoundsOk, StartIn, InOrder, resolve.
  split; [|split]; intros a Ha; destruct (H a Ha) as (i & j & k & Ei & Ej & Ek & B1 & B2 & B3); rewrite ?Ei, ?Ej, ?Ek; split; try lia;
    destruct (Z.ltb_spec i 0), (Z.ltb_spec j 0), (Z.ltb_spec k 0); lia.
Qed.
Theorem C382_pieces : forall (V : Type) axes (first : tod V) rest lo mid hi datasets,
  NoDup axes -> Compatible axes first (first :: rest) -> Between axes (first :: rest) lo mid hi ->
  exists o1 o2 o, snd (concatenate_all axes false true (first :: rest) lo mid datasets) = Ok o1 /\
    snd (concatenate_all axes false true (first :: rest) mid hi datasets) = Ok o2 /\
    snd (concatenate_all axes false true (first :: rest) lo hi datasets) = Ok o /\
    (forall a, In a axes -> exists l1 l2, dget a (o_index o1) = Some l1 /\ dget a (o_index o2) = Some l2 /\ dget a (o_index o) = Some (l1 ++ l2)) /\
    (forall n d a, dget n (x_dsets first) = Some d -> TimeAxis axes (axes_of d) a -> Wanted datasets n ->
       rows_out n o = rows_out n o1 ++ rows_out n o2).
Proof.
  intros V axes first rest lo mid hi datasets HN HC HB. destruct (between_ok _ _ _ _ _ _ HB) as (B1 & B2 & B3).
  assert (K : forall s t, BoundsOk axes (first :: rest) s t -> exists o, snd (concatenate_all axes false true (first :: rest) s t datasets) = Ok o /\
    (forall a, In a axes -> dget a (o_index o) = Some (map Some (py_slice (asked s a) (asked t a) (whole_index a (first :: rest))))) /\
    (forall n d a, dget n (x_dsets first) = Some d -> TimeAxis axes (axes_of d) a -> Wanted datasets n ->
       rows_out n o = map Some (py_slice (asked s a) (asked t a) (whole_rows n (first :: rest))))).
  { intros s t B. destruct (C227_index V axes first rest s t datasets HN HC B) as (s1 & t1 & o & E1 & _ & _ & H1 & _).
    destruct (C228_datasets V axes false first rest s t datasets HN HC B) as (s' & t' & o' & E2 & _ & H2 & _).
    pose proof E1 as E1'. rewrite E2 in E1'. assert (o' = o) by congruence. subst o'. exists o. rewrite E1. split; [reflexivity|]. split; [exact H1|].
    intros n d a Hd Ht Hw. specialize (H2 n d a Hd Ht Hw). cbv zeta in H2. unfold rows_out.
    destruct H2 as [(q & Q1 & Q2 & _)|[Q1 Q2]]; rewrite Q1; [exact Q2|]. rewrite Q2. reflexivity. }
  destruct (K _ _ B1) as (o1 & E1 & I1 & R1), (K _ _ B2) as (o2 & E2 & I2 & R2), (K _ _ B3) as (o & E & I3 & R3).
  exists o1, o2, o. split; [exact E1|]. split; [exact E2|]. split; [exact E|]. split.
  - intros a Ha. destruct (HB a Ha) as (i & j & k & Ei & Ej & Ek & Q1 & Q2 & _). eexists _, _. split; [apply I1; exact Ha|]. split; [apply I2; exact Ha|].
    rewrite (I3 a Ha), <- map_app, Ei, Ej, Ek. now rewrite slice_join.
  - intros n d a Hd Ht Hw. assert (Ha : In a axes) by (destruct Ht as (? & ? & _ & Ha & _); exact Ha).
    destruct (HB a Ha) as (i & j & k & Ei & Ej & Ek & Q1 & Q2 & _). rewrite (R1 n d a), (R2 n d a), (R3 n d a) by assumption.
    rewrite <- map_app, Ei, Ej, Ek. now rewrite slice_join.
Qed.
Print Assumptions C382_pieces.
Example C382_example :
  let read a b := rbind (snd (concatenate_all [t_axis] false true [t_first; t_second] (Scalar (Some a)) (Scalar (Some b)) None))
    (fun o => Ok (rows_out (s_ "vis") o)) in
  read 1%Z 2%Z = Ok [Some 2] /\ read 2%Z 5%Z = Ok [Some 3; Some 4; Some 5] /\ read 1%Z 5%Z = Ok [Some 2; Some 3; Some 4; Some 5].
Proof. vm_compute. auto. Qed.
