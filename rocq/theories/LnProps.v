(** C395-C396: the lines of errors in configurations. *)
From Coq Require Import String.
From Coq Require Import List Ascii Bool Arith Lia.
From Verif Require Import PyBase PyStr MemModel GlobModel FlowProofs ProfProofs RngProofs LnModel.
From Verif Require LoadModel LoadProps.
Import ListNotations.
Open Scope list_scope.
Open Scope nat_scope.

(** [v] is the last value given to [k]. *)
Definition LastOf {A} (k : str) (v : A) (kv : list (str * A)) : Prop :=
  exists a b, kv = a ++ (k, v) :: b /\ ~ In k (map fst b).

Lemma last_first : forall A k (v : A) x w kv, LastOf k v ((x, w) :: kv) <-> LastOf k v kv \/ (~ In k (map fst kv) /\ k = x /\ v = w).
Proof.
  intros A k v x w kv. split.
  - intros ([|y a] & b & E & N); cbn [app] in E; injection E as E1 E2.
    + right. subst. auto.
    + left. exists a, b. auto.
  - intros [(a & b & E & N)|(N & -> & ->)].
    + exists ((x, w) :: a), b. rewrite E. auto.
    + exists [], kv. auto.
Qed.
Lemma update_get : forall kv d k, (exists v, LastOf k v kv /\ dget k (update d kv) = Some v) \/ (~ In k (map fst kv) /\ dget k (update d kv) = dget k d).
Proof.
  induction kv as [|[x w] kv IH]; intros d k; [right; split; [intros []|reflexivity]|].
  unfold update. cbn [fold_left fst snd]. fold (update (dput x w d) kv).
  destruct (IH (dput x w d) k) as [(v & L & E)|(N & E)].
  - left. exists v. split; [apply last_first; now left|exact E].
  - rewrite dget_put in E. destruct (seqb k x) eqn:Q.
    + left. exists w. split; [|exact E]. apply seqb_eq in Q. apply last_first. right. auto.
    + right. split; [|exact E]. intros [G|G]; [|contradiction]. cbn in G. subst. rewrite seqb_refl in Q. discriminate.
Qed.

(** A mapping constructed by itself has its line, counted from 1, and the last value of each key. *)
Theorem C395_mapping : forall start kv, exists d, construct_mapping start kv = VLine (Some (S start)) d
  /\ forall k v, dget k d = Some v <-> LastOf k v kv.
Proof.
  intros start kv. unfold construct_mapping. eexists. split; [now rewrite Nat.add_1_r|].
  assert (U : forall (kv : list (str * yval)) k v, LastOf k v kv -> In k (map fst kv)).
  { intros l k v (a & b & -> & _). rewrite map_app. apply in_or_app. right. now left. }
  assert (F : forall (kv : list (str * yval)) k v w, LastOf k v kv -> LastOf k w kv -> v = w).
  { induction kv0 as [|[x u] l IHl]; intros k v w Hv Hw; [destruct Hv as ([|] & ? & E & _); discriminate E|].
    apply last_first in Hv, Hw. destruct Hv as [Hv|(Nv & _ & ->)], Hw as [Hw|(Nw & _ & ->)]; auto.
    - eapply IHl; eassumption.
    - exfalso. eapply Nw, U, Hv.
    - exfalso. eapply Nv, U, Hw. }
  assert (G : forall (kv : list (str * yval)) k v, dget k (update [] kv) = Some v <-> LastOf k v kv).
  { intros l k v. destruct (update_get l [] k) as [(w & L & E)|(N & E)]; rewrite E; split; intro H.
    - injection H as ->. exact L.
    - f_equal. eapply F; eassumption.
    - discriminate.
    - exfalso. apply N. eapply U, H. }
  intros k v. rewrite G.
  assert (N : forall (kv d : list (str * yval)), NoDup (map fst d) -> NoDup (map fst (update d kv))).
  { induction kv0 as [|[x u] l IHl]; intros d D; [exact D|]. unfold update. cbn [fold_left fst snd]. apply IHl.
    clear - D. induction d as [|[y z] d IHd]; cbn [dput map fst]; [constructor; [intros []|constructor]|].
    inversion D; subst. destruct (seqb x y) eqn:Q; cbn [map fst]; constructor; auto.
    intro K. apply H1. clear - K Q. induction d as [|[p q] d IHd]; cbn [dput map fst] in K.
    - destruct K as [K|[]]. subst. rewrite seqb_refl in Q. discriminate.
    - destruct (seqb x p); cbn [map fst] in K; destruct K as [K|K]; [left; exact K|right; exact K|left; exact K|right; apply IHd, K]. }
  specialize (N kv [] (NoDup_nil _)). rewrite <- (G kv). clear G. generalize dependent (update [] kv). intros d N. split.
  - intros (a & b & -> & Hb). rewrite map_app in N. apply NoDup_remove_2 in N.
    induction a as [|[p q] a IHa]; cbn [app dget]; [now rewrite seqb_refl|].
    destruct (seqb k p) eqn:Q; [exfalso; apply seqb_eq in Q; subst; apply N; now left|].
    apply IHa. intro K. apply N. now right.
  - induction d as [|[p q] d IHd]; cbn [dget]; [discriminate|]. inversion N; subst. destruct (seqb k p) eqn:Q.
    + intro E. injection E as ->. apply seqb_eq in Q. subst. exists [], d. auto.
    + intro E. apply last_first. left. apply IHd; assumption.
Qed.
Print Assumptions C395_mapping.

Definition number (s : str) : nat := fold_left (fun v c => 10 * v + (nat_of_ascii c - 48)) s 0.

(** The text of an error about a block with a line names the line, and the file if it has one. *)
Theorem C395_text : forall message file line d, exists digits, Forall Digit digits /\ number digits = line /\
  cerr_str (cerr_new message file (Some (VLine (Some line) d))) =
  message ++ ascii_of_nat 10 :: list_ascii_of_string "Error in block starting at L" ++ digits ++
    match file with None => [] | Some f => list_ascii_of_string " (" ++ f ++ list_ascii_of_string ")" end.
Proof.
  intros message file line d. exists (decimal line). split; [|split].
  - apply digits_Digit. constructor.
  - exact (decimal_val line).
  - unfold cerr_str, cerr_new, newline. cbn [e_line e_file e_message]. destruct file as [f|]; cbn [app]; [|now rewrite app_nil_r].
    unfold s_. now rewrite <- !app_assoc.
Qed.
Print Assumptions C395_text.

(** Of what the loader returns, however, no block has a line: the message is all that is shown. *)
Inductive Part_of : yval -> yval -> Prop :=
| po_self v : Part_of v v
| po_list v x l : In x l -> Part_of v x -> Part_of v (VList l)
| po_dict v k x d : In (k, x) d -> Part_of v x -> Part_of v (VDict d)
| po_line v k x line d : In (k, x) d -> Part_of v x -> Part_of v (VLine line d).

Lemma update_in : forall kv d k (x : yval), In (k, x) (update d kv) -> (exists k', In (k', x) d) \/ exists k', In (k', x) kv.
Proof.
  induction kv as [|[y w] kv IH]; intros d k x H; [left; eauto|].
  unfold update in H. cbn [fold_left fst snd] in H. apply IH in H as [(k' & H)|(k' & H)].
  - assert (G : (k', x) = (k', w) \/ exists k'', In (k'', x) d).
    { clear - H. induction d as [|[p q] d IHd]; cbn [dput] in H.
      - destruct H as [H|[]]. injection H as _ ->. now left.
      - destruct (seqb y p).
        + destruct H as [H|H]; [injection H as _ ->; now left|right; exists k'; now right].
        + destruct H as [H|H]; [right; exists k'; left; exact H|]. destruct (IHd H) as [G|(k'' & G)]; [now left|right; exists k''; now right]. }
    destruct G as [G|G]; [injection G as ->; right; exists y; now left|now left].
  - right. exists k'. now right.
Qed.

Section Ind.
Variable P : ynode -> Prop.
Hypothesis Hs : forall t, P (NScalar t).
Hypothesis Hl : forall l, Forall P l -> P (NSeq l).
Hypothesis Hm : forall s kv, Forall (fun p => P (snd p)) kv -> P (NMap s kv).
Fixpoint ynode_ind' (n : ynode) : P n :=
  match n with
  | NScalar t => Hs t
  | NSeq l => Hl l ((fix go (l : list ynode) : Forall P l := match l with [] => Forall_nil _ | x :: r => Forall_cons x (ynode_ind' x) (go r) end) l)
  | NMap s kv => Hm s kv ((fix go (l : list (str * ynode)) : Forall (fun p => P (snd p)) l :=
                    match l with [] => Forall_nil _ | x :: r => Forall_cons x (ynode_ind' (snd x)) (go r) end) kv)
  end.
End Ind.

Lemma no_lines : forall n v, Part_of v (construct n) -> forall line d, v <> VLine line d.
Proof.
  induction n as [t|l IH|s kv IH] using ynode_ind'; intros v H line d E; subst v.
  - inversion H.
  - cbn [construct] in H. inversion H as [|v x l' Hi Hp| |]; subst. apply in_map_iff in Hi as (n & <- & Hn).
    rewrite Forall_forall in IH. exact (IH n Hn _ Hp line d eq_refl).
  - cbn [construct] in H. unfold construct_yaml_map, construct_mapping in H. inversion H as [| |v k x d' H2 H3|]; subst.
    apply update_in in H2 as [(k' & [])|(k' & H2)]. apply update_in in H2 as [(k2 & [])|(k2 & H2)].
    apply update_in in H2 as [(k3 & [])|(k3 & H2)].
    apply in_map_iff in H2 as ((k4 & n) & E & Hn). cbn [fst snd] in E. injection E as _ <-.
    rewrite Forall_forall in IH. exact (IH (k4, n) Hn _ H3 line d eq_refl).
Qed.
Theorem C395_loaded : forall n v message file, Part_of v (construct n) -> cerr_str (cerr_new message file (Some v)) = message.
Proof.
  intros n v message file H. pose proof (no_lines n v H) as N. unfold cerr_str, cerr_new. cbn [e_line e_file e_message].
  destruct v as [t|l|d|line d]; try apply app_nil_r. exfalso. exact (N line d eq_refl).
Qed.
Print Assumptions C395_loaded.

Definition doc : ynode :=
  NMap 0 [(s_ "pipeline", NMap 2 [(s_ "tasks", NSeq [NMap 4 [(s_ "type", NScalar (s_ "a.B"))]])])].
Example C395_example :
  construct doc = VDict [(s_ "pipeline", VDict [(s_ "tasks", VList [VDict [(s_ "type", VScalar (s_ "a.B"))]])])]
  /\ Part_of (VDict [(s_ "type", VScalar (s_ "a.B"))]) (construct doc)
  /\ construct_mapping 4 [(s_ "type", VScalar (s_ "a")); (s_ "type", VScalar (s_ "a.B"))] = VLine (Some 5) [(s_ "type", VScalar (s_ "a.B"))]
  /\ cerr_str (cerr_new (s_ "bad") (Some (s_ "a.yaml")) (Some (VLine (Some 15) []))) =
     s_ "bad" ++ ascii_of_nat 10 :: s_ "Error in block starting at L15 (a.yaml)".
Proof.
  split; [reflexivity|]. split; [|split; reflexivity].
  eapply po_dict; [left; reflexivity|]. eapply po_dict; [left; reflexivity|]. eapply po_list; [left; reflexivity|]. constructor.
Qed.

(** C396: an error about a mapping of the document shows the line the mapping starts on.  Refuted. *)
Theorem C396_refuted : exists start kv v, construct (NMap start kv) = v /\
  forall message file, cerr_str (cerr_new message file (Some v)) = message.
Proof.
  exists 4, [(s_ "type", NScalar (s_ "a.B"))], (VDict [(s_ "type", VScalar (s_ "a.B"))]). split; [reflexivity|].
  intros message file. apply app_nil_r.
Qed.
Print Assumptions C396_refuted.

(** Neither is the file named in an error without a line. *)
Theorem C396_file_refuted : exists message file location, file <> None /\ cerr_str (cerr_new message file location) = message.
Proof. exists (s_ "Unable to open"), (Some (s_ "a.yaml")), None. split; [discriminate|reflexivity]. Qed.
Print Assumptions C396_file_refuted.

(** A configuration error of a task in such a document: no line, although the specification is a block.
    With lines C177_line_partial gives that of the specification. *)
Theorem C396_task_refuted : exists w all spec kv e, construct (NMap 4 kv) = VDict [(s_ "type", VScalar (s_ "Mine")); (s_ "params", VScalar (s_ "g"))] /\
  spec = [(s_ "type", LoadModel.YStr (s_ "Mine")); (s_ "params", LoadModel.YStr (s_ "g"))] /\
  LoadModel.setup_tasks w all [] [(None, spec)] = LoadModel.Bad e /\
  LoadModel.e_kind e = LoadModel.ConfigError /\ LoadModel.e_line e = None.
Proof.
  exists LoadProps.example_world, [], [(s_ "type", LoadModel.YStr (s_ "Mine")); (s_ "params", LoadModel.YStr (s_ "g"))], [(s_ "type", NScalar (s_ "Mine")); (s_ "params", NScalar (s_ "g"))].
  eexists. repeat split.
Qed.
Print Assumptions C396_task_refuted.
