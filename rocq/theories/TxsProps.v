(** Theorems about concatenating what was concatenated before. *)
From Coq Require Import String.
From Coq Require Import List Ascii Bool Arith ZArith Permutation Lia.
From Verif Require Import PyBase PyStr MemModel AttrModel TodModel TodSpec TxModel TxSpec TxProofs TxProofs2 TxProofs3 TxProps TxmSpec TxsSpec TxsProofs.
Import ListNotations.
Open Scope list_scope.
Open Scope nat_scope.

(** ** C383 *)
(** Two groups of files that both have times: joining each and then the two results gives what joining
    all of them at once gives, along each axis and for each dataset, common ones included. *)
Theorem C383_stages : forall (V : Type) axes (f1 : tod V) r1 f2 r2 start stop datasets,
  NoDup axes -> Compatible axes f1 ((f1 :: r1) ++ (f2 :: r2)) ->
  Some_times axes (f1 :: r1) -> Some_times axes (f2 :: r2) -> BoundsOk axes ((f1 :: r1) ++ (f2 :: r2)) start stop ->
  exists o1 o2 o o',
    snd (concatenate_all axes false true (f1 :: r1) (Scalar None) (Scalar None) None) = Ok o1 /\
    snd (concatenate_all axes false true (f2 :: r2) (Scalar None) (Scalar None) None) = Ok o2 /\
    snd (concatenate_all axes false true ((f1 :: r1) ++ (f2 :: r2)) start stop datasets) = Ok o /\
    snd (concatenate_all axes false true [as_input o1; as_input o2] start stop datasets) = Ok o' /\
    o_attrs o' = o_attrs o /\
    (forall a, In a axes -> dget a (o_index o') = dget a (o_index o)) /\
    (forall n d, dget n (x_dsets f1) = Some d -> rows_out n o' = rows_out n o).
Proof. exact @stages. Qed.
Print Assumptions C383_stages.
Definition t_third := t_file 7 [6] [4].
Example C383_example :
  rbind (snd (concatenate_all t_axes false true [t_first; t_second] (Scalar None) (Scalar None) None)) (fun o1 =>
  rbind (snd (concatenate_all t_axes false true [t_third] (Scalar None) (Scalar None) None)) (fun o2 =>
  rbind (snd (concatenate_all t_axes false true [as_input o1; as_input o2] (Scalar (Some 2%Z)) (Scalar None) None)) (fun o =>
  Ok (rows_out (s_ "vis") o, rows_out (s_ "temp") o, rows_out (s_ "gain") o))))
  = Ok ([Some 3; Some 4; Some 5; Some 6], [Some 3; Some 4], [Some 5; Some 5]).
Proof. vm_compute. reflexivity. Qed.

(** ** C384 *)
(** A first group without samples: its result has lost the datasets, and so has that of both. *)
Definition t_void := t_file 4 [] [0].
Lemma void_compatible : Compatible t_axes t_void [t_void; t_first].
Proof.
  repeat split.
  - pick_in H; cbn; repeat constructor; cbn; intuition discriminate.
  - pick_in H; cbn; repeat constructor; cbn; intuition discriminate.
  - intros x a Hx Ha. pick_in Hx; pick_in Ha; eexists; reflexivity.
  - intros x n Hx Hn. pick_in Hx; exact Hn.
  - intros x n d Hx Hd. pick_in Hx; [exists d; auto|].
    apply dget_cons in Hd. destruct Hd as [(-> & ->)|Hd]; [eexists; split; reflexivity|].
    apply dget_cons in Hd. destruct Hd as [(-> & ->)|Hd]; [eexists; split; reflexivity|].
    apply dget_cons in Hd. destruct Hd as [(-> & ->)|Hd]; [eexists; split; reflexivity|discriminate].
  - intros x n d a Hx Hd HT. apply concat_axis_iff in HT. revert HT.
    pick_in Hx.
    all: apply dget_cons in Hd; destruct Hd as [(-> & ->)|Hd]; [intros HT; vm_compute in HT; injection HT as <-; reflexivity|].
    all: apply dget_cons in Hd; destruct Hd as [(-> & ->)|Hd]; [intros HT; vm_compute in HT; injection HT as <-; reflexivity|].
    all: apply dget_cons in Hd; destruct Hd as [(-> & ->)|Hd]; [intros HT; vm_compute in HT; discriminate HT|discriminate].
Qed.
Theorem C384_refuted : exists axes (f1 f2 : tod nat) o1 o2 o o' n,
  NoDup axes /\ Compatible axes f1 [f1; f2] /\
  snd (concatenate_all axes false true [f1] (Scalar None) (Scalar None) None) = Ok o1 /\
  snd (concatenate_all axes false true [f2] (Scalar None) (Scalar None) None) = Ok o2 /\
  snd (concatenate_all axes false true [f1; f2] (Scalar None) (Scalar None) None) = Ok o /\
  snd (concatenate_all axes false true [as_input o1; as_input o2] (Scalar None) (Scalar None) None) = Ok o' /\
  rows_out n o = [Some 1; Some 2; Some 3] /\ dget n (o_dsets o') = None.
Proof.
  exists t_axes, t_void, t_first. eexists _, _, _, _, (s_ "vis").
  split; [repeat constructor; cbn; intuition discriminate|]. split; [exact void_compatible|].
  split; [vm_compute; reflexivity|]. split; [vm_compute; reflexivity|]. split; [vm_compute; reflexivity|]. split; [vm_compute; reflexivity|].
  split; vm_compute; reflexivity.
Qed.
Print Assumptions C384_refuted.
