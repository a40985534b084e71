(** C54, C55: concatenation and selection of time-ordered data. *)
From Coq Require Import List ZArith Bool Lia.
From Verif Require Import PyBase TodModel TodSpec TodProofs.
Import ListNotations.
Open Scope nat_scope.

(** C54.  The full statement is that for every a, b the result is the Python
    slice of the concatenation, with the dataset present.  Missing: bounds
    below -n or in the wrong order, and a dataset when nothing is selected. *)
Theorem C54_concatenate_partial : forall A B (files : list (todfile A B)) a b,
  FilesOk files -> StartIn (length (all_index files)) a -> InOrder (length (all_index files)) a b ->
  exists d, concatenate files a b = Ok (map Some (py_slice a b (all_index files)), d)
    /\ (d = Some (map Some (py_slice a b (all_data files)))
        \/ d = None /\ py_slice a b (all_data files) = []).
Proof. exact @concatenate_slice. Qed.
Print Assumptions C54_concatenate_partial.

(** Bounds in the wrong order always raise. *)
Theorem C54_concatenate_disorder : forall A B (files : list (todfile A B)) a b,
  files <> [] -> ~ InOrder (length (all_index files)) a b ->
  concatenate files a b = Err ValueError.
Proof. exact @concatenate_disorder. Qed.
Print Assumptions C54_concatenate_disorder.

(** A start before the beginning leaves cells that were never written;
    crossed bounds raise; an empty selection can lose the dataset. *)
Theorem C54_concatenate_refuted : exists (files : list (todfile nat nat)),
  FilesOk files /\
  (exists a b m d, concatenate files a b = Ok (m, d) /\ In None m) /\
  (exists a b, py_slice a b (all_index files) = [] /\ concatenate files a b = Err ValueError) /\
  (exists a b, concatenate files a b = Ok ([], None)).
Proof.
  exists [mkfile [1; 2] [10; 20]; mkfile [3] [30]]. split.
  { split; [discriminate|]. intros f [<-|[<-|[]]]; reflexivity. }
  split; [|split].
  - exists (Some (-5)%Z), None. eexists. eexists. split; [vm_compute; reflexivity|]. left. reflexivity.
  - exists (Some 2%Z), (Some 1%Z). split; reflexivity.
  - exists (Some 0%Z), (Some 0%Z). reflexivity.
Qed.
Print Assumptions C54_concatenate_refuted.

Example C54_example :
  concatenate [mkfile [1; 2] [10; 20]; mkfile [] []; mkfile [3; 4; 5] [30; 40; 50]; mkfile [6] [60]] (Some (-5)%Z) (Some 5%Z)
  = Ok (map Some [2; 3; 4; 5], Some (map Some [20; 30; 40; 50])).
Proof. reflexivity. Qed.

(** C55 *)
Theorem C55_select_time_range : forall time t0 t1 sel,
  Ascending time -> (t0 <= t1)%Z ->
  (exists i x, nth_error time i = Some x /\ (t0 <= x)%Z) ->
  (exists i x, nth_error time i = Some x /\ (x < t1)%Z) ->
  exists start stop, select_time_range time sel (Some t0) (Some t1) = Ok (Z.of_nat start, Z.of_nat stop)
    /\ start <= stop <= length time
    /\ forall i x, nth_error time i = Some x -> (start <= i < stop <-> (t0 <= x < t1)%Z).
Proof. exact select_range. Qed.
Print Assumptions C55_select_time_range.

(** Reading after the selection gives exactly the samples in the range, in
    order. *)
Theorem C55_select_then_read : forall B (files : list (todfile Z B)) t0 t1 sel,
  FilesOk files -> Ascending (all_index files) -> (t0 <= t1)%Z ->
  (exists x, In x (all_index files) /\ (t0 <= x)%Z) ->
  (exists x, In x (all_index files) /\ (x < t1)%Z) ->
  exists sel' d, select_time_range (reader_time files) sel (Some t0) (Some t1) = Ok sel'
   /\ reader_read files sel' = Ok (map Some (filter (fun t => (t0 <=? t)%Z && (t <? t1)%Z) (all_index files)), d).
Proof. exact @reader_select_read. Qed.
Print Assumptions C55_select_then_read.

(** Without such samples an IndexError is raised. *)
Theorem C55_select_nothing : forall time t0 t1 sel,
  (forall i x, nth_error time i = Some x -> (x < t0)%Z) \/ (forall i x, nth_error time i = Some x -> (t1 <= x)%Z) ->
  select_time_range time sel (Some t0) (Some t1) = Err IndexError.
Proof. exact select_none. Qed.
Print Assumptions C55_select_nothing.

Example C55_example :
  select_time_range [1; 3; 5; 7; 9]%Z (0, 5)%Z (Some 3%Z) (Some 8%Z) = Ok (1, 4)%Z
  /\ select_time_range [1; 3; 5; 7; 9]%Z (0, 5)%Z (Some 4%Z) (Some 5%Z) = Ok (2, 2)%Z
  /\ select_time_range [1; 3; 5; 7; 9]%Z (0, 5)%Z None (Some 5%Z) = Ok (0, 2)%Z.
Proof. vm_compute. auto. Qed.
