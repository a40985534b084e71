(** Arrays in messages, C297-C302. *)
From Coq Require Import List Bool Arith ZArith Lia.
From Verif Require Import PyBase PartModel PartSpec SliceModel RedModel RedSpec ArrModel ArrSpec ArrProofs LayModel LaySpec LayProofs LayProofs2 LayProofs3.
Import ListNotations.
Open Scope nat_scope.

(** Two by two numbers of two bytes, in C order, in Fortran order, and every second column of a wider array. *)
Definition ex_mem : mem nat := fun z => Z.to_nat z.
Definition ex_c : array := mkarr 2 (mkview [2; 2] [4; 2]%Z 0).
Definition ex_f : array := mkarr 2 (mkview [2; 2] [2; 4]%Z 0).
Definition ex_s : array := mkarr 2 (mkview [2; 2] [8; 4]%Z 0).
Definition shown {B} (r : res (option (nd (option (list B))))) (is : list (list nat)) : res (option (list (option (list B)))) :=
  match r with Ok (Some a) => Ok (Some (map (elt a) is)) | Ok None => Ok None | Err e => Err e end.
Definition four : list (list nat) := [[0; 0]; [0; 1]; [1; 0]; [1; 1]].

(** C297 *)
(** Local arrays in C order, of any type, arrive as they are. *)
Theorem C297_gather : forall B (G : list nat -> list B) gshape m k axis root crank known (mm : nat -> mem B) (a : nat -> array),
  1 <= m -> root < m -> Names (length gshape) axis k ->
  (forall q, q < m -> Sound (a q) /\ c_flag (a q) = true /\ IsShare G gshape m k q (value (mm q) (a q))) ->
  (crank = root -> exists arr, gather_mem known gshape m axis mm a root crank = Ok (Some arr) /\ IsWhole G gshape arr)
  /\ (crank <> root -> gather_mem known gshape m axis mm a root crank = Ok None).
Proof. intros B. exact (@gather_c B). Qed.
Print Assumptions C297_gather.
Example C297_example : shown (gather_mem true [2; 2] 1 0 (fun _ => ex_mem) (fun _ => ex_c) 0 0) four
    = Ok (Some [Some [0; 1]; Some [2; 3]; Some [4; 5]; Some [6; 7]])
  /\ shown (gather_mem false [2; 2] 1 0 (fun _ => ex_mem) (fun _ => ex_c) 0 0) four
    = Ok (Some [Some [0; 1]; Some [2; 3]; Some [4; 5]; Some [6; 7]]).
Proof. split; vm_compute; reflexivity. Qed.

(** C298 *)
Lemma ex_f_share : IsShare (fun idx => elem ex_mem ex_f idx) [2; 2] 1 0 0 (value ex_mem ex_f).
Proof.
  split; [reflexivity|]. intros idx H. cbn [value elt]. f_equal. f_equal.
  cbn in H. inversion H as [|i d ? ? I H']. subst. unfold shift, set_nth. cbn. unfold start_of. cbn. now rewrite Nat.add_0_r.
Qed.
(** The transpose of a matrix, gathered on one rank or many, has its elements in another order. *)
Theorem C298_layout_refuted : exists (G : list nat -> list nat) gshape m (mm : nat -> mem nat) (a : nat -> array) arr,
  (forall q, q < m -> Sound (a q) /\ IsShare G gshape m 0 q (value (mm q) (a q)))
  /\ gather_mem true gshape m 0 mm a 0 0 = Ok (Some arr) /\ ~ IsWhole G gshape arr.
Proof.
  exists (elem ex_mem ex_f), [2; 2], 1, (fun _ => ex_mem), (fun _ => ex_f).
  destruct (gather_mem true [2; 2] 1 0 (fun _ => ex_mem) (fun _ => ex_f) 0 0) as [[arr|]|] eqn:E; [|discriminate|discriminate].
  exists arr. split; [|split; [reflexivity|]].
  - intros q Q. assert (q = 0) by lia. subst. split; [split; [cbn; lia|reflexivity]|exact ex_f_share].
  - intros [_ W]. specialize (W [0; 1]). assert (I: InShape [0; 1] [2; 2]) by (repeat constructor). specialize (W I).
    assert (V: shown (gather_mem true [2; 2] 1 0 (fun _ => ex_mem) (fun _ => ex_f) 0 0) [[0; 1]] = Ok (Some [Some [2; 3]])) by (vm_compute; reflexivity).
    rewrite E in V. cbn [shown map] in V. rewrite W in V. vm_compute in V. discriminate.
Qed.
Print Assumptions C298_layout_refuted.
(** What arrives from an array in Fortran order: at each index the element that is there in Fortran order
    when the array is counted through in C order. *)
Theorem C298_fortran : forall B (m : mem B) a idx, Sound a -> f_flag a = true -> InShape idx (a_shape a) ->
  exists msg, prep_buf true m a = Ok msg
  /\ elt (received (a_item a) (a_shape a) msg) idx = Some (elem m a (unravel_f (a_shape a) (c_index (a_shape a) idx))).
Proof.
  intros B m a idx W F I. eexists. split; [unfold prep_buf, getbuffer; rewrite F, orb_true_r; reflexivity|].
  cbn [received elt]. f_equal. now apply received_f.
Qed.
Print Assumptions C298_fortran.
(** For every other layout than C order there are data that do not arrive. *)
Theorem C298_every_other_layout : forall a, Sound a -> c_flag a = false ->
  exists (m : mem bool) idx, InShape idx (a_shape a) /\
    forall msg, prep_buf true m a = Ok msg -> elt (received (a_item a) (a_shape a) msg) idx <> Some (elem m a idx).
Proof.
  intros a W C. unfold c_flag in C. apply orb_false_iff in C as [E C].
  destruct (misplaced (a_shape a) (a_strides a) (a_item a) (proj2 W) E C) as (idx & I & D).
  set (m := fun z => (z =? addr (a_view a) idx)%Z). exists m, idx. split; [exact I|]. intros msg H. unfold prep_buf, getbuffer in H.
  destruct (c_flag a || f_flag a); [|discriminate]. injection H as <-. cbn [received elt]. intros X. injection X as X.
  unfold nbytes in X. rewrite buffer_item in X by now apply c_index_lt. unfold elem in X. destruct (a_item a) as [|b] eqn:Eb; [destruct W; lia|].
  cbn [seq map] in X. injection X as X _. unfold m in X. rewrite !Z.add_0_r, Z.eqb_refl in X. apply Z.eqb_eq in X. apply D. unfold addr in X. lia.
Qed.
Print Assumptions C298_every_other_layout.
(** Arrays that are contiguous in neither order are refused. *)
Theorem C298_strided : forall B known (m : mem B) a, Sound a -> a_shape a <> [] -> c_flag a = false -> f_flag a = false ->
  prep_buf known m a = Err ValueError.
Proof.
  intros B known m a W N C F. assert (G: getbuffer m a = Err ValueError) by (unfold getbuffer; now rewrite C, F).
  destruct known; [exact G|]. destruct (Nat.eq_dec (a_item a) 1) as [E|E]; [now rewrite prep_byte|]. rewrite prep_compound by auto. now rewrite C.
Qed.
Print Assumptions C298_strided.
Example C298_example : shown (gather_mem true [2; 2] 1 0 (fun _ => ex_mem) (fun _ => ex_f) 0 0) four
    = Ok (Some [Some [0; 1]; Some [2; 3]; Some [4; 5]; Some [6; 7]])
  /\ map (elem ex_mem ex_f) four = [[0; 1]; [4; 5]; [2; 3]; [6; 7]]
  /\ prep_buf true ex_mem ex_s = Err ValueError.
Proof. repeat split; vm_compute; reflexivity. Qed.

(** C299 *)
(** Compound types of two bytes or more: if gather returns, the arrays were in C order and the result is right. *)
Theorem C299_compound : forall B (G : list nat -> list B) gshape m k axis root crank (mm : nat -> mem B) (a : nat -> array) r,
  1 <= m -> root < m -> Names (length gshape) axis k ->
  (forall q, q < m -> Sound (a q) /\ 2 <= a_item (a q) /\ IsShare G gshape m k q (value (mm q) (a q))) ->
  gather_mem false gshape m axis mm a root crank = Ok r ->
  (forall q, q < m -> c_flag (a q) = true) /\ match r with Some arr => crank = root /\ IsWhole G gshape arr | None => crank <> root end.
Proof. intros B. exact (@gather_compound B). Qed.
Print Assumptions C299_compound.
Theorem C299_refused : forall B (m : mem B) a, Sound a -> a_shape a <> [] -> 2 <= a_item a ->
  prep_buf false m a = if c_flag a then Ok (map (fun k => m (v_off (a_view a) + Z.of_nat k)%Z) (seq 0 (nbytes a))) else Err ValueError.
Proof.
  intros B m a W N I. destruct (c_flag a) eqn:C; [now apply prep_c|]. rewrite prep_compound by (auto; lia). now rewrite C.
Qed.
Print Assumptions C299_refused.
Example C299_example : prep_buf false ex_mem ex_f = Err ValueError /\ prep_buf false ex_mem ex_c = Ok [0; 1; 2; 3; 4; 5; 6; 7].
Proof. split; vm_compute; reflexivity. Qed.

(** C300 *)
Theorem C300_allgather : forall B (G : list nat -> list B) gshape m k axis known (mm : nat -> mem B) (a : nat -> array),
  1 <= m -> Names (length gshape) axis k ->
  (forall q, q < m -> 1 <= a_item (a q) /\ IsShare G gshape m k q (value (mm q) (a q))) ->
  exists arr, allgather_mem known gshape m axis mm a = Ok arr /\ IsWhole G gshape arr.
Proof. intros B. exact (@allgather_any B). Qed.
Print Assumptions C300_allgather.
Definition shown_all {B} (r : res (nd (option (list B)))) (is : list (list nat)) : res (list (option (list B))) :=
  match r with Ok a => Ok (map (elt a) is) | Err e => Err e end.
Example C300_example : shown_all (allgather_mem false [2; 2] 1 0 (fun _ => ex_mem) (fun _ => ex_f)) four
    = Ok [Some [0; 1]; Some [4; 5]; Some [2; 3]; Some [6; 7]]
  /\ shown_all (allgather_mem true [2; 2] 1 0 (fun _ => ex_mem) (fun _ => ex_s)) four
    = Ok [Some [0; 1]; Some [4; 5]; Some [8; 9]; Some [12; 13]].
Proof. split; vm_compute; reflexivity. Qed.

(** C301 *)
Theorem C301_gather_local : forall B size (m : nat -> mem B) a starts g mg, size <> 1 -> Sound g -> c_flag g = true ->
  (forall q, q < size -> a_item (a q) = a_item g /\ inside (a_shape g) (a_shape (a q)) (starts q) = true) ->
  Apart (fun q => a_shape (a q)) starts size ->
  exists mg', gather_local_mem true size m a starts g mg = Ok mg'
    /\ (forall q i, q < size -> InShape i (a_shape (a q)) -> elem mg' g (idx_add (starts q) i) = elem (m q) (a q) i)
    /\ (forall j, InShape j (a_shape g) -> (forall q i, q < size -> InShape i (a_shape (a q)) -> idx_add (starts q) i <> j) -> elem mg' g j = elem mg g j).
Proof. intros B. exact (@gather_local_c B). Qed.
Print Assumptions C301_gather_local.
(** Two ranks with a row each, of a matrix of three rows; their arrays may have any layout. *)
Definition ex_row : array := mkarr 2 (mkview [1; 2] [8; 4]%Z 0).
Definition ex_g : array := mkarr 2 (mkview [3; 2] [4; 2]%Z 0).
Definition ex_gf : array := mkarr 2 (mkview [3; 2] [2; 6]%Z 0).
Definition ex_starts (q : nat) : list nat := [q; 0].
Definition six : list (list nat) := [[0; 0]; [0; 1]; [1; 0]; [1; 1]; [2; 0]; [2; 1]].
Definition shown_mem {B} (r : res (mem B)) (g : array) (is : list (list nat)) : res (list (list B)) :=
  match r with Ok m => Ok (map (elem m g) is) | Err e => Err e end.
Example C301_example :
  shown_mem (gather_local_mem true 2 (fun q z => 10 * S q + Z.to_nat z) (fun _ => ex_row) ex_starts ex_g (fun _ => 0)) ex_g six
  = Ok [[10; 11]; [14; 15]; [20; 21]; [24; 25]; [0; 0]; [0; 0]].
Proof. vm_compute. reflexivity. Qed.

(** C302 *)
Theorem C302_layout_refuted : exists size (m : nat -> mem nat) a starts g mg mg', size <> 1 /\ Sound g
  /\ (forall q, q < size -> a_item (a q) = a_item g /\ inside (a_shape g) (a_shape (a q)) (starts q) = true)
  /\ Apart (fun q => a_shape (a q)) starts size
  /\ gather_local_mem true size m a starts g mg = Ok mg'
  /\ exists q i, q < size /\ InShape i (a_shape (a q)) /\ elem mg' g (idx_add (starts q) i) <> elem (m q) (a q) i.
Proof.
  exists 2, (fun q z => 10 * S q + Z.to_nat z), (fun _ => ex_row), ex_starts, ex_gf, (fun _ => 0).
  destruct (gather_local_mem true 2 (fun q z => 10 * S q + Z.to_nat z) (fun _ => ex_row) ex_starts ex_gf (fun _ => 0)) as [mg'|] eqn:E; [|discriminate].
  exists mg'. split; [lia|]. split; [split; [cbn; lia|reflexivity]|]. split; [intros [|[|q]] Q; [split; reflexivity|split; reflexivity|lia]|].
  split; [|split; [reflexivity|]].
  - intros q r i j Q R I J H. cbn in I, J. destruct i as [|x i]; [inversion I|]. destruct j as [|y j]; [inversion J|]. assert (x < 1) by (inversion I; assumption). assert (y < 1) by (inversion J; assumption). cbn [ex_starts idx_add] in H. injection H as H _. lia.
  - exists 0, [0; 1]. split; [lia|]. split; [repeat constructor|].
    assert (V: shown_mem (gather_local_mem true 2 (fun q z => 10 * S q + Z.to_nat z) (fun _ => ex_row) ex_starts ex_gf (fun _ => 0)) ex_gf [[0; 1]] = Ok [[24; 25]]) by (vm_compute; reflexivity).
    rewrite E in V. cbn [shown_mem map] in V. assert (V1: elem mg' ex_gf [0; 1] = [24; 25]) by congruence.
    change (idx_add (ex_starts 0) [0; 1]) with [0; 1]. rewrite V1. vm_compute. discriminate.
Qed.
Print Assumptions C302_layout_refuted.
(** Types unknown to MPI raise KeyError, global arrays that are contiguous in neither order ValueError. *)
Theorem C302_refused : forall B size (m : nat -> mem B) a starts g mg, size <> 1 ->
  gather_local_mem false size m a starts g mg = Err KeyError
  /\ (c_flag g = false -> f_flag g = false -> (forall q, q < size -> inside (a_shape g) (a_shape (a q)) (starts q) = true) ->
      (exists q, q < size /\ count (a_shape (a q)) <> 0) -> gather_local_mem true size m a starts g mg = Err ValueError).
Proof.
  intros B size m a starts g mg S1. unfold gather_local_mem. destruct (size =? 1) eqn:E1; [apply Nat.eqb_eq in E1; contradiction|]. cbn [negb]. split; [reflexivity|].
  intros C F I (q & Q & N).
  assert (X: forall e l, fold_left (fun acc q => rbind acc (fun mg => recv_section g mg (a_shape (a q)) (starts q) (contiguous_bytes (m q) (a q)))) l (Err e) = Err e).
  { induction l as [|r l IH]; [reflexivity|]. cbn [fold_left rbind]. exact IH. }
  destruct (filter (fun q => negb (count (a_shape (a q)) =? 0)) (seq 0 size)) as [|r l] eqn:E.
  - exfalso. assert (Z: In q []) by (rewrite <- E; apply filter_In; split; [apply in_seq; lia|]; apply Nat.eqb_neq in N; now rewrite N). exact Z.
  - cbn [fold_left rbind]. assert (R: In r (filter (fun q => negb (count (a_shape (a q)) =? 0)) (seq 0 size))) by (rewrite E; now left).
    apply filter_In in R as [R _]. apply in_seq in R. assert (Y: recv_section g mg (a_shape (a r)) (starts r) (contiguous_bytes (m r) (a r)) = Err ValueError)
      by (unfold recv_section; rewrite (I r) by lia; unfold getbuffer; rewrite C, F; reflexivity).
    rewrite Y. apply X.
Qed.
Print Assumptions C302_refused.
Example C302_example :
  shown_mem (gather_local_mem true 2 (fun q z => 10 * S q + Z.to_nat z) (fun _ => ex_row) ex_starts ex_gf (fun _ => 0)) ex_gf six
  = Ok [[10; 11]; [24; 25]; [14; 15]; [0; 0]; [20; 21]; [0; 0]].
Proof. vm_compute. reflexivity. Qed.
