(** Theorems about the moving weighted median with doubles. *)
From Coq Require Import List ZArith Reals Bool Arith Lia Lra.
From Flocq Require Import Core.Core.
From Verif Require Import PyBase MedModel MedSpec MedProofs MedProofs2 MedProofs3 MedProofs4 TruncModel TruncSpec BtModel BtSpec InvModel InvProps TfModel TfProofs GqModel GqSpec GqProofs GqProofs2 GqProofs3 FtModel FtSpec FtProofs FtProofs2 FtProofs3 FtProofs4.
Import ListNotations.
Open Scope Z_scope.

(** ** C369 *)
(** Weights that are multiples of a power of two, at most [2 ^ 51] of it in any window: every cell is
    the weighted median of its window. *)
Theorem C369_exact_1d : forall e fl l size m, -1073 <= e <= 900 -> Row (Multiple e) fl l -> (m = MSplit -> small_values l) -> l <> [] ->
  Nat.odd size = true -> (forall i, (i < length l)%nat -> weight_total (window1 l (size / 2) i) <= 2 ^ 51) ->
  (m = MSplit \/ forall i, (i < length l)%nat -> ~ window_tie (weighty (window1 l (size / 2) i))) ->
  exists vs, fmedian_1d fl size m = Ok vs /\ length vs = length l /\
    forall i v, nth_error vs i = Some v ->
      fcell_ok (negb (i =? 0)%nat && negb (size =? 1)%nat) m (window1 l (size / 2) i) v.
Proof. exact median_1d_exact. Qed.
Print Assumptions C369_exact_1d.
Theorem C369_exact_2d : forall e fdata data len_x sy sx m, -1073 <= e <= 900 -> Forall2 (Row (Multiple e)) fdata data ->
  (m = MSplit -> Forall small_values data) -> data <> [] -> (0 < len_x)%nat -> rect data len_x -> Nat.odd sy = true -> Nat.odd sx = true ->
  (forall y x, (y < length data)%nat -> (x < len_x)%nat -> weight_total (window2 data (sy / 2) (sx / 2) y x) <= 2 ^ 51) ->
  (m = MSplit \/ forall y x, (y < length data)%nat -> (x < len_x)%nat -> ~ window_tie (weighty (window2 data (sy / 2) (sx / 2) y x))) ->
  exists rows, fmedian_2d fdata len_x sy sx m = Ok rows /\ length rows = length data /\
    forall y row, nth_error rows y = Some row -> length row = len_x /\
      forall x v, nth_error row x = Some v -> fcell_ok false m (window2 data (sy / 2) (sx / 2) y x) v.
Proof. exact median_2d_exact. Qed.
Print Assumptions C369_exact_2d.

Definition u1 : Z := 2 ^ 1074.
(** Values 7, 1, 4, 2 with weights 1, 0, 1, 3 *)
Definition ex_data : list fdatum := [(of_int 7, of_int 1); (of_int 1, of_int 0); (of_int 4, of_int 1); (of_int 2, of_int 3)].
Definition ex_exact : list datum := [(7 * u1, 1); (1 * u1, 0); (4 * u1, 1); (2 * u1, 3)].
Lemma int_units : forall n, 0 <= n <= 2 ^ 53 -> Units (of_int n) (n * u1).
Proof.
  intros n H. apply units_value; [apply of_int_word|]. rewrite mult_IZR. unfold u1. change 1074 with (Z.of_nat 1074). rewrite <- BtProofs3.pow2_R.
  replace (IZR n * 2 ^ 1074 / 2 ^ 1074)%R with (IZR n); [apply of_int_exact; lia|].
  pose proof (BtProofs3.pow2_R_pos 1074) as P. field.
Qed.
Lemma int_multiple : forall n, 0 <= n <= 2 ^ 53 -> Multiple 0 (of_int n) n.
Proof. intros n H. split; [apply of_int_word|]. split; [lia|]. cbn [bpow]. rewrite Rmult_1_r. apply of_int_exact. lia. Qed.
Example C369_example :
  Row (Multiple 0) ex_data ex_exact /\ small_values ex_exact /\
  (forall i, (i < 4)%nat -> weight_total (window1 ex_exact 1 i) <= 2 ^ 51) /\
  fmedian_1d ex_data 3 MSplit = Ok [Some (of_int 7); Some (div64 (of_int 11) (of_int 2)); Some (of_int 2); Some (of_int 2)].
Proof.
  split; [|split; [|split]].
  - repeat (apply Forall2_cons; [split; [apply int_units|apply int_multiple]; cbn; lia|]). apply Forall2_nil.
  - repeat (apply Forall_cons; [vm_compute; reflexivity|]). apply Forall_nil.
  - intros i Hi. do 4 (destruct i as [|i]; [vm_compute; congruence|]). lia.
  - vm_compute. reflexivity.
Qed.

(** ** C370 *)
(** A null pointer is followed: with weights 0.9, 0.4 and 0.5 the sums of the two sides of the root
    both exceed half of the total. *)
Definition tenths (n : Z) : Z := div64 (of_int n) (of_int 10).
Definition crash_data : list fdatum := [(of_int 1, tenths 9); (of_int 2, tenths 4); (of_int 3, tenths 5)].
Definition units_of (w : Z) : Z := match ieee_units 52 11 w with Some u => u | None => 0 end.
Definition exact_of (l : list fdatum) : list datum := map (fun x => (units_of (fst x), units_of (snd x))) l.
Theorem C370_null_pointer_refuted : exists fl l size, Row Units fl l /\ positive l /\ Nat.odd size = true /\
  fmedian_1d fl size MSplit = Err OtherException /\ fmedian_1d fl size MLower = Err OtherException /\
  fmedian_1d fl size MHigher = Err OtherException.
Proof.
  exists crash_data, (exact_of crash_data), 5%nat. split; [|split; [|split; [|split; [|split]]]].
  - repeat (apply Forall2_cons; [split; (split; [split; vm_compute; congruence|vm_compute; reflexivity])|]). apply Forall2_nil.
  - repeat (apply Forall_cons; [vm_compute; reflexivity|]). apply Forall_nil.
  - reflexivity.
  - vm_compute. reflexivity.
  - vm_compute. reflexivity.
  - vm_compute. reflexivity.
Qed.
Print Assumptions C370_null_pointer_refuted.
(** The same data have a median: with the weights in tenths it is found. *)
Example C370_example : fmedian_1d (map (fun x => (fst x, snd x)) [(of_int 1, of_int 9); (of_int 2, of_int 4); (of_int 3, of_int 5)]) 5 MHigher
  = Ok [Some (of_int 2); Some (of_int 2); Some (of_int 2)].
Proof. vm_compute. reflexivity. Qed.

(** ** C371 *)
(** A sample that is not a number, with weight, makes the function raise. *)
Definition nan64 : Z := 9221120237041090560.
Definition nan_data : list fdatum := [(of_int 1, tenths 1); (nan64, tenths 4); (of_int 3, tenths 6); (of_int 3, tenths 6)].
Theorem C371_nan_refuted : exists fl size, Forall (fun x => Word 64 (fst x) /\ exists u, Units (snd x) u /\ 0 < u) fl /\ fl <> [] /\ Nat.odd size = true /\
  fmedian_1d fl size MLower = Err RuntimeError.
Proof.
  exists nan_data, 3%nat. split; [|split; [discriminate|split; [reflexivity|vm_compute; reflexivity]]].
  repeat (apply Forall_cons; [split; [split; vm_compute; congruence|eexists; split; [split; [split; vm_compute; congruence|vm_compute; reflexivity]|reflexivity]]|]).
  apply Forall_nil.
Qed.
Print Assumptions C371_nan_refuted.
Example C371_example : fmedian_1d [(of_int 1, tenths 1); (nan64, 0); (of_int 3, tenths 6); (of_int 3, tenths 6)] 3 MLower
  = Ok [Some (of_int 1); Some (of_int 3); Some (of_int 3); Some (of_int 3)].
Proof. vm_compute. reflexivity. Qed.

(** ** C372 *)
(** Any finite data and weights, of any sign: nothing is missing from the tree when the window moves,
    and what is averaged comes from the window; or else a null pointer is followed. *)
Theorem C372_any_finite : forall fl l size m, Row Units fl l -> l <> [] -> Nat.odd size = true -> (1 < size)%nat ->
  match fmoving_1d fl size m with
  | Ok vs => length vs = length l /\ forall i v, nth_error vs i = Some v -> shape_cell (negb (i =? 0)%nat) m (window1 l (size / 2) i) v
  | Err x => x = OtherException
  end.
Proof. exact moving_1d_shape. Qed.
Print Assumptions C372_any_finite.
Example C372_example : fmoving_1d [(of_int 1, tenths 7); (of_int 2, tenths 1); (of_int 3, tenths 2)] 5 MSplit
  = Ok [Some [of_int 1]; Some [of_int 1]; Some [of_int 1]].
Proof. vm_compute. reflexivity. Qed.

(** ** C373 *)
(** The mean of the two medians overflows although it is far below the largest double. *)
Definition big : Z := 9218868437227405311 - 2 ^ 52.
Theorem C373_overflow_refuted : exists fl l size, Row (Multiple 0) fl l /\ Nat.odd size = true /\
  (forall i, (i < length l)%nat -> weight_total (window1 l (size / 2) i) <= 2 ^ 51) /\
  exists vs, fmedian_1d fl size MSplit = Ok vs /\ exists x, In (Some x) vs /\ ieee_units 52 11 x = None.
Proof.
  exists [(big + 2 ^ 51, of_int 1); (big + 2 ^ 52, of_int 1)], [(units_of (big + 2 ^ 51), 1); (units_of (big + 2 ^ 52), 1)], 3%nat. split; [|split; [reflexivity|split]].
  - repeat (apply Forall2_cons; [split; [split; [split; vm_compute; congruence|vm_compute; reflexivity]|apply (int_multiple 1); lia]|]). apply Forall2_nil.
  - intros i Hi. do 2 (destruct i as [|i]; [vm_compute; congruence|]). cbn in Hi. lia.
  - eexists. split; [vm_compute; reflexivity|]. eexists. split; [left; reflexivity|]. vm_compute. reflexivity.
Qed.
Print Assumptions C373_overflow_refuted.
Example C373_example : fmedian_1d [(of_int 3, of_int 1); (of_int 8, of_int 1)] 3 MSplit
  = Ok [Some (div64 (of_int 11) (of_int 2)); Some (div64 (of_int 11) (of_int 2))].
Proof. vm_compute. reflexivity. Qed.
