(** C55 with one bound. *)
From Coq Require Import List ZArith Bool Lia.
From Verif Require Import PyBase TodModel TodSpec TodProofs.
Import ListNotations.
Open Scope nat_scope.

(** C55: without a bound that end of the selection stays. *)
Theorem C55_no_bounds : forall time sel, select_time_range time sel None None = Ok sel.
Proof. intros time [a b]. reflexivity. Qed.
Print Assumptions C55_no_bounds.

Theorem C55_start_only : forall time sel t0, (exists i x, nth_error time i = Some x /\ (t0 <= x)%Z) ->
  exists start x, select_time_range time sel (Some t0) None = Ok (Z.of_nat start, snd sel) /\
    nth_error time start = Some x /\ (t0 <= x)%Z /\ forall i y, i < start -> nth_error time i = Some y -> (y < t0)%Z.
Proof.
  intros time sel t0 (i & x & Hi & Hx). unfold select_time_range.
  destruct (first_of_some (where_ (fun t => (t0 <=? t)%Z) time) i) as (j & Hj).
  { apply where_in. exists x. split; [assumption|]. now apply Z.leb_le. }
  rewrite Hj. cbn [rbind]. destruct (first_of_where _ _ _ Hj) as (Hin & Hmin).
  apply where_in in Hin as (y & Hy & Hl). apply Z.leb_le in Hl. exists j, y. repeat split; try assumption.
  intros k z Hk Hz. destruct (Z.lt_ge_cases z t0) as [|G]; [assumption|].
  assert (In k (where_ (fun t => (t0 <=? t)%Z) time)) as K by (apply where_in; exists z; split; [assumption|now apply Z.leb_le]).
  apply Hmin in K. lia.
Qed.
Print Assumptions C55_start_only.

Theorem C55_stop_only : forall time sel t1, (exists i x, nth_error time i = Some x /\ (x < t1)%Z) ->
  exists last x, select_time_range time sel None (Some t1) = Ok (fst sel, (Z.of_nat last + 1)%Z) /\
    nth_error time last = Some x /\ (x < t1)%Z /\ forall i y, last < i -> nth_error time i = Some y -> (t1 <= y)%Z.
Proof.
  intros time sel t1 (i & x & Hi & Hx). unfold select_time_range. cbn [rbind].
  assert (In i (where_ (fun t => (t <? t1)%Z) time)) as K0 by (apply where_in; exists x; split; [assumption|now apply Z.ltb_lt]).
  destruct (first_of_some (rev (where_ (fun t => (t <? t1)%Z) time)) i) as (j & Hj); [now apply -> in_rev|].
  change (last_of (where_ (fun t => (t <? t1)%Z) time) = Ok j) in Hj.
  rewrite Hj. cbn [rbind]. destruct (last_of_where _ _ _ Hj) as (Hin & Hmax).
  apply where_in in Hin as (y & Hy & Hl). apply Z.ltb_lt in Hl. exists j, y. repeat split; try assumption.
  intros k z Hk Hz. destruct (Z.lt_ge_cases z t1) as [G|]; [|assumption].
  assert (In k (where_ (fun t => (t <? t1)%Z) time)) as K by (apply where_in; exists z; split; [assumption|now apply Z.ltb_lt]).
  apply Hmax in K. lia.
Qed.
Print Assumptions C55_stop_only.

Example C55_one_bound_example :
  select_time_range [1; 3; 5; 7; 9]%Z (1, 4)%Z (Some 4%Z) None = Ok (2, 4)%Z
  /\ select_time_range [1; 3; 5; 7; 9]%Z (1, 4)%Z None (Some 4%Z) = Ok (1, 2)%Z
  /\ select_time_range [1; 3; 5; 7; 9]%Z (1, 4)%Z None None = Ok (1, 4)%Z.
Proof. repeat split. Qed.
