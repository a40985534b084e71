(** Theorems about the times of time-ordered data. *)
From Coq Require Import List QArith Qabs Arith Lia Lqa Permutation.
From Verif Require Import PyBase TtimeModel.
Import ListNotations.
Open Scope Q_scope.

(** Specification: consecutive times are between [lo] and [hi] apart. *)
Inductive Spaced (lo hi : Q) : list Q -> Prop :=
| Spaced_one t : Spaced lo hi [t]
| Spaced_more a b r : lo <= b - a -> b - a <= hi -> Spaced lo hi (b :: r) -> Spaced lo hi (a :: b :: r).

Lemma diff_spaced : forall lo hi l, Spaced lo hi l -> Forall (fun d => lo <= d <= hi) (diff l) /\ S (length (diff l)) = length l.
Proof.
  intros lo hi l H. induction H as [t|a b r H1 H2 H3 (IH & IL)]; [split; [constructor|reflexivity]|].
  change (diff (a :: b :: r)) with ((b - a) :: diff (b :: r)). split; [constructor; auto|]. cbn [length] in *. now rewrite IL.
Qed.
Lemma nth_between : forall lo hi l i, Forall (fun d => lo <= d <= hi) l -> (i < length l)%nat -> lo <= nth i l 0 <= hi.
Proof. intros lo hi l i H L. rewrite Forall_forall in H. apply H. now apply nth_In. Qed.

Lemma median_between : forall lo hi l, l <> [] -> Forall (fun d => lo <= d <= hi) l ->
  exists m, median l = Some m /\ lo <= m /\ m <= hi.
Proof.
  intros lo hi l N H. unfold median. pose proof (py_sorted_perm Qle_bool l) as P. set (s := py_sorted Qle_bool l) in *.
  assert (Hs : Forall (fun d => lo <= d <= hi) s).
  { rewrite Forall_forall in *. intros x Hx. apply H. now apply (Permutation_in x (Permutation_sym P)). }
  assert (Ls : (0 < length s)%nat).
  { rewrite <- (Permutation_length P). destruct l; [congruence|cbn; lia]. }
  destruct (length s) as [|n] eqn:En; [lia|]. rewrite <- En in *.
  assert (L2 : (length s / 2 < length s)%nat) by (apply Nat.div_lt; lia).
  pose proof (nth_between lo hi s (length s / 2) Hs L2) as (A1 & A2).
  destruct (Nat.even (length s)).
  - pose proof (nth_between lo hi s (length s / 2 - 1) Hs ltac:(lia)) as (B1 & B2).
    eexists. split; [reflexivity|]. unfold Qdiv. change (/ 2) with (1 # 2). split; lra.
  - eexists. split; [reflexivity|]. auto.
Qed.

(** * C238 the times are shifted by half of the spacing *)
Theorem C238_between : forall alignment lo hi time, 0 <= lo -> Spaced lo hi time -> (2 <= length time)%nat ->
  exists h, lo / 2 <= h /\ h <= hi / 2 /\
    Forall2 (fun t r => exists q, r = Some q /\ q == t + alignment * h) time (tod_time alignment time).
Proof.
  intros alignment lo hi time H0 HS HL. destruct (diff_spaced lo hi time HS) as (HD & L).
  destruct (median_between lo hi (diff time)) as (m & Em & M1 & M2).
  { intros E. rewrite E in L. cbn in L. lia. }
  { exact HD. }
  exists (m / 2). unfold Qdiv. change (/ 2) with (1 # 2). split; [lra|]. split; [lra|].
  unfold tod_time. destruct (Qeq_bool alignment 0) eqn:E.
  - apply Qeq_bool_eq in E. clear -E. induction time as [|t l IH]; cbn [map]; constructor; [|exact IH].
    exists t. split; [reflexivity|]. rewrite E. ring.
  - rewrite Em. clear -M1 H0. induction time as [|t l IH]; cbn [map]; constructor; [|exact IH].
    eexists. split; [reflexivity|]. rewrite (Qabs_pos m) by lra. reflexivity.
Qed.
Print Assumptions C238_between.

Theorem C238_even : forall alignment d time, 0 <= d -> Spaced d d time -> (2 <= length time)%nat ->
  Forall2 (fun t r => exists q, r = Some q /\ q == t + alignment * (d / 2)) time (tod_time alignment time).
Proof.
  intros alignment d time H0 HS HL. destruct (C238_between alignment d d time H0 HS HL) as (h & A & B & F).
  assert (E : h == d / 2) by (apply Qle_antisym; assumption). clear -E F.
  induction F as [|t r l l' (q & -> & Hq) F IH]; constructor; [|exact IH].
  exists q. split; [reflexivity|]. rewrite Hq, E. reflexivity.
Qed.
Print Assumptions C238_even.

Theorem C238_centred : forall time, tod_time 0 time = map Some time.
Proof. reflexivity. Qed.
Print Assumptions C238_centred.

Example C238_example :
  tod_time 1 [100; 110; 121; 131] = [Some (100 + 1 * (10 / 2)); Some (110 + 1 * (10 / 2)); Some (121 + 1 * (10 / 2)); Some (131 + 1 * (10 / 2))]
  /\ Spaced 10 11 [100; 110; 121; 131].
Proof. split; [reflexivity|]. repeat constructor; lra. Qed.

(** * C239 one sample that is not centred *)
Theorem C239_refuted : exists alignment t, tod_time alignment [t] = [None].
Proof. exists 1, 100. reflexivity. Qed.
Print Assumptions C239_refuted.
Theorem C239_partial : forall alignment lo hi time, 0 <= lo -> Spaced lo hi time -> (2 <= length time)%nat ->
  length (tod_time alignment time) = length time /\ ~ In None (tod_time alignment time).
Proof.
  intros alignment lo hi time H0 HS HL. destruct (C238_between alignment lo hi time H0 HS HL) as (h & _ & _ & F).
  induction F as [|t r l l' (q & -> & _) F IH].
  - split; [reflexivity|intros []].
  - clear -F. split.
    + cbn [length]. f_equal. induction F; cbn; congruence.
    + intros [H|H]; [discriminate|]. induction F as [|t0 r l l' (q0 & -> & _) F IH]; [contradiction|].
      destruct H as [H|H]; [discriminate|auto].
Qed.
Print Assumptions C239_partial.
