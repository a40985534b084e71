(** Proofs about the search for roots. *)
From Coq Require Import List Bool Reals ZArith Lra Lia.
From Verif Require Import PyBase SolveModel SolveSpec.
Import ListNotations.
Open Scope R_scope.

Lemma ceil_spec x : IZR (ceil x) - 1 < x <= IZR (ceil x).
Proof.
  unfold ceil. destruct (base_Int_part (- x)). rewrite opp_IZR. lra.
Qed.
Lemma ceil_is x z : IZR z - 1 < x <= IZR z -> ceil x = z.
Proof.
  intros H. pose proof (ceil_spec x) as K.
  assert (A : (ceil x - 1 < z)%Z) by (apply lt_IZR; rewrite minus_IZR; lra).
  assert (B : (z - 1 < ceil x)%Z) by (apply lt_IZR; rewrite minus_IZR; lra).
  lia.
Qed.
Lemma npoints_pos x0 x1 dx : x0 < x1 -> 0 < dx -> (1 <= npoints x0 x1 dx)%Z.
Proof.
  intros L D. unfold npoints. pose proof (ceil_spec ((x1 - x0) / dx)) as K.
  assert (0 < (x1 - x0) / dx) by (apply Rdiv_lt_0_compat; lra).
  assert (0 < ceil ((x1 - x0) / dx))%Z by (apply lt_IZR; lra). lia.
Qed.
Lemma npoints_small x0 x1 dx : x0 < x1 -> x1 - x0 <= dx -> npoints x0 x1 dx = 1%Z.
Proof.
  intros L D. unfold npoints. apply ceil_is. split.
  - replace (1 - 1) with 0 by lra. apply Rdiv_lt_0_compat; lra.
  - apply Rmult_le_reg_r with dx; [lra|]. unfold Rdiv. rewrite Rmult_assoc, Rinv_l by lra. lra.
Qed.
Lemma npoints_big x0 x1 dx : 0 < dx -> dx < x1 - x0 -> (2 <= npoints x0 x1 dx)%Z.
Proof.
  intros D L. unfold npoints. pose proof (ceil_spec ((x1 - x0) / dx)) as K.
  assert (1 < (x1 - x0) / dx).
  { apply Rmult_lt_reg_r with dx; [lra|]. unfold Rdiv. rewrite Rmult_assoc, Rinv_l by lra. lra. }
  assert (1 < ceil ((x1 - x0) / dx))%Z by (apply lt_IZR; lra). lia.
Qed.

(** * The grid *)
Definition gpoint (x0 x1 : R) (m i : nat) : R := x0 + INR i * ((x1 - x0) / INR m).
Lemma linspace_eq x0 x1 m : (1 <= m)%nat -> linspace x0 x1 (S m) = map (gpoint x0 x1 m) (seq 0 (S m)).
Proof. intros H. destruct m; [lia|]. reflexivity. Qed.
Lemma pairs_map_seq {A} (g : nat -> A) s n : pairs (map g (seq s (S n))) = map (fun i => (g i, g (S i))) (seq s n).
Proof.
  revert s. induction n as [|n IH]; intros s; [reflexivity|].
  specialize (IH (S s)). unfold pairs in *. cbn [seq map tl combine] in *. rewrite IH. reflexivity.
Qed.
Lemma grid_pairs x0 x1 dx m : npoints x0 x1 dx = Z.of_nat (S m) -> (1 <= m)%nat ->
  pairs (grid x0 x1 dx) = map (fun i => (gpoint x0 x1 m i, gpoint x0 x1 m (S i))) (seq 0 m).
Proof.
  intros N M. unfold grid. rewrite N, Nat2Z.id, linspace_eq by assumption. apply pairs_map_seq.
Qed.
Lemma npoints_nat x0 x1 dx : 0 < dx -> dx < x1 - x0 -> exists m, npoints x0 x1 dx = Z.of_nat (S m) /\ (1 <= m)%nat.
Proof.
  intros D L. pose proof (npoints_big _ _ _ D L). exists (Z.to_nat (npoints x0 x1 dx - 1)). lia.
Qed.
Lemma gpoint_step x0 x1 m i : gpoint x0 x1 m (S i) - gpoint x0 x1 m i = (x1 - x0) / INR m.
Proof. unfold gpoint. rewrite S_INR. ring. Qed.
Lemma gpoint_first x0 x1 m : gpoint x0 x1 m 0 = x0.
Proof. unfold gpoint. cbn. ring. Qed.
Lemma gpoint_last x0 x1 m : (1 <= m)%nat -> gpoint x0 x1 m m = x1.
Proof. intros M. unfold gpoint. field. apply not_0_INR. lia. Qed.
Lemma gpoint_mono x0 x1 m i j : x0 < x1 -> (1 <= m)%nat -> (i < j)%nat -> gpoint x0 x1 m i < gpoint x0 x1 m j.
Proof.
  intros L M I. unfold gpoint. apply Rplus_lt_compat_l, Rmult_lt_compat_r.
  - apply Rdiv_lt_0_compat; [lra|]. apply lt_0_INR. lia.
  - now apply lt_INR.
Qed.
Lemma gpoint_range x0 x1 m i : x0 < x1 -> (1 <= m)%nat -> (i <= m)%nat -> x0 <= gpoint x0 x1 m i <= x1.
Proof.
  intros L M I. split.
  - destruct i; [rewrite gpoint_first; lra|]. left. rewrite <- (gpoint_first x0 x1 m) at 1. apply gpoint_mono; auto; lia.
  - destruct (Nat.eq_dec i m) as [->|E]; [rewrite gpoint_last by assumption; lra|].
    left. rewrite <- (gpoint_last x0 x1 m M) at 2. apply gpoint_mono; auto; lia.
Qed.
Lemma spacing x0 x1 dx m : 0 < dx -> npoints x0 x1 dx = Z.of_nat (S m) -> (1 <= m)%nat ->
  dx < (x1 - x0) / INR m <= dx * (INR (S m) / INR m).
Proof.
  intros D N M. unfold npoints in N. pose proof (ceil_spec ((x1 - x0) / dx)) as [A B].
  rewrite N, <- INR_IZR_INZ, S_INR in A. rewrite N, <- INR_IZR_INZ in B.
  assert (P : 0 < INR m) by (apply lt_0_INR; lia).
  assert (E : (x1 - x0) = (x1 - x0) / dx * dx) by (field; lra).
  set (q := (x1 - x0) / dx) in *. split.
  - apply Rmult_lt_reg_r with (INR m); [assumption|]. unfold Rdiv. rewrite Rmult_assoc, Rinv_l by lra. nra.
  - apply Rmult_le_reg_r with (INR m); [assumption|]. unfold Rdiv. rewrite !Rmult_assoc, Rinv_l by lra. nra.
Qed.
Lemma spacing2 x0 x1 dx m : 0 < dx -> npoints x0 x1 dx = Z.of_nat (S m) -> (1 <= m)%nat ->
  dx < (x1 - x0) / INR m <= 2 * dx.
Proof.
  intros D N M. destruct (spacing _ _ _ _ D N M) as [A B]. split; [assumption|].
  assert (P : 1 <= INR m) by (apply (le_INR 1); assumption).
  assert (INR (S m) / INR m <= 2).
  { apply Rmult_le_reg_r with (INR m); [lra|]. unfold Rdiv. rewrite Rmult_assoc, Rinv_l by lra. rewrite S_INR. lra. }
  nra.
Qed.
(** Every point of the interval lies in a cell. *)
Lemma in_cell x0 x1 m r : x0 < x1 -> (1 <= m)%nat -> x0 <= r <= x1 ->
  exists i, (i < m)%nat /\ gpoint x0 x1 m i <= r <= gpoint x0 x1 m (S i).
Proof.
  intros L M [A B].
  assert (K : forall n, (1 <= n <= m)%nat -> r <= gpoint x0 x1 m n -> exists i, (i < m)%nat /\ gpoint x0 x1 m i <= r <= gpoint x0 x1 m (S i)).
  { induction n as [|n IH]; [lia|]. intros Hn Hr. destruct n as [|n].
    - exists 0%nat. split; [lia|]. rewrite gpoint_first. auto.
    - destruct (Rle_dec r (gpoint x0 x1 m (S n))) as [C|C].
      + apply IH; [lia|assumption].
      + exists (S n). split; [lia|]. split; [lra|assumption]. }
  apply (K m); [lia|]. now rewrite gpoint_last.
Qed.

(** * The search *)
Lemma rltb_true a b : rltb a b = true <-> a < b.
Proof. unfold rltb. destruct (Rlt_dec a b); split; intros; try discriminate; try lra; auto. Qed.
Lemma rltb_false a b : rltb a b = false <-> b <= a.
Proof. unfold rltb. destruct (Rlt_dec a b); split; intros; try discriminate; try lra; auto. Qed.

Definition cell (f : R -> R) (brentq : R -> R -> R) (si sd : bool) (ab : R * R) : list (R * bool) :=
  let '(xa, xb) := ab in
  if rltb 0 (f xa * f xb) then []
  else if si && rltb (f xa) (f xb) then []
  else if sd && negb (rltb (f xa) (f xb)) then []
  else [(brentq xa xb, rltb (f xa) (f xb))].
Lemma solve_all_eq f brentq x0 x1 dx si sd : (0 <= npoints x0 x1 dx)%Z ->
  solve_all f brentq x0 x1 dx si sd = Ok (flat_map (cell f brentq si sd) (pairs (grid x0 x1 dx))).
Proof.
  intros H. unfold solve_all. destruct (Z.ltb_spec (npoints x0 x1 dx) 0) as [K|K]; [lia|]. reflexivity.
Qed.
Lemma solve_all_cells f brentq x0 x1 dx si sd : 0 < dx -> dx < x1 - x0 ->
  exists m, npoints x0 x1 dx = Z.of_nat (S m) /\ (1 <= m)%nat /\
    solve_all f brentq x0 x1 dx si sd = Ok (flat_map (fun i => cell f brentq si sd (gpoint x0 x1 m i, gpoint x0 x1 m (S i))) (seq 0 m)).
Proof.
  intros D L. destruct (npoints_nat _ _ _ D L) as (m & N & M). exists m. split; [assumption|]. split; [assumption|].
  rewrite solve_all_eq by lia. rewrite (grid_pairs _ _ _ _ N M). f_equal.
  generalize (seq 0 m). induction l as [|i l IH]; [reflexivity|]. cbn [map flat_map]. now rewrite IH.
Qed.
Lemma cell_in f brentq si sd a b r u : In (r, u) (cell f brentq si sd (a, b)) ->
  f a * f b <= 0 /\ r = brentq a b /\ u = rltb (f a) (f b) /\ (si = true -> u = false) /\ (sd = true -> u = true).
Proof.
  unfold cell. destruct (rltb 0 (f a * f b)) eqn:E; [intros []|]. apply rltb_false in E.
  destruct (rltb (f a) (f b)), si, sd; cbn; intros [K|[]] || intros []; inversion K; subst; repeat split; auto; discriminate.
Qed.
Lemma solve_in f brentq x0 x1 dx si sd l r u : x0 < x1 -> 0 < dx -> solve_all f brentq x0 x1 dx si sd = Ok l -> In (r, u) l ->
  exists a b, x0 <= a /\ a < b /\ b <= x1 /\ b - a <= 2 * dx /\ In (r, u) (cell f brentq si sd (a, b)).
Proof.
  intros L D S I. destruct (Rle_dec (x1 - x0) dx) as [C|C].
  - rewrite solve_all_eq in S by (rewrite npoints_small by assumption; lia).
    unfold grid in S. rewrite npoints_small in S by assumption. change (Z.to_nat 1) with 1%nat in S. cbn in S.
    injection S as <-. destruct I.
  - destruct (solve_all_cells f brentq x0 x1 dx si sd D ltac:(lra)) as (m & N & M & E). rewrite E in S. injection S as <-.
    apply in_flat_map in I as (i & Hi & I). apply in_seq in Hi.
    exists (gpoint x0 x1 m i), (gpoint x0 x1 m (S i)).
    repeat split.
    + apply gpoint_range; auto; lia.
    + apply gpoint_mono; auto; lia.
    + apply gpoint_range; auto; lia.
    + rewrite gpoint_step. apply (spacing2 x0 x1 dx m D N M).
    + assumption.
Qed.

(** Order *)
Lemma ascending_app l1 l2 : Ascending l1 -> Ascending l2 -> (forall x y, In x l1 -> In y l2 -> x <= y) -> Ascending (l1 ++ l2).
Proof.
  induction l1 as [|x l1 IH]; intros H1 H2 H; [assumption|].
  destruct H1 as [A B]. cbn [app Ascending]. split.
  - destruct l1 as [|y l1]; [|exact A]. destruct l2 as [|z l2]; cbn [app]; [exact I|]. apply H; now left.
  - apply IH; auto. intros u v Hu. apply H. now right.
Qed.
Lemma strictly_app l1 l2 : StrictlyAscending l1 -> StrictlyAscending l2 -> (forall x y, In x l1 -> In y l2 -> x < y) -> StrictlyAscending (l1 ++ l2).
Proof.
  induction l1 as [|x l1 IH]; intros H1 H2 H; [assumption|].
  destruct H1 as [A B]. cbn [app StrictlyAscending]. split.
  - destruct l1 as [|y l1]; [|exact A]. destruct l2 as [|z l2]; cbn [app]; [exact I|]. apply H; now left.
  - apply IH; auto. intros u v Hu. apply H. now right.
Qed.
Lemma cell_one f brentq si sd ab : exists o : option (R * bool), cell f brentq si sd ab = match o with Some x => [x] | None => [] end.
Proof.
  destruct ab as [a b]. unfold cell. destruct (rltb 0 _); [now exists None|].
  destruct (si && _); [now exists None|]. destruct (sd && _); [now exists None|]. now exists (Some (brentq a b, rltb (f a) (f b))).
Qed.
Lemma cells_bounds f brentq x0 x1 m si sd s n x : Brackets f brentq -> x0 < x1 -> (1 <= m)%nat ->
  In x (map fst (flat_map (fun i => cell f brentq si sd (gpoint x0 x1 m i, gpoint x0 x1 m (S i))) (seq s n))) ->
  exists i, (s <= i < s + n)%nat /\ gpoint x0 x1 m i <= x <= gpoint x0 x1 m (S i) /\ f x = 0.
Proof.
  intros Br L M I. apply in_map_iff in I as ([r u] & <- & I). apply in_flat_map in I as (i & Hi & I). apply in_seq in Hi.
  exists i. split; [assumption|]. apply cell_in in I as (P & -> & _).
  cbn [fst]. apply Br; [|assumption]. left. apply gpoint_mono; auto.
Qed.
Lemma cells_ascending f brentq x0 x1 m si sd n s : Brackets f brentq -> x0 < x1 -> (1 <= m)%nat ->
  Ascending (map fst (flat_map (fun i => cell f brentq si sd (gpoint x0 x1 m i, gpoint x0 x1 m (S i))) (seq s n))).
Proof.
  intros Br L M. revert s. induction n as [|n IH]; intros s; [exact I|].
  cbn [seq flat_map]. rewrite map_app. apply ascending_app.
  - destruct (cell_one f brentq si sd (gpoint x0 x1 m s, gpoint x0 x1 m (S s))) as [[o|] ->]; cbn; auto.
  - apply IH.
  - intros x y Hx Hy. apply (cells_bounds _ _ _ _ _ _ _ _ _ _ Br L M) in Hy as (i & Hi & Hy & _).
    apply in_map_iff in Hx as ([r u] & <- & Hx). apply cell_in in Hx as (P & -> & _).
    destruct (Br (gpoint x0 x1 m s) (gpoint x0 x1 m (S s))) as [[_ K] _]; [left; apply gpoint_mono; auto|assumption|].
    cbn [fst]. eapply Rle_trans; [exact K|]. destruct (Nat.eq_dec (S s) i) as [->|E]; [lra|].
    left. eapply Rlt_le_trans; [apply (gpoint_mono x0 x1 m (S s) i); auto; lia|]. lra.
Qed.
Lemma cells_strict f brentq x0 x1 m si sd n s : Brackets f brentq -> x0 < x1 -> (1 <= m)%nat ->
  (forall i, (i < s + n)%nat -> f (gpoint x0 x1 m (S i)) <> 0) ->
  StrictlyAscending (map fst (flat_map (fun i => cell f brentq si sd (gpoint x0 x1 m i, gpoint x0 x1 m (S i))) (seq s n))).
Proof.
  intros Br L M. revert s. induction n as [|n IH]; intros s NZ; [exact I|].
  cbn [seq flat_map]. rewrite map_app. apply strictly_app.
  - destruct (cell_one f brentq si sd (gpoint x0 x1 m s, gpoint x0 x1 m (S s))) as [[o|] ->]; cbn; auto.
  - apply IH. intros i Hi. apply NZ. lia.
  - intros x y Hx Hy. apply (cells_bounds _ _ _ _ _ _ _ _ _ _ Br L M) in Hy as (i & Hi & Hy & Z).
    apply in_map_iff in Hx as ([r u] & <- & Hx). apply cell_in in Hx as (P & -> & _).
    destruct (Br (gpoint x0 x1 m s) (gpoint x0 x1 m (S s))) as [[_ K] Z']; [left; apply gpoint_mono; auto|assumption|].
    cbn [fst]. assert (K' : brentq (gpoint x0 x1 m s) (gpoint x0 x1 m (S s)) < gpoint x0 x1 m (S s)).
    { destruct K as [K|K]; [assumption|]. exfalso. apply (NZ s); [lia|]. rewrite <- K. exact Z'. }
    eapply Rlt_le_trans; [exact K'|]. destruct (Nat.eq_dec (S s) i) as [->|E]; [lra|].
    left. eapply Rlt_le_trans; [apply (gpoint_mono x0 x1 m (S s) i); auto; lia|]. lra.
Qed.
(** Skipping is a filter. *)
Lemma flat_map_ext_in {A B} (f g : A -> list B) l : (forall x : A, f x = g x) -> flat_map f l = flat_map g l.
Proof. intros H. induction l as [|x l IH]; [reflexivity|]. cbn. now rewrite H, IH. Qed.
Lemma filter_flat_map {A B} (p : B -> bool) (f : A -> list B) l : filter p (flat_map f l) = flat_map (fun x => filter p (f x)) l.
Proof. induction l as [|x l IH]; [reflexivity|]. cbn. now rewrite filter_app, IH. Qed.
Lemma cell_skip f brentq si sd ab :
  cell f brentq si sd ab = filter (fun x : R * bool => negb (if snd x then si else sd)) (cell f brentq false false ab).
Proof.
  destruct ab as [a b]. unfold cell. destruct (rltb 0 _); [reflexivity|].
  destruct (rltb (f a) (f b)) eqn:E, si, sd; cbn; rewrite ?E; reflexivity.
Qed.
