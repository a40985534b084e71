From Coq Require Import List Bool Reals ZArith Lia Lra Psatz.
From Verif Require Import PyBase SolveModel SolveSpec SolveProofs SolveProps LsdModel LsdSpec LsdProofs RisModel RisSpec RisProofs RisProofs2.
Import ListNotations.
Open Scope R_scope.

Lemma solver_brackets f brentq : continuity f -> Solver f brentq -> Brackets f brentq.
Proof. intros C S a b L P. apply S; auto. exists f. auto. Qed.
(** When every root is a crossing, the search finds the crossings. *)
Lemma solve_crossings f brentq x0 x1 dx si sd : Brackets f brentq -> 0 < dx -> dx < x1 - x0 ->
  (forall r, IsRoot f x0 x1 r -> exists up, Crosses f x0 x1 (2 * dx) up r) ->
  exists l, solve_all f brentq x0 x1 dx si sd = Ok l /\ Ascending (map fst l) /\
    forall r up, In (r, up) l <-> IsRoot f x0 x1 r /\ Crosses f x0 x1 (2 * dx) up r /\ (if up then si else sd) = false.
Proof.
  intros Br D L All. destruct (C75_sound_partial f brentq x0 x1 dx si sd Br ltac:(lra) D) as (l & E & A & So).
  exists l. split; [exact E|]. split; [exact A|]. intros r up. split.
  - intros I. destruct (So r up I) as (Rt & Si & Sd). split; [exact Rt|].
    assert (Sk : (if up then si else sd) = false).
    { destruct up; [destruct si; [discriminate (Si eq_refl)|reflexivity]|destruct sd; [discriminate (Sd eq_refl)|reflexivity]]. }
    split; [|exact Sk]. destruct (All r Rt) as (v & Cr).
    destruct (solve_in f brentq x0 x1 dx si sd l r up ltac:(lra) D E I) as (a & b & H1 & H2 & H3 & H4 & K).
    apply cell_in in K as (P & Er & Eu & _). destruct (Br a b ltac:(lra) P) as [Bd Zr]. rewrite <- Er in Bd, Zr.
    destruct (Cr a ltac:(lra) ltac:(lra)) as [Ca _]. destruct (Cr b ltac:(lra) ltac:(lra)) as [_ Cb].
    assert (up = v); [|subst; exact Cr]. rewrite Eu. destruct v.
    + apply rltb_true. destruct (Rtotal_order a r) as [K|[K|K]]; [|subst a|lra];
        (destruct (Rtotal_order r b) as [K'|[K'|K']]; [|try subst b|lra]); try specialize (Ca K); try specialize (Cb K'); try lra.
    + apply rltb_false. destruct (Rtotal_order a r) as [K|[K|K]]; [|subst a|lra];
        (destruct (Rtotal_order r b) as [K'|[K'|K']]; [|try subst b|lra]); try specialize (Ca K); try specialize (Cb K'); try lra.
  - intros (Rt & Cr & Sk). destruct (C75_found_partial f brentq x0 x1 dx si sd up r Br D L Rt Cr Sk) as (l' & E' & I).
    rewrite E in E'. injection E' as ->. exact I.
Qed.
(** Without a root on the grid, the directions alternate. *)
Lemma cells_alternate f brentq x0 x1 m n s : (forall i, (s <= i <= s + n)%nat -> f (gpoint x0 x1 m i) <> 0) ->
  let l := map snd (flat_map (fun i => cell f brentq false false (gpoint x0 x1 m i, gpoint x0 x1 m (S i))) (seq s n)) in
  Alternates l /\ match l with [] => True | u :: _ => u = rltb (f (gpoint x0 x1 m s)) 0 end.
Proof.
  revert s. induction n as [|n IH]; intros s NZ; cbn zeta; [now split|].
  specialize (IH (S s) ltac:(intros i Hi; apply NZ; lia)). cbn zeta in IH. destruct IH as [A H].
  cbn [seq flat_map]. rewrite map_app.
  pose proof (NZ s ltac:(lia)) as N1. pose proof (NZ (S s) ltac:(lia)) as N2. revert N1 N2 A H.
  generalize (map snd (flat_map (fun i => cell f brentq false false (gpoint x0 x1 m i, gpoint x0 x1 m (S i))) (seq (S s) n))).
  generalize (gpoint x0 x1 m (S s)) as b. generalize (gpoint x0 x1 m s) as a. intros a b t N1 N2 A H.
  unfold cell. cbn [andb]. destruct (rltb 0 (f a * f b)) eqn:E; cbn [map app].
  - apply rltb_true in E. split; [exact A|]. destruct t as [|u t]; [exact I|]. rewrite H.
    destruct (rltb (f b) 0) eqn:Eb; symmetry; [apply rltb_true in Eb; apply rltb_true|apply rltb_false in Eb; apply rltb_false]; nra.
  - apply rltb_false in E. cbn [snd]. assert (Ea : rltb (f a) (f b) = rltb (f a) 0).
    { destruct (rltb (f a) 0) eqn:Ea; [apply rltb_true in Ea; apply rltb_true|apply rltb_false in Ea; apply rltb_false]; nra. }
    split; [|exact Ea]. cbn [Alternates]. split; [|exact A]. destruct t as [|u t]; [exact I|]. rewrite H, Ea.
    destruct (rltb (f a) 0) eqn:Ea'; cbn [negb]; [apply rltb_true in Ea'; apply rltb_false|apply rltb_false in Ea'; apply rltb_true]; nra.
Qed.
Lemma solve_alternates f brentq x0 x1 dx l : 0 < dx -> x0 < x1 -> (forall x, In x (grid x0 x1 dx) -> f x <> 0) ->
  solve_all f brentq x0 x1 dx false false = Ok l -> Alternates (map snd l).
Proof.
  intros D L NZ E. destruct (Rle_dec (x1 - x0) dx) as [C|C].
  - rewrite C75_short_interval in E by assumption. injection E as <-. exact I.
  - destruct (solve_all_cells f brentq x0 x1 dx false false D ltac:(lra)) as (m & N & M & E'). rewrite E' in E. injection E as <-.
    apply (cells_alternate f brentq x0 x1 m m 0). intros i Hi. apply NZ. unfold grid. rewrite N, Nat2Z.id, linspace_eq by assumption.
    apply in_map, in_seq. lia.
Qed.
