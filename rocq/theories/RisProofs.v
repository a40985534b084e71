From Coq Require Import List Bool Reals ZArith Lia Lra Psatz.
From Verif Require Import PyBase SolveModel SolveSpec SolveProofs LsdModel LsdSpec LsdProofs RisModel RisSpec.
Import ListNotations.
Open Scope R_scope.

(** * Angles *)
Lemma same_refl x : SameAngle x x.
Proof. exists 0%Z. cbn. lra. Qed.
Lemma same_sym x y : SameAngle x y -> SameAngle y x.
Proof. intros (k & ->). exists (- k)%Z. rewrite opp_IZR. lra. Qed.
Lemma same_trans x y z : SameAngle x y -> SameAngle y z -> SameAngle x z.
Proof. intros (k & ->) (m & ->). exists (m + k)%Z. rewrite plus_IZR. lra. Qed.
Lemma same_plus x y u v : SameAngle x y -> SameAngle u v -> SameAngle (x + u) (y + v).
Proof. intros (k & ->) (m & ->). exists (k + m)%Z. rewrite plus_IZR. lra. Qed.
Lemma same_opp x y : SameAngle x y -> SameAngle (- x) (- y).
Proof. intros (k & ->). exists (- k)%Z. rewrite opp_IZR. lra. Qed.
Lemma same_rmod x : SameAngle (rmod x 360) x.
Proof. destruct (rmod_shift x 360) as (k & E). exists k. exact E. Qed.
Lemma same_turn : SameAngle 180 (-180).
Proof. exists 1%Z. cbn. lra. Qed.
Lemma same_eq x y c : c <= x < c + 360 -> c <= y < c + 360 -> SameAngle x y -> x = y.
Proof.
  intros A B (k & E). destruct (Z_lt_le_dec k 0) as [K|K]; [|destruct (Z_lt_le_dec 0 k) as [K'|K']].
  - assert (IZR k <= -1) by (apply IZR_le; lia). lra.
  - assert (1 <= IZR k) by (apply IZR_le; lia). lra.
  - replace k with 0%Z in E by lia. cbn in E. lra.
Qed.

(** * An angle that grows, wrapped *)
Section Wrapped.
Variable f g : R -> R.
Variable w : R.
Hypothesis Cg : continuity g.
Hypothesis Range : forall t, -180 <= f t < 180.
Hypothesis Same : forall t, SameAngle (f t) (g t).
Hypothesis Grows : forall s t, s < t -> g s < g t.
Hypothesis Slow : forall s t, s < t -> t - s <= w -> g t - g s < 180.

Lemma grows_le s t : s <= t -> g s <= g t.
Proof. intros [L| ->]; [left; now apply Grows|lra]. Qed.
(** Between two points where the wrapped angle goes up, there is no jump. *)
Lemma wrapped_cell a b : a < b -> b - a <= w -> f a * f b <= 0 -> f a < f b ->
  exists k, forall x, a <= x <= b -> f x = g x - 360 * IZR k.
Proof.
  intros L W P I. destruct (Same a) as (k & Ea). exists (- k)%Z. intros x Hx.
  assert (Fa : f a <= 0) by nra. assert (Fb : 0 <= f b) by nra.
  assert (Gb : f b = g b + 360 * IZR k).
  { pose proof (Grows a b L). pose proof (Slow a b L W). pose proof (Range a). pose proof (Range b).
    apply (same_eq _ _ 0); [lra| |].
    - destruct (Same b) as (m & Eb).
      assert (f b - f a = (g b - g a) + 360 * (IZR m - IZR k)) by lra.
      destruct (Z_lt_le_dec m k) as [K|K]; [|destruct (Z_lt_le_dec k m) as [K'|K']].
      + assert (IZR m - IZR k <= -1) by (rewrite <- minus_IZR; apply IZR_le; lia). lra.
      + assert (1 <= IZR m - IZR k) by (rewrite <- minus_IZR; apply IZR_le; lia).  lra.
      + replace m with k in * by lia. lra.
    - eapply same_trans; [apply Same|]. exists (- k)%Z. rewrite opp_IZR. lra. }
  rewrite opp_IZR. apply (same_eq _ _ (-180)); [pose proof (Range x); lra| |].
  - pose proof (grows_le a x ltac:(lra)). pose proof (grows_le x b ltac:(lra)). pose proof (Range a). pose proof (Range b). lra.
  - eapply same_trans; [apply Same|]. exists (- k)%Z. rewrite opp_IZR. lra.
Qed.
Lemma wrapped_continuous a b : a < b -> b - a <= w -> f a * f b <= 0 -> f a < f b -> ContinuousOn f a b.
Proof.
  intros L W P I. destruct (wrapped_cell a b L W P I) as (k & H). exists (fun x => g x - 360 * IZR k). split; [|exact H].
  apply (continuity_minus g (fun _ => 360 * IZR k)); [exact Cg|]. apply continuity_const. intros x y. reflexivity.
Qed.
(** A root inside a cell is seen .. *)
Lemma wrapped_seen a b r : a < b -> b - a <= w -> a <= r <= b -> f r = 0 -> f a * f b <= 0 /\ f a < f b.
Proof.
  intros L W Hr Z. destruct (Same r) as (k & Er). pose proof (Grows a b L). pose proof (Slow a b L W).
  pose proof (grows_le a r ltac:(lra)). pose proof (grows_le r b ltac:(lra)).
  assert (Ea : f a = g a + 360 * IZR k).
  { apply (same_eq _ _ (-180)); [pose proof (Range a); lra|lra|]. eapply same_trans; [apply Same|]. exists (- k)%Z. rewrite opp_IZR. lra. }
  assert (Eb : f b = g b + 360 * IZR k).
  { apply (same_eq _ _ (-180)); [pose proof (Range b); lra|lra|]. eapply same_trans; [apply Same|]. exists (- k)%Z. rewrite opp_IZR. lra. }
  split; [|lra]. rewrite Ea, Eb. nra.
Qed.
(** .. and is the only one. *)
Lemma wrapped_unique a b r s : a < b -> b - a <= w -> f a * f b <= 0 -> f a < f b -> a <= r <= b -> a <= s <= b ->
  f r = 0 -> f s = 0 -> r = s.
Proof.
  intros L W P I Hr Hs Zr Zs. destruct (wrapped_cell a b L W P I) as (k & H).
  pose proof (H r Hr). pose proof (H s Hs). destruct (Rtotal_order r s) as [K|[K|K]]; [|exact K|]; apply Grows in K; lra.
Qed.
End Wrapped.

(** * Cells that hold their roots *)
Section Cells.
Variable f : R -> R.
Variable brentq : R -> R -> R.
Variable x0 x1 : R.
Variable m : nat.
Variable si sd : bool.
Hypothesis L : x0 < x1.
Hypothesis M : (1 <= m)%nat.
Notation cells s n := (flat_map (fun i => cell f brentq si sd (gpoint x0 x1 m i, gpoint x0 x1 m (S i))) (seq s n)).
Definition Holds (n : nat) : Prop := forall i r u, (i < n)%nat -> In (r, u) (cell f brentq si sd (gpoint x0 x1 m i, gpoint x0 x1 m (S i))) ->
  gpoint x0 x1 m i <= r <= gpoint x0 x1 m (S i) /\ f r = 0.
Lemma holds_bounds s n x : Holds (s + n) -> In x (map fst (cells s n)) ->
  exists i, (s <= i < s + n)%nat /\ gpoint x0 x1 m i <= x <= gpoint x0 x1 m (S i) /\ f x = 0.
Proof.
  intros H I. apply in_map_iff in I as ([r u] & <- & I). apply in_flat_map in I as (i & Hi & I). apply in_seq in Hi.
  exists i. split; [assumption|]. apply (H i r u); [lia|assumption].
Qed.
Lemma holds_ascending n s : Holds (s + n) -> Ascending (map fst (cells s n)).
Proof.
  revert s. induction n as [|n IH]; intros s H; [exact I|].
  cbn [seq flat_map]. rewrite map_app. apply ascending_app.
  - destruct (cell_one f brentq si sd (gpoint x0 x1 m s, gpoint x0 x1 m (S s))) as [[o|] ->]; cbn; auto.
  - apply IH. intros i r u Hi. apply H. lia.
  - intros x y Hx Hy. apply holds_bounds in Hy as (i & Hi & Hy & _); [|intros i r u Hi; apply H; lia].
    apply in_map_iff in Hx as ([r u] & <- & Hx). apply H in Hx as [[_ K] _]; [|lia].
    cbn [fst]. eapply Rle_trans; [exact K|]. destruct (Nat.eq_dec (S s) i) as [->|E]; [lra|].
    left. eapply Rlt_le_trans; [apply (gpoint_mono x0 x1 m (S s) i); auto; lia|]. lra.
Qed.
Lemma holds_strict n s : Holds (s + n) -> (forall i, (i < s + n)%nat -> f (gpoint x0 x1 m (S i)) <> 0) ->
  StrictlyAscending (map fst (cells s n)).
Proof.
  revert s. induction n as [|n IH]; intros s H NZ; [exact I|].
  cbn [seq flat_map]. rewrite map_app. apply strictly_app.
  - destruct (cell_one f brentq si sd (gpoint x0 x1 m s, gpoint x0 x1 m (S s))) as [[o|] ->]; cbn; auto.
  - apply IH; [intros i r u Hi; apply H; lia|]. intros i Hi. apply NZ. lia.
  - intros x y Hx Hy. apply holds_bounds in Hy as (i & Hi & Hy & Z); [|intros i r u Hi; apply H; lia].
    apply in_map_iff in Hx as ([r u] & <- & Hx). apply H in Hx as [[_ K] Z']; [|lia].
    cbn [fst]. assert (K' : r < gpoint x0 x1 m (S s)).
    { destruct K as [K|K]; [assumption|]. exfalso. apply (NZ s); [lia|]. rewrite <- K. exact Z'. }
    eapply Rlt_le_trans; [exact K'|]. destruct (Nat.eq_dec (S s) i) as [->|E]; [lra|].
    left. eapply Rlt_le_trans; [apply (gpoint_mono x0 x1 m (S s) i); auto; lia|]. lra.
Qed.
End Cells.

(** * The interval *)
Lemma fixup_ok ss to_jd t0 t1 step : 0 < ss -> Days to_jd ->
  (forall s, step = Some s -> 0 < s) ->
  match fixup to_jd ss t0 t1 step with
  | Err e => e = ValueError
  | Ok (a, b, s) => let e := match t1 with Some t => t | None => t0 + 86400 * ss end in
      t0 < e /\ a = to_jd t0 /\ b = to_jd e /\ 0 < s /\ s < b - a /\
      s = match step with Some s => s | None => if Rle_dec 86400 (e - t0) then 1 / 5 else (e - t0) / (5 * 86400) end
  end.
Proof.
  intros P D S. unfold fixup, fixup_interval. cbn zeta.
  set (e := match t1 with Some t => t | None => t0 + 86400 * ss end).
  assert (E : match t1 with None => Ok (t0 + 24 * 3600 * ss) | Some t1 => if Rle_dec t1 t0 then Err ValueError else Ok t1 end =
    if Rle_dec e t0 then Err ValueError else Ok e).
  { subst e. destruct t1 as [t1|]; [reflexivity|]. replace (24 * 3600 * ss) with (86400 * ss) by lra.
    destruct (Rle_dec (t0 + 86400 * ss) t0); [lra|reflexivity]. }
  rewrite E. destruct (Rle_dec e t0) as [K|K]; [reflexivity|]. cbn [rbind].
  pose proof (D t0 e ltac:(lra)) as Dt. destruct step as [s|].
  - destruct (Rle_dec (e - t0) (s * (24 * 3600))) as [Q|Q]; [reflexivity|]. cbn [rbind].
    split; [lra|]. split; [reflexivity|]. split; [reflexivity|]. split; [now apply S|]. split; [|reflexivity]. lra.
  - cbn [rbind]. replace (24 * 3600) with 86400 by lra. split; [lra|]. split; [reflexivity|]. split; [reflexivity|].
    destruct (Rle_dec 86400 (e - t0)) as [Q|Q]; (split; [|split; [|reflexivity]]); lra.
Qed.
Lemma fixup_refused ss to_jd t0 t1 step e : fixup to_jd ss t0 t1 step = Err e <-> fixup_interval ss t0 t1 step = Err e.
Proof.
  unfold fixup. destruct (fixup_interval ss t0 t1 step) as [[[a b] s]|x]; cbn [rbind]; split; intros H; congruence.
Qed.
