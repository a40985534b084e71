From Coq Require Import String.
From Coq Require Import List Ascii Bool Arith ZArith Lia Permutation.
From Verif Require Import PyBase PyStr MemModel RedSpec ArrModel ArrSpec ArrProofs RngModel RngSpec.
Import ListNotations.
Open Scope list_scope.
Open Scope nat_scope.

Lemma step_covers : forall n t, 0 < t -> PartSize n t (step_of n t).
Proof.
  intros n t H. unfold PartSize, step_of. pose proof (Nat.div_mod n t ltac:(lia)) as E. pose proof (Nat.mod_upper_bound n t ltac:(lia)) as U.
  assert (K : forall s, n <= t * s -> n / t <= s /\ (n mod t <> 0 -> n / t < s)).
  { intros s Hs. split; [apply Nat.div_le_mono with (c := t) in Hs; [|lia]; rewrite Nat.mul_comm, Nat.div_mul in Hs; lia|]. intros Z. generalize dependent (n / t). generalize dependent (n mod t). intros r U Z q E. nia. }
  destruct (n mod t =? 0) eqn:Z; [apply Nat.eqb_eq in Z|apply Nat.eqb_neq in Z]; (split; [|intros s Hs; destruct (K s Hs); lia]); generalize dependent (n / t); generalize dependent (n mod t); intros; nia.
Qed.
Lemma nth_error_replace_same : forall A (l : list A) i x, i < length l -> nth_error (replace l i x) i = Some x.
Proof. induction l as [|y l IH]; intros i x H; cbn in H; [lia|]. destruct i; cbn; [reflexivity|]. apply IH. lia. Qed.
Lemma nth_error_replace_other : forall A (l : list A) i j x, i <> j -> nth_error (replace l i x) j = nth_error l j.
Proof. induction l as [|y l IH]; intros i j x H; [reflexivity|]. destruct i, j; cbn; try reflexivity; [lia|]. apply IH. lia. Qed.
Lemma replace_length : forall A (l : list A) i x, length (replace l i x) = length l.
Proof. induction l as [|y l IH]; intros i x; [reflexivity|]. destruct i; cbn; congruence. Qed.
Lemma nth_error_combine : forall A B (a : list A) (b : list B) i, nth_error (combine a b) i = match nth_error a i, nth_error b i with Some x, Some y => Some (x, y) | _, _ => None end.
Proof.
  induction a as [|x a IH]; intros b i; [destruct i; reflexivity|]. destruct b as [|y b]; [destruct i; cbn; [reflexivity|destruct (nth_error a i); reflexivity]|]. destruct i; cbn; [reflexivity|apply IH].
Qed.
Lemma nth_error_seq : forall n s i, i < n -> nth_error (seq s n) i = Some (s + i).
Proof. induction n as [|n IH]; intros s i H; [lia|]. destruct i; cbn; [f_equal; lia|]. rewrite IH by lia. f_equal. lia. Qed.

Section Fill.
Context {G V : Type}.
Variable draw : G -> V * G.
Lemma after_S : forall k g, after draw g (S k) = snd (draw (after draw g k)).
Proof. induction k as [|k IH]; intros g; [reflexivity|]. cbn [after] in *. apply IH. Qed.
Variable n : nat.
Variable gens : list G.
Let step := step_of n (length gens).
Lemma start_nth : forall i g, nth_error gens i = Some g -> nth_error (start n gens) i = Some (mkthread (Nat.min n (i * step)) (Nat.min n ((i + 1) * step)) g).
Proof.
  intros i g H. unfold start. assert (L : i < length gens) by (apply nth_error_Some; congruence). assert (E : nth_error (combine (seq 0 (length gens)) gens) i = Some (i, g)) by (rewrite nth_error_combine, nth_error_seq, H by exact L; reflexivity).
  exact (map_nth_error (fun ig => mkthread (fst (part n step (fst ig))) (snd (part n step (fst ig))) (snd ig)) _ _ E).
Qed.
Lemma start_length : length (start n gens) = length gens.
Proof. unfold start. rewrite map_length, combine_length, seq_length. lia. Qed.

(** What holds at every moment. *)
Record Inv (m0 : mem V) (dst : flat V) (st : @state G V) : Prop := {
  inv_threads : forall i g, nth_error gens i = Some g -> exists p, nth_error (snd (fst st)) i = Some (mkthread p (Nat.min n ((i + 1) * step)) (after draw g (p - Nat.min n (i * step)))) /\
    Nat.min n (i * step) <= p <= Nat.min n ((i + 1) * step);
  inv_length : length (snd (fst st)) = length gens;
  inv_nodup : NoDup (snd st);
  inv_log : forall k, In k (snd st) <-> exists i t, nth_error (snd (fst st)) i = Some t /\ Nat.min n (i * step) <= k < t_pos t;
  inv_mem : forall b, dst = Window b ->
    (forall k i g, In k (snd st) -> nth_error gens i = Some g -> i * step <= k < (i + 1) * step -> fst (fst st) (b + Z.of_nat k)%Z = nth_draw draw g (k - i * step)) /\
    (forall a, (forall k, In k (snd st) -> (b + Z.of_nat k)%Z <> a) -> fst (fst st) a = m0 a);
  inv_copy : forall l, dst = Copied l -> fst (fst st) = m0 }.
Lemma inv_start : forall m dst, Inv m dst (m, start n gens, []).
Proof.
  intros m dst. constructor; cbn [fst snd].
  - intros i g H. exists (Nat.min n (i * step)). rewrite (start_nth i g H), Nat.sub_diag. split; [reflexivity|]. nia.
  - apply start_length.
  - constructor.
  - intros k. split; [intros []|]. intros (i & t & E & L). assert (Li : i < length gens) by (rewrite <- start_length; apply nth_error_Some; congruence).
    destruct (nth_error gens i) as [g|] eqn:Eg; [|apply nth_error_None in Eg; lia]. rewrite (start_nth i g Eg) in E. injection E as <-. cbn in L. lia.
  - intros b _. split; [intros k i g []|reflexivity].
  - reflexivity.
Qed.
Lemma same_part : forall k i j, i * step <= k < (i + 1) * step -> j * step <= k < (j + 1) * step -> i = j.
Proof. intros k i j A B. nia. Qed.
Lemma inv_step : forall m0 dst st i, Inv m0 dst st -> Inv m0 dst (tstep draw dst st i).
Proof.
  intros m0 dst [[m ts] log] i I. unfold tstep. destruct (nth_error ts i) as [t|] eqn:E; [|exact I]. destruct (t_pos t <? t_end t) eqn:Lt; [|exact I].
  apply Nat.ltb_lt in Lt. destruct (draw (t_gen t)) as [v g'] eqn:D. destruct I as [IT IL IN IG IM IC]. cbn [fst snd] in *.
  assert (Li : i < length ts) by (apply nth_error_Some; congruence). destruct (nth_error gens i) as [g|] eqn:Eg; [|apply nth_error_None in Eg; lia].
  destruct (IT i g Eg) as (p & Ep & Bp). rewrite E in Ep. injection Ep as ->. cbn [t_pos t_end t_gen] in *.
  assert (Rp : i * step <= p < (i + 1) * step) by lia.
  assert (NL : ~ In p log).
  { intros K. apply IG in K as (j & t & Ej & Bj). assert (Lj : j < length ts) by (apply nth_error_Some; congruence).
    destruct (nth_error gens j) as [gj|] eqn:Egj; [|apply nth_error_None in Egj; lia]. destruct (IT j gj Egj) as (q & Eq & Bq). rewrite Ej in Eq. injection Eq as ->. cbn [t_pos] in Bj.
    assert (j = i) by (apply (same_part p); lia). subst j. rewrite E in Ej. injection Ej as Ej. lia. }
  constructor; cbn [fst snd].
  - intros j gj Ej. destruct (Nat.eq_dec i j) as [<-|N].
    + rewrite Eg in Ej. injection Ej as <-. exists (S p). rewrite nth_error_replace_same by exact Li. split; [|lia]. f_equal. f_equal.
      replace (S p - Nat.min n (i * step)) with (S (p - Nat.min n (i * step))) by lia. rewrite after_S, D. reflexivity.
    + rewrite nth_error_replace_other by exact N. now apply IT.
  - now rewrite replace_length.
  - constructor; assumption.
  - intros k. split.
    + intros [<-|K].
      * exists i. eexists. rewrite nth_error_replace_same by exact Li. split; [reflexivity|]. cbn. lia.
      * apply IG in K as (j & t & Ej & Bj). destruct (Nat.eq_dec i j) as [<-|N].
        -- rewrite E in Ej. injection Ej as <-. exists i. eexists. rewrite nth_error_replace_same by exact Li. split; [reflexivity|]. cbn [t_pos] in *. lia.
        -- exists j, t. rewrite nth_error_replace_other by exact N. auto.
    + intros (j & t & Ej & Bj). destruct (Nat.eq_dec i j) as [<-|N].
      * rewrite nth_error_replace_same in Ej by exact Li. injection Ej as <-. cbn [t_pos] in Bj. destruct (Nat.eq_dec k p) as [->|Nk]; [now left|]. right. apply IG. exists i. eexists. split; [exact E|]. cbn. lia.
      * rewrite nth_error_replace_other in Ej by exact N. right. apply IG. eauto.
  - intros b ->. destruct (IM b eq_refl) as [M1 M2]. cbn [write]. split.
    + intros k j gj K Ej Bj. unfold update. destruct (Z.eqb_spec (b + Z.of_nat k) (b + Z.of_nat p)) as [X|X].
      * assert (k = p) by lia. subst k. assert (j = i) by (apply (same_part p); assumption). subst j. rewrite Eg in Ej. injection Ej as <-.
        unfold nth_draw. replace (p - i * step) with (p - Nat.min n (i * step)) by lia. now rewrite D.
      * destruct K as [<-|K]; [congruence|]. now apply M1.
    + intros a Ha. unfold update. destruct (Z.eqb_spec a (b + Z.of_nat p)) as [->|X]; [elim (Ha p); [now left|reflexivity]|]. apply M2. intros k K. apply Ha. now right.
  - intros l El. subst dst. cbn [write]. now apply (IC l).
Qed.
Lemma inv_run : forall m dst sched, Inv m dst (run draw dst m n gens sched).
Proof.
  intros m dst sched. unfold run. generalize (inv_start m dst). generalize (m, start n gens, @nil nat). induction sched as [|i sched IH]; intros st I; [exact I|]. cbn [fold_left]. apply IH. now apply inv_step.
Qed.
Lemma run_done : forall m dst sched, 0 < length gens -> finished (run draw dst m n gens sched) = true ->
  let '(m', ts, log) := run draw dst m n gens sched in
  Permutation log (seq 0 n) /\
  (forall b, dst = Window b -> (forall k g, k < n -> nth_error gens (k / step) = Some g -> m' (b + Z.of_nat k)%Z = nth_draw draw g (k mod step)) /\
     (forall a, (forall k, k < n -> (b + Z.of_nat k)%Z <> a) -> m' a = m a)) /\
  (forall l, dst = Copied l -> m' = m) /\
  (forall i g, nth_error gens i = Some g -> exists t, nth_error ts i = Some t /\ t_gen t = after draw g (Nat.min n ((i + 1) * step) - Nat.min n (i * step))).
Proof.
  intros m dst sched P F. pose proof (inv_run m dst sched) as I. destruct (run draw dst m n gens sched) as [[m' ts] log]. destruct I as [IT IL IN IG IM IC]. cbn [fst snd] in *.
  destruct (step_covers n (length gens) P) as [C _]. fold step in C. cbn [finished] in F. rewrite forallb_forall in F.
  assert (D : forall i g, nth_error gens i = Some g -> nth_error ts i = Some (mkthread (Nat.min n ((i + 1) * step)) (Nat.min n ((i + 1) * step)) (after draw g (Nat.min n ((i + 1) * step) - Nat.min n (i * step))))).
  { intros i g E. destruct (IT i g E) as (p & Ep & Bp). rewrite Ep. pose proof (F _ (nth_error_In _ _ Ep)) as Q. cbn in Q. apply Nat.leb_le in Q. f_equal. replace p with (Nat.min n ((i + 1) * step)) by lia. reflexivity. }
  assert (LG : forall k, In k log <-> k < n).
  { intros k. rewrite IG. split.
    - intros (i & t & Et & B). assert (L : i < length gens) by (rewrite <- IL; apply nth_error_Some; congruence). destruct (nth_error gens i) as [g|] eqn:E; [|apply nth_error_None in E; lia].
      rewrite (D i g E) in Et. injection Et as <-. cbn in B. lia.
    - intros K. assert (step <> 0) by (intros Z; rewrite Z in C; lia).
      assert (L : k / step < length gens) by (apply Nat.div_lt_upper_bound; lia). pose proof (Nat.div_mod k step ltac:(lia)) as Q. pose proof (Nat.mod_upper_bound k step ltac:(lia)) as U.
      destruct (nth_error gens (k / step)) as [g|] eqn:E; [|apply nth_error_None in E; lia]. exists (k / step). eexists. split; [apply (D _ g E)|]. cbn [t_pos]. nia. }
  split; [apply NoDup_Permutation; [exact IN|apply seq_NoDup|]; intros k; rewrite LG, in_seq; lia|]. split; [|split; [exact IC|]].
  - intros b ->. destruct (IM b eq_refl) as [M1 M2]. split.
    + intros k g K E. assert (step <> 0) by (intros Z; rewrite Z in C; lia). pose proof (Nat.div_mod k step ltac:(lia)) as Q. pose proof (Nat.mod_upper_bound k step ltac:(lia)) as U.
      rewrite (M1 k (k / step) g); [|now apply LG|exact E|nia]. f_equal. nia.
    + intros a Ha. apply M2. intros k K. apply Ha. now apply LG.
  - intros i g E. eexists. split; [apply (D i g E)|reflexivity].
Qed.
End Fill.

(** * Arguments *)
From Verif Require Import MemProofs2.
Lemma dget_del : forall V k k' (l : list (str * V)), dget k (ddel k' l) = if seqb k k' then None else dget k l.
Proof.
  intros V k k' l. induction l as [|[x v] l IH]; cbn [ddel dget]; [destruct (seqb k k'); reflexivity|].
  destruct (seqb k' x) eqn:E.
  - apply seqb_eq in E. subst x. rewrite IH. destruct (seqb k k'); reflexivity.
  - cbn [dget]. rewrite IH. destruct (seqb k k') eqn:F; [|reflexivity]. apply seqb_eq in F. subst k. now rewrite E.
Qed.
Lemma dget_put : forall V k k' v (l : list (str * V)), dget k (dput k' v l) = if seqb k k' then Some v else dget k l.
Proof.
  intros V k k' v l. induction l as [|[x w] l IH]; cbn [dput dget]; [reflexivity|]. destruct (seqb k' x) eqn:E; cbn [dget].
  - apply seqb_eq in E. subst x. destruct (seqb k k'); reflexivity.
  - rewrite IH. destruct (seqb k k') eqn:F; [|reflexivity]. apply seqb_eq in F. subst k. now rewrite E.
Qed.
Lemma dispatch_parallel : forall s args kw a k shape dt out, dispatch s args kw = Parallel a k shape dt out ->
  a = firstn (nparam s) args /\ 1000 <= count shape /\ forallb isscalar a = true /\
  (forall p, p <> s_ "size" -> p <> s_ "dtype" -> p <> s_ "out" -> dget p k = dget p kw) /\
  (dget (s_ "size") k = match nth_error args (nparam s) with Some _ => dget (s_ "size") kw | None => None end) /\
  (dget (s_ "out") k = if has_out s then None else dget (s_ "out") kw) /\
  (dget (s_ "dtype") k = if has_dtype s then Some dt else dget (s_ "dtype") kw) /\
  match has_out s, dget (s_ "out") kw with
  | true, Some v => exists w d, v = VArray w d /\ out = Some (w, d) /\ shape = v_shape w
  | _, _ => out = None /\ exists v, shape_of v = Some shape /\ (nth_error args (nparam s) = Some v \/ nth_error args (nparam s) = None /\ dget (s_ "size") kw = Some v)
  end /\
  (has_dtype s = true -> nth_error args (S (nparam s)) = Some dt \/ nth_error args (S (nparam s)) = None /\ (dget (s_ "dtype") kw = Some dt \/ dget (s_ "dtype") kw = None /\ dt = VDtype (defdtype s))) /\
  (has_dtype s = false -> dt = VDtype (defdtype s)).
Proof.
  intros s args kw a k shape dt out H. unfold dispatch in H.
  assert (Q : exists size kw1, (match nth_error args (nparam s) with
                         | Some v => (v, kw)
                         | None => match dget (s_ "size") kw with Some v => (v, ddel (s_ "size") kw) | None => (VNone, kw) end
                         end) = (size, kw1) /\ dget (s_ "size") kw1 = match nth_error args (nparam s) with Some _ => dget (s_ "size") kw | None => None end /\
      (forall p, p <> s_ "size" -> dget p kw1 = dget p kw) /\
      (forall sh, shape_of size = Some sh -> (nth_error args (nparam s) = Some size \/ nth_error args (nparam s) = None /\ dget (s_ "size") kw = Some size))).
  { destruct (nth_error args (nparam s)) as [v|].
    - exists v, kw. repeat split; auto.
    - destruct (dget (s_ "size") kw) as [v|] eqn:E.
      + exists v, (ddel (s_ "size") kw). rewrite dget_del, seqb_refl. split; [reflexivity|]. split; [reflexivity|]. split; [|auto]. intros p N. rewrite dget_del. now rewrite (proj2 (seqb_neq p _) N).
      + exists VNone, kw. repeat split; auto. intros sh K. discriminate. }
  destruct Q as (size & kw1 & Q1 & Q2 & Q3 & Q4). rewrite Q1 in H. clear Q1.
  set (kw2 := if has_out s then ddel (s_ "out") kw1 else kw1) in H.
  assert (K2 : forall p, dget p kw2 = if has_out s && seqb p (s_ "out") then None else dget p kw1).
  { intros p. unfold kw2. destruct (has_out s); [rewrite dget_del; reflexivity|reflexivity]. }
  clearbody kw2.
  assert (OUT : dget (s_ "out") kw1 = dget (s_ "out") kw) by (apply Q3; discriminate). rewrite OUT in H.
  set (o := if has_out s then dget (s_ "out") kw else None) in H.
  assert (QO : exists sh out1, (match o with Some (VArray v d) => (Some (v_shape v), Some (v, d)) | _ => (shape_of size, None) end) = (sh, out1) /\
      (sh = Some shape -> out1 = out -> match has_out s, dget (s_ "out") kw with
  | true, Some v => (exists w d, v = VArray w d /\ out = Some (w, d) /\ shape = v_shape w) \/ match v with VArray _ _ => False | _ => True end
  | _, _ => out = None /\ shape_of size = Some shape end)).
  { destruct o as [v|] eqn:Eo.
    - unfold o in Eo. destruct (has_out s); [|discriminate]. rewrite Eo. destruct v; try (exists (shape_of size), None; split; [reflexivity|]; intros; right; exact I).
      eexists. eexists. split; [reflexivity|]. intros A B. left. injection A as <-. subst out. eauto.
    - exists (shape_of size), None. split; [reflexivity|]. intros A B. unfold o in Eo. destruct (has_out s); [rewrite Eo|]; auto. }
  destruct QO as (sh & out1 & QO1 & QO2). rewrite QO1 in H.
  assert (QD : exists dt1 kw3, (if has_dtype s then match nth_error args (S (nparam s)) with
                                               | Some v => (v, kw2)
                                               | None => match dget (s_ "dtype") kw2 with Some v => (v, ddel (s_ "dtype") kw2) | None => (VDtype (defdtype s), kw2) end
                                               end
                           else (VDtype (defdtype s), kw2)) = (dt1, kw3) /\ (forall p, p <> s_ "dtype" -> dget p kw3 = dget p kw2) /\ (has_dtype s = false -> kw3 = kw2 /\ dt1 = VDtype (defdtype s)) /\
     (has_dtype s = true -> nth_error args (S (nparam s)) = Some dt1 \/ nth_error args (S (nparam s)) = None /\ (dget (s_ "dtype") kw2 = Some dt1 \/ dget (s_ "dtype") kw2 = None /\ dt1 = VDtype (defdtype s)))).
  { destruct (has_dtype s).
    - destruct (nth_error args (S (nparam s))) as [v|]; [exists v, kw2; repeat split; auto; discriminate|]. destruct (dget (s_ "dtype") kw2) as [v|] eqn:E.
      + exists v, (ddel (s_ "dtype") kw2). split; [reflexivity|]. split; [intros p N; rewrite dget_del; now rewrite (proj2 (seqb_neq p _) N)|]. split; [discriminate|]. auto.
      + exists (VDtype (defdtype s)), kw2. repeat split; auto; discriminate.
    - exists (VDtype (defdtype s)), kw2. repeat split; auto. discriminate. }
  destruct QD as (dt1 & kw3 & QD1 & QD2 & QD3 & QD4). rewrite QD1 in H. clear QD1.
  assert (H' : match sh with None => Direct args kw | Some shape => if negb (forallb isscalar (firstn (nparam s) args) && forallb (fun kv => isscalar (snd kv)) kw3) then Direct args kw
          else if count shape <? parallel_threshold then Direct args kw
          else Parallel (firstn (nparam s) args) (if has_dtype s then dput (s_ "dtype") dt1 kw3 else kw3) shape dt1 out1 end = Parallel a k shape dt out /\ match o with Some (VArray _ _) | None => True | _ => False end).
  { destruct o as [[]|]; try discriminate; auto. }
  clear H. destruct H' as [H OV]. destruct sh as [shp|]; [|discriminate]. destruct (forallb isscalar (firstn (nparam s) args) && _) eqn:AS; cbn [negb] in H; [|discriminate].
  apply andb_true_iff in AS as [AS _].
  destruct (count shp <? parallel_threshold) eqn:L; [discriminate|]. apply Nat.ltb_ge in L. 
  assert (EQ : firstn (nparam s) args = a /\ (if has_dtype s then dput (s_ "dtype") dt1 kw3 else kw3) = k /\ shp = shape /\ dt1 = dt /\ out1 = out) by (injection H; auto). clear H. destruct EQ as (<- & <- & -> & -> & ->).
  split; [reflexivity|]. split; [exact L|]. split; [exact AS|].
  assert (KK : forall p, p <> s_ "dtype" -> dget p (if has_dtype s then dput (s_ "dtype") dt kw3 else kw3) = dget p kw2).
  { intros p N. rewrite <- (QD2 p N). destruct (has_dtype s); [|reflexivity]. rewrite dget_put. now rewrite (proj2 (seqb_neq p _) N). }
  split; [|split; [|split; [|split; [|split; [|split]]]]].
  - intros p N1 N2 N3. rewrite (KK p N2), K2, (proj2 (seqb_neq p _) N3), andb_false_r. now apply Q3.
  - rewrite KK by discriminate. rewrite K2. change (seqb (s_ "size") (s_ "out")) with false. rewrite andb_false_r. exact Q2.
  - rewrite KK by discriminate. rewrite K2, seqb_refl, andb_true_r. destruct (has_out s); [reflexivity|exact OUT].
  - destruct (has_dtype s) eqn:HD; [now rewrite dget_put, seqb_refl|]. destruct (QD3 eq_refl) as [-> _]. rewrite K2. change (seqb (s_ "dtype") (s_ "out")) with false. rewrite andb_false_r. apply Q3. discriminate.
  - specialize (QO2 eq_refl eq_refl). unfold o in OV. destruct (has_out s).
    + destruct (dget (s_ "out") kw) as [v|]; [destruct QO2 as [QO2|QO2]; [exact QO2|destruct v; contradiction]|]. destruct QO2 as [-> S]. split; [reflexivity|]. exists size. split; [exact S|]. apply (Q4 shape S).
    + destruct QO2 as [-> S]. split; [reflexivity|]. exists size. split; [exact S|]. apply (Q4 shape S).
  - intros HD. specialize (QD4 HD). assert (E : dget (s_ "dtype") kw2 = dget (s_ "dtype") kw).
    { rewrite K2. change (seqb (s_ "dtype") (s_ "out")) with false. rewrite andb_false_r. apply Q3. discriminate. }
    rewrite <- E. exact QD4.
  - intros HD. apply (QD3 HD).
Qed.
