(** The truncation task, C145-C148. *)
From Coq Require Import String.
From Coq Require Import List Bool Reals Arith Lia Lra.
From Verif Require Import PyBase PyStr TtModel TtSpec.
Import ListNotations.
Open Scope list_scope.
Open Scope R_scope.

Lemma mem_In a l : mem a l = true <-> In a l.
Proof.
  unfold mem. rewrite existsb_exists. split.
  - intros (x & I & E). apply seqb_eq in E. now subst.
  - intros I. exists a. split; [assumption|]. now apply seqb_eq.
Qed.
Lemma mem_not a l : ~ In a l -> mem a l = false.
Proof. intros N. destruct (mem a l) eqn:E; [|reflexivity]. apply mem_In in E. contradiction. Qed.
Lemma expand_project das was : forall dsh, length dsh = length das ->
  exists l, expand das was (project das was dsh) = Ok l /\ length l = length das /\ fits (map fst l) dsh = true /\
    forall k, index_in dsh k -> pick l k = project das was k.
Proof.
  induction das as [|a das IH]; intros dsh L.
  - destruct dsh; [|discriminate]. exists []. repeat split.
  - destruct dsh as [|n dsh]; [discriminate|]. injection L as L. destruct (IH dsh L) as (l & E & Ll & F & P).
    cbn [project expand]. destruct (mem a was) eqn:M.
    + rewrite E. cbn [rbind]. exists ((n, false) :: l). split; [reflexivity|]. cbn. split; [congruence|]. split.
      * rewrite Nat.eqb_refl. exact F.
      * intros k K. inversion K as [|i ? k' ? I K']; subst. rewrite P by assumption.
        f_equal. destruct (n =? 1)%nat eqn:E1; [apply Nat.eqb_eq in E1; lia|reflexivity].
    + rewrite E. cbn [rbind]. exists ((1%nat, true) :: l). split; [reflexivity|]. cbn. split; [congruence|]. split.
      * rewrite F. destruct n as [|[|n]]; reflexivity.
      * intros k K. inversion K as [|i ? k' ? I K']; subst. now rewrite P by assumption.
Qed.
Lemma subseq_In s t a : subseq s t -> In a s -> In a t.
Proof. induction 1; cbn; intros I; auto. destruct I; auto. Qed.
Lemma project_cons_in das a s (k : list nat) : ~ In a das -> project das (a :: s) k = project das s k.
Proof.
  revert k; induction das as [|b das IH]; intros k N; [reflexivity|]. destruct k as [|i k]; [reflexivity|]. cbn [project].
  assert (E: mem b (a :: s) = mem b s).
  { unfold mem. cbn. destruct (seqb b a) eqn:Q; [|reflexivity]. apply seqb_eq in Q. subst. exfalso. apply N. now left. }
  rewrite E, IH by (intros I; apply N; now right). reflexivity.
Qed.
Lemma by_name_cons a das s i k : ~ In a s -> by_name (a :: das) s (i :: k) = by_name das s k.
Proof.
  intros N. unfold by_name. apply map_ext_in. intros b I. cbn [place].
  destruct (seqb b a) eqn:E; [apply seqb_eq in E; subst; contradiction|reflexivity].
Qed.
Lemma seqb_refl_ a : seqb a a = true.
Proof. now apply seqb_eq. Qed.
Lemma project_name das was (k : list nat) : subseq was das -> NoDup das -> length k = length das ->
  project das was k = by_name das was k.
Proof.
  intros H; revert k; induction H as [|a s t H IH|a s t H IH]; intros k N L.
  - destruct k; reflexivity.
  - apply NoDup_cons_iff in N as [N1 N2]. destruct k as [|i k]; [discriminate|]. injection L as L.
    assert (Na: ~ In a s) by (intros I; apply N1; now apply (subseq_In s)).
    cbn [project]. rewrite mem_not by assumption. rewrite by_name_cons by assumption. now apply IH.
  - apply NoDup_cons_iff in N as [N1 N2]. destruct k as [|i k]; [discriminate|]. injection L as L.
    assert (Na: ~ In a s) by (intros I; apply N1; now apply (subseq_In s)).
    cbn [project]. replace (mem a (a :: s)) with true by (symmetry; apply mem_In; now left).
    rewrite project_cons_in by assumption. rewrite IH by assumption.
    change (by_name (a :: t) (a :: s) (i :: k)) with (nth (place a (a :: t)) (i :: k) 0%nat :: by_name (a :: t) s (i :: k)).
    rewrite by_name_cons by assumption. cbn [place]. rewrite seqb_refl_. reflexivity.
Qed.
Lemma index_in_len sh k : index_in sh k -> length k = length sh.
Proof. induction 1; cbn; auto. Qed.

(** C145 *)
Theorem C145_weights : forall das dsh cplx (w : dataset R),
  NoDup das -> length dsh = length das -> subseq (daxes w) das -> dshape w = by_name das (daxes w) dsh ->
  exists f, get_weights das dsh cplx w = Ok f /\
    forall k, index_in dsh k -> f k = dval w (by_name das (daxes w) k) * (if cplx then 2 else 1).
Proof.
  intros das dsh cplx w N L S E. unfold get_weights.
  rewrite E, <- project_name by assumption.
  destruct (expand_project das (daxes w) dsh L) as (l & -> & Ll & F & P). cbn [rbind].
  assert (B: broadcasts (map fst l) dsh = true).
  { unfold broadcasts. rewrite map_length, Ll, L, Nat.leb_refl, Nat.sub_diag. exact F. }
  rewrite B. eexists. split; [reflexivity|]. intros k K. cbv beta zeta.
  rewrite Ll, L, Nat.sub_diag. cbn [skipn]. rewrite P, project_name by (try assumption; rewrite (index_in_len _ _ K); assumption).
  destruct cplx; lra.
Qed.
Print Assumptions C145_weights.
Definition sq : dataset R :=
  {| daxes := [s_ "b"; s_ "a"]; dshape := [2%nat; 2%nat]; dval := fun k => match k with [0%nat; 1%nat] => 5 | _ => 1 end |}.
(** The same axes in another order: the weights are taken from the transposed array. *)
Theorem C148_order_refuted : exists das dsh (w : dataset R) f k,
  NoDup das /\ (forall a, In a das <-> In a (daxes w)) /\ dshape w = by_name das (daxes w) dsh /\
  get_weights das dsh false w = Ok f /\ index_in dsh k /\ f k <> dval w (by_name das (daxes w) k).
Proof.
  exists [s_ "a"; s_ "b"], [2%nat; 2%nat], sq. eexists. exists [0%nat; 1%nat].
  split; [repeat constructor; cbn; intuition discriminate|]. split; [cbn; tauto|].
  split; [reflexivity|]. split; [reflexivity|]. split; [repeat constructor|]. cbn. lra.
Qed.
Print Assumptions C148_order_refuted.
(** An axis which the data do not have: an error, not a sum or a mean. *)
Theorem C145_other_axis : forall das dsh cplx (w : dataset R),
  (forall a, In a das -> ~ In a (daxes w)) -> length dsh = length das -> dshape w <> [] ->
  get_weights das dsh cplx w = Err ValueError.
Proof.
  intros das dsh cplx w H L N. unfold get_weights.
  assert (E: expand das (daxes w) (dshape w) = Ok (repeat (1%nat, true) (length das) ++ map (fun n => (n, false)) (dshape w))).
  { clear L. induction das as [|a das IH]; [reflexivity|]. cbn [expand].
    rewrite mem_not by (apply H; now left). rewrite IH by (intros b I; apply H; now right). reflexivity. }
  rewrite E. cbn [rbind]. unfold broadcasts. rewrite map_length, app_length, repeat_length, map_length, L.
  destruct (Nat.leb_spec (length das + length (dshape w)) (length das)) as [Q|Q]; [|reflexivity].
  destruct (dshape w); [contradiction|cbn in Q; lia].
Qed.
Print Assumptions C145_other_axis.
Example C145_example : exists f, get_weights [s_ "freq"; s_ "pol"; s_ "ra"] [2%nat; 3%nat; 4%nat] true
    {| daxes := [s_ "freq"; s_ "ra"]; dshape := [2%nat; 4%nat]; dval := fun k => match k with [1%nat; 3%nat] => 7 | _ => 0 end |} = Ok f /\
  f [1%nat; 2%nat; 3%nat] = 14 /\ f [1%nat; 2%nat; 0%nat] = 0.
Proof. eexists. split; [reflexivity|]. cbn. split; lra. Qed.

(** C146 *)
Definition std : params := {| weight_dataset := None; fixed_precision := 1 / 10000; variance_increase := Some (3 / 1000) |}.
Lemma std_eq : times3 default_params = std.
Proof. unfold times3, std. cbn. f_equal. f_equal. lra. Qed.
(** What a value means, whether from the settings or from the specification *)
Definition meaning (g : given) (p : option params) : Prop :=
  match g with
  | GBool true => p = Some std
  | GBool false => p = None
  | GNone => p = None
  | GInt zero => p = if zero then None else Some std
  | GStr s => p = match s with [] => None | _ => Some std end
  | GFloat r => exists q, p = Some q /\ weight_dataset q = None /\ fixed_precision q = r
  | GDict wd fp vi => exists q, p = Some q /\
      (forall n, wd = Some n -> weight_dataset q = n) /\ (wd = None -> weight_dataset q = None) /\
      (forall r, fp = Some r -> fixed_precision q = r) /\ (fp = None -> fixed_precision q = 1 / 10000) /\
      (forall v, vi = Some (Some v) -> variance_increase q = Some (3 * v)) /\
      (vi = Some None -> variance_increase q = None) /\
      (vi = None -> variance_increase q = Some (3 / 1000))
  end.
Lemma parse_meaning g : meaning g (match parse g with Some p => Some (times3 p) | None => None end).
Proof.
  destruct g as [[|]| |[|]|r|[|c s]|wd fp vi]; cbn; rewrite ?std_eq; try reflexivity.
  - eexists. split; [reflexivity|]. cbn. auto.
  - eexists. split; [reflexivity|]. cbn. repeat split.
    + now intros n ->.
    + now intros ->.
    + now intros r ->.
    + now intros ->.
    + intros v ->. cbn. f_equal. lra.
    + now intros ->.
    + intros ->. cbn. f_equal. lra.
Qed.
Theorem C146_config : forall conf spec dset e, find (fun e => seqb (fst e) dset) conf = Some e ->
  meaning (snd e) (get_params (Some conf) spec dset).
Proof. intros conf spec dset e H. unfold get_params. rewrite H. apply parse_meaning. Qed.
Print Assumptions C146_config.
(** What Python takes to be true. *)
Definition true_value (g : given) : Prop :=
  match g with
  | GBool b => b = true
  | GNone => False
  | GInt zero => zero = false
  | GFloat r => r <> 0
  | GStr s => s <> []
  | GDict wd fp vi => wd <> None \/ fp <> None \/ vi <> None
  end.
Lemma truthy_true g : if truthy g then true_value g else ~ true_value g.
Proof.
  destruct g as [[|]| |[|]|r|[|c s]|[w|] [f|] [v|]]; cbn; auto; try discriminate; try tauto.
  - unfold iszero. destruct (Req_EM_T r 0); cbn; tauto.
  - left. discriminate.
  - left. discriminate.
  - left. discriminate.
  - left. discriminate.
  - right. left. discriminate.
  - right. left. discriminate.
  - right. right. discriminate.
Qed.
Theorem C146_preset : forall conf spec dset,
  match conf with None => True | Some c => find (fun e => seqb (fst e) dset) c = None end ->
  match spec with
  | None => get_params conf spec dset = None
  | Some g => (true_value g -> meaning g (get_params conf spec dset)) /\
              (~ true_value g -> get_params conf spec dset = None)
  end.
Proof.
  intros conf spec dset H. unfold get_params.
  assert (E: match conf with Some d => match find (fun e => seqb (fst e) dset) d with Some e => Some (snd e) | None => None end | None => None end = @None given)
    by (destruct conf; [now rewrite H|reflexivity]).
  rewrite E. destruct spec as [g|]; [|reflexivity]. pose proof (truthy_true g) as B. destruct (truthy g); split; intros T; try contradiction; [apply parse_meaning|reflexivity].
Qed.
Print Assumptions C146_preset.
(** A text (a YAML file's [1e-2] is one) is not refused, and not used as the precision either. *)
Theorem C148_text_refuted : exists conf p, get_params (Some conf) None (s_ "vis") = Some p /\
  In (s_ "vis", GStr (s_ "1e-2")) conf /\ fixed_precision p = 1 / 10000.
Proof. exists [(s_ "vis", GStr (s_ "1e-2"))]. eexists. split; [reflexivity|]. split; [now left|reflexivity]. Qed.
Print Assumptions C148_text_refuted.
Example C146_example : exists p, get_params (Some [(s_ "vis", GDict (Some (Some (s_ "w"))) None None)]) (Some (GBool false)) (s_ "vis") = Some p /\
  weight_dataset p = Some (s_ "w") /\ variance_increase p = Some (1 / 1000 * 3).
Proof. eexists. split; [reflexivity|]. split; reflexivity. Qed.

(** C147 *)
Lemma sqrt_tol w : 0 < w -> (1 / sqrt w) * (1 / sqrt w) = / w.
Proof.
  intros P. pose proof (sqrt_lt_R0 w P). rewrite <- (sqrt_sqrt w) at 3 by lra. field. lra.
Qed.
Lemma abs_sq x e : Rabs x <= e -> x * x <= e * e.
Proof.
  intros H. pose proof (Rsqr_le_abs_1 x e) as Q. unfold Rsqr in Q. apply Q.
  eapply Rle_trans; [exact H|apply Rle_abs].
Qed.
Lemma tol_pos w : 0 < w -> 0 <= 1 / sqrt w.
Proof. intros P. pose proof (sqrt_lt_R0 w P). left. apply Rdiv_lt_0_compat; lra. Qed.
Theorem C147_weighted : forall trunc, truncates trunc ->
  forall p das dsh (w : dataset R) n vi, weight_dataset p = Some n -> variance_increase p = Some (3 * vi) -> 0 < vi ->
  NoDup das -> length dsh = length das -> subseq (daxes w) das -> dshape w = by_name das (daxes w) dsh ->
  exists f, truncated trunc p das dsh false w = Ok f /\
    forall k v, index_in dsh k -> let wt := dval w (by_name das (daxes w) k) in
      (0 < wt -> (f k v - v) * (f k v - v) <= 3 * vi / wt) /\
      (wt = 0 -> 0 <= fixed_precision p -> 0 <= v -> Rabs (f k v - v) <= fixed_precision p * v).
Proof.
  intros trunc T p das dsh w n vi Hn Hv Pv N L S E. unfold truncated. rewrite Hn, Hv.
  destruct (C145_weights das dsh false w N L S E) as (g & -> & G). cbn [rbind].
  eexists. split; [reflexivity|]. intros k v K. set (wt := dval w (by_name das (daxes w) k)). cbv beta. rewrite G by assumption. fold wt. unfold weighted, iszero.
  split; [intros W|intros W F V].
  - assert (Q: 0 < wt * 1 / (3 * vi)) by (apply Rdiv_lt_0_compat; lra).
    destruct (Req_EM_T (wt * 1 / (3 * vi)) 0) as [Z|_]; [lra|].
    eapply Rle_trans; [apply abs_sq, T, tol_pos; assumption|]. rewrite sqrt_tol by assumption.
    apply Req_le. field. lra.
  - rewrite W. destruct (Req_EM_T (0 * 1 / (3 * vi)) 0) as [_|Z]; [apply T; now apply Rmult_le_pos|]. exfalso. apply Z. unfold Rdiv. ring.
Qed.
Print Assumptions C147_weighted.
Theorem C147_complex : forall trunc, truncates trunc ->
  forall p das dsh (w : dataset R) n vi, weight_dataset p = Some n -> variance_increase p = Some (3 * vi) -> 0 < vi ->
  NoDup das -> length dsh = length das -> subseq (daxes w) das -> dshape w = by_name das (daxes w) dsh ->
  exists f, truncated trunc p das dsh true w = Ok f /\
    forall k re im, index_in dsh k -> let wt := dval w (by_name das (daxes w) k) in
      0 < wt -> (f k re - re) * (f k re - re) + (f k im - im) * (f k im - im) <= 3 * vi / wt.
Proof.
  intros trunc T p das dsh w n vi Hn Hv Pv N L S E. unfold truncated. rewrite Hn, Hv.
  destruct (C145_weights das dsh true w N L S E) as (g & -> & G). cbn [rbind].
  eexists. split; [reflexivity|]. intros k re im K. set (wt := dval w (by_name das (daxes w) k)). intros W. cbv beta. rewrite G by assumption. fold wt. unfold weighted, iszero.
  assert (Q: 0 < wt * 2 / (3 * vi)) by (apply Rdiv_lt_0_compat; lra).
  destruct (Req_EM_T (wt * 2 / (3 * vi)) 0) as [Z|_]; [lra|].
  assert (A: forall v, (trunc v (1 / sqrt (wt * 2 / (3 * vi))) - v) * (trunc v (1 / sqrt (wt * 2 / (3 * vi))) - v) <= 3 * vi / (2 * wt)).
  { intros v. eapply Rle_trans; [apply abs_sq, T, tol_pos; assumption|]. rewrite sqrt_tol by assumption. apply Req_le. field. lra. }
  replace (3 * vi / wt) with (3 * vi / (2 * wt) + 3 * vi / (2 * wt)) by (field; lra).
  apply Rplus_le_compat; apply A.
Qed.
Print Assumptions C147_complex.
Theorem C147_fixed : forall trunc, truncates trunc ->
  forall p das dsh cplx w, weight_dataset p = None ->
  exists f, truncated trunc p das dsh cplx w = Ok f /\ forall k v, Rabs (f k v - v) <= Rabs (fixed_precision p) * Rabs v.
Proof.
  intros trunc T p das dsh cplx w H. unfold truncated. rewrite H. eexists. split; [reflexivity|]. intros k v.
  unfold relative. eapply Rle_trans; [apply T, Rabs_pos|]. rewrite Rabs_mult. apply Rle_refl.
Qed.
Print Assumptions C147_fixed.
Definition floor1 (v e : R) : R := if Req_EM_T (Rabs e) 1 then v + e else v.
Lemma floor1_ok : truncates floor1.
Proof.
  intros v e P. unfold floor1. destruct (Req_EM_T (Rabs e) 1).
  - replace (v + e - v) with e by ring. rewrite Rabs_pos_eq by assumption. apply Rle_refl.
  - replace (v - v) with 0 by ring. now rewrite Rabs_R0.
Qed.
(** The bound is reached. *)
Example C147_example : exists f,
  truncated floor1 {| weight_dataset := Some (s_ "w"); fixed_precision := 0; variance_increase := Some (3 * 2) |}
    [s_ "a"] [1%nat] false {| daxes := [s_ "a"]; dshape := [1%nat]; dval := fun _ => 6 |} = Ok f /\
  (f [0%nat] 4 - 4) * (f [0%nat] 4 - 4) = 3 * 2 / 6.
Proof.
  eexists. split; [reflexivity|]. cbn. unfold weighted, iszero.
  replace (6 / (3 * 2)) with 1 by field. destruct (Req_EM_T 1 0); [lra|]. rewrite sqrt_1.
  unfold floor1. replace (1 / 1) with 1 by field. rewrite Rabs_R1. destruct (Req_EM_T 1 1); [|contradiction]. lra.
Qed.

(** C148 *)
Theorem C146_chosen : forall conf cls names present d p,
  In (d, p) (chosen conf cls names present) <->
  In d names /\ In d present /\ get_params conf (entry cls d) d = Some p.
Proof.
  intros. unfold chosen. rewrite in_flat_map. split.
  - intros (x & I & H). destruct (get_params conf (entry cls x) x) as [q|] eqn:G; [|destruct H].
    destruct (mem x present) eqn:M; [|destruct H]. destruct H as [H|[]]. injection H as <- <-.
    apply mem_In in M. auto.
  - intros (I & P & G). exists d. split; [assumption|]. rewrite G. apply mem_In in P. rewrite P. now left.
Qed.
Print Assumptions C146_chosen.
(** A preset of the container itself (not of its class) is not looked at. *)
Theorem C148_instance_refuted : exists cls inst names,
  entry inst (s_ "vis") = Some (GBool true) /\ In (s_ "vis") names /\
  ~ (exists p, In (s_ "vis", p) (chosen None cls names names)).
Proof.
  exists [], [(s_ "vis", Some (GBool true))], [s_ "vis"]. split; [reflexivity|]. split; [now left|].
  intros (p & I). apply C146_chosen in I as (_ & _ & G). discriminate.
Qed.
Print Assumptions C148_instance_refuted.
Example C148_example : chosen (Some [(s_ "w", GBool false)]) [(s_ "vis", Some (GBool true)); (s_ "w", Some (GBool true)); (s_ "x", None)]
  [s_ "vis"; s_ "w"; s_ "x"] [s_ "vis"; s_ "w"; s_ "x"] = [(s_ "vis", times3 default_params)].
Proof. reflexivity. Qed.
