(** Ufunc calls, with and without arrays to write to. *)
From Coq Require Import List Arith ZArith Bool Lia.
From Verif Require Import PyBase PartSpec PartModel PartProofs SliceModel RedModel RedSpec RedProofs AxModel AxSpec AxProofs AxProofs2 DuModel DuSpec DuProofs DuProofs2.
Import ListNotations.
Open Scope nat_scope.

Lemma rsequence_ok : forall X Y (f : X -> res Y) (g : X -> Y) l, (forall x, In x l -> f x = Ok (g x)) ->
  rsequence (map f l) = Ok (map g l).
Proof.
  induction l as [|x l IH]; intros H; [reflexivity|]. cbn [map rsequence]. rewrite (H x) by now left.
  rewrite IH; [reflexivity|]. intros; apply H; now right.
Qed.
Lemma shape_eqb_iff : forall a b, shape_eqb a b = true <-> a = b.
Proof. intros a b. unfold shape_eqb. destruct (list_eq_dec Nat.eq_dec a b); split; auto; discriminate. Qed.

Section WithA.
Context {A : Type}.

Definition mkpart (c : comm) (k : nat) (gsh : list nat) (a : nd A) : darr A :=
  mkdarr (Z.of_nat k) gsh (shp a) (set_nth k (start c (nth k gsh 0)) (repeat 0 (length gsh))) (Some c) a.
Lemma mkpart_part : forall c k G a, Share c k G a -> Part c k G (mkpart c k (shp G) a).
Proof. intros c k G a H. split; [exact H|]. repeat split. Qed.

Lemma as_vector_id : forall a : nd A, shp a <> [] -> as_vector a = a.
Proof. intros a H. unfold as_vector. destruct (shp a) eqn:E; [congruence|reflexivity]. Qed.

Lemma broadcast_app_same : forall shapes outs sh, (forall o, In o outs -> o = sh) ->
  Broadcast shapes sh -> Broadcast (shapes ++ outs) sh.
Proof.
  intros shapes outs sh Ho (B1 & B2 & B3). split; [|split].
  - intros s Hs. apply in_app_or in Hs. destruct Hs as [Hs|Hs]; [auto|]. rewrite (Ho _ Hs). lia.
  - destruct B2 as [B2|(s & Hs & B2)]; [now left|]. right. exists s. split; [apply in_or_app; now left|exact B2].
  - intros j n Hn. destruct (B3 _ _ Hn) as [C1 C2]. split.
    + intros s d Hs Hd. apply in_app_or in Hs. destruct Hs as [Hs|Hs]; [eauto|].
      rewrite (Ho _ Hs), Hn in Hd. injection Hd as <-. now right.
    + destruct C2 as [C2|(s & Hs & C2)]; [now left|]. right. exists s. split; [apply in_or_app; now left|exact C2].
Qed.

Definition plain_call (kw : kwargs A) : Prop := k_where kw <> Some WOther.

Lemma ufunc_head : forall u m (inputs : list (input A)) kw c p, m <> MOther -> plain_call kw ->
  common_comm None inputs = Ok (Some c) -> validate m inputs kw = Ok p ->
  array_ufunc u m inputs kw =
  let '(new_dist_axis, global_length, offset) := p in
  match k_out kw with
  | Some l =>
      rbind (dist_outs l) (fun outs =>
      rbind (rsequence (map (check_out new_dist_axis global_length offset c) outs)) (fun _ =>
      rbind (numpy_ufunc u m inputs kw (Some (map d_data outs))) (fun results =>
      Ok (map (fun '(r, d) => set_data d r) (combine results outs)))))
  | None =>
      rbind (numpy_ufunc u m inputs kw None) (fun results =>
      rsequence (map (fun r => view_from_data_and_params (as_vector r) new_dist_axis global_length offset (Some c))
                     results))
  end.
Proof.
  intros u m inputs kw c [[a b] o] Hm Hw E1 E2. unfold array_ufunc. rewrite E1. cbn [rbind]. rewrite E2. cbn [rbind].
  destruct m; try congruence; unfold plain_call in Hw; destruct (k_where kw) as [[]|]; try congruence; reflexivity.
Qed.

Section Call.
Variables (c : comm) (j n : nat) (inputs : list (input A)) (Gs : list (nd A)) (u : ufunc A) (kw : kwargs A).
Hypothesis Hc : c_rank c < c_size c.
Hypothesis SF : Forall2 (StandsFor c j n) inputs Gs.
Hypothesis HD : exists d, In (InDist d) inputs.
Hypothesis HW : plain_call kw.

Lemma call_numpy : forall sh outs, Broadcast (map shp Gs) sh ->
  (forall o, In o outs -> shp o = set_nth (length sh - S j) (part c n) sh) ->
  np_call u (map local_of inputs) (Some outs) = Ok (map (apply_on u (map local_of inputs) (set_nth (length sh - S j) (part c n) sh)) (seq 0 (u_nout u))).
Proof.
  intros sh outs B Ho. unfold np_call.
  assert (E : bshape (map shp (map local_of inputs ++ outs)) = Some (set_nth (length sh - S j) (part c n) sh)).
  { apply bshape_iff. rewrite map_app. apply broadcast_app_same.
    - intros o Hin. apply in_map_iff in Hin. destruct Hin as (a & <- & Ha). auto.
    - exact (broadcast_local c j n inputs Gs Hc SF HD sh B). }
  rewrite E. rewrite (proj2 (forallb_forall _ _)); [reflexivity|].
  intros o Hin. apply shape_eqb_iff. auto.
Qed.

Lemma call_ok : forall sh, k_out kw = None -> Broadcast (map shp Gs) sh ->
  exists ds, array_ufunc u MCall inputs kw = Ok ds /\ length ds = u_nout u /\
  forall i R, i < u_nout u -> Elementwise (u_elem u i) Gs R ->
    exists d, nth_error ds i = Some d /\ Part c (length (shp R) - S j) R d.
Proof.
  intros sh HO B. pose proof (result_axis c j n inputs Gs Hc SF HD sh B) as Rj. pose proof (right_some _ _ _ _ Rj) as Lj.
  set (k := length sh - S j). assert (Hk : k + S j = length sh) by (subst k; lia).
  pose proof (nth_right _ _ _ _ Hk Rj) as Hn.
  set (lsh := set_nth k (part c n) sh).
  exists (map (fun i => mkpart c k sh (apply_on u (map local_of inputs) lsh i)) (seq 0 (u_nout u))).
  split; [|split].
  - rewrite (ufunc_head u MCall inputs kw c (Z.of_nat k, n, start c n)); auto; try discriminate.
    + rewrite HO. cbn [numpy_ufunc].
      replace (np_call u (map local_of inputs) None) with (np_call u (map local_of inputs) (Some [])) by reflexivity.
      rewrite (call_numpy sh []) by (auto; contradiction). cbn [rbind]. rewrite map_map. fold k lsh.
      apply rsequence_ok. intros i _. rewrite as_vector_id.
      * rewrite <- Hn. unfold mkpart. rewrite <- view_part; [reflexivity|lia|]. cbn [shp apply_on]. subst lsh. now rewrite Hn.
      * cbn [shp apply_on]. intros E. apply (f_equal (@length nat)) in E. subst lsh. rewrite length_set_nth in E. cbn in E. lia.
    + exact (inputs_comm c j n inputs Gs SF HD).
    + exact (inputs_validate c j n inputs Gs Hc SF HD sh B).
  - now rewrite map_length, seq_length.
  - intros i R Hi ER. assert (ES : shp R = sh) by (eapply broadcast_unique; [apply ER|exact B]).
    exists (mkpart c k sh (apply_on u (map local_of inputs) lsh i)). split.
    + rewrite nth_error_map_seq by exact Hi. reflexivity.
    + rewrite ES. fold k. rewrite <- ES. apply mkpart_part. subst lsh k.
      apply (apply_share c j n inputs Gs Hc SF HD); auto.
Qed.

Lemma call_bad : k_out kw = None -> (forall sh, ~ Broadcast (map shp Gs) sh) -> array_ufunc u MCall inputs kw = Err ValueError.
Proof.
  intros HO NB. destruct (inputs_validate0 c j n inputs Gs Hc SF HD) as (m & _ & _ & E).
  erewrite (ufunc_head u MCall); [|discriminate|exact HW|exact (inputs_comm c j n inputs Gs SF HD)|exact E].
  rewrite HO. cbn [numpy_ufunc]. unfold np_call. rewrite app_nil_r.
  replace (bshape (map shp (map local_of inputs))) with (@None (list nat)); [reflexivity|].
  symmetry. apply bshape_none. intros lsh B. exact (NB _ (broadcast_global c j n inputs Gs Hc SF HD lsh B)).
Qed.

(** Arrays to write to that are distributed like the result. *)
Lemma call_out : forall sh outs Os, Broadcast (map shp Gs) sh ->
  k_out kw = Some (map (fun d => Some (InDist d)) outs) -> length outs = u_nout u ->
  Forall2 (fun d O => Part c (length sh - S j) O d /\ shp O = sh) outs Os ->
  exists ds, array_ufunc u MCall inputs kw = Ok ds /\ length ds = u_nout u /\
  forall i R, i < u_nout u -> Elementwise (u_elem u i) Gs R ->
    exists d, nth_error ds i = Some d /\ Part c (length sh - S j) R d.
Proof.
  intros sh outs Os B HO HLen FO. pose proof (result_axis c j n inputs Gs Hc SF HD sh B) as Rj. pose proof (right_some _ _ _ _ Rj) as Lj.
  set (k := length sh - S j) in *. assert (Hk : k + S j = length sh) by (subst k; lia).
  pose proof (nth_right _ _ _ _ Hk Rj) as Hn.
  set (lsh := set_nth k (part c n) sh).
  assert (PO : forall d, In d outs -> shp (d_data d) = lsh /\ set_data d = (fun a => mkdarr (Z.of_nat k) sh lsh (set_nth k (start c n) (repeat 0 (length sh))) (Some c) a)
            /\ check_out (Z.of_nat k) n (start c n) c d = Ok tt).
  { intros d Hd. destruct (forall2_in_l _ _ _ _ _ _ FO Hd) as (O & _ & (HP & <-)).
    destruct HP as ((_ & S1 & _) & E1 & E2 & E3 & E4 & E5). rewrite Hn in *. split; [exact S1|]. split.
    - unfold set_data. rewrite E1, E2, E3, E4, E5, S1. reflexivity.
    - unfold check_out, check_dist_axis. rewrite E5. cbn [eq_comm]. rewrite Nat.eqb_refl. cbn [negb].
      rewrite E1, Z.eqb_refl. cbn [negb]. rewrite E2, E4, !pynth_nat.
      rewrite (nth_error_nth' (shp O) 0) by lia. cbn [rbind]. rewrite Hn, Nat.eqb_refl. cbn [negb].
      rewrite nth_error_set_nth, Nat.eqb_refl. rewrite (nth_error_nth' (repeat 0 (length (shp O))) 0) by (rewrite repeat_length; lia).
      cbn [option_map rbind]. now rewrite Nat.eqb_refl. }
  exists (map (fun i => mkdarr (Z.of_nat k) sh lsh (set_nth k (start c n) (repeat 0 (length sh))) (Some c) (apply_on u (map local_of inputs) lsh i)) (seq 0 (u_nout u))).
  split; [|split].
  - rewrite (ufunc_head u MCall inputs kw c (Z.of_nat k, n, start c n)); auto; try discriminate.
    + rewrite HO. replace (dist_outs (map (fun d => Some (InDist d)) outs)) with (Ok outs).
      2:{ clear. induction outs as [|d outs IH]; [reflexivity|]. cbn [map dist_outs]. rewrite <- IH. reflexivity. }
      cbn [rbind]. rewrite (rsequence_ok _ _ (check_out (Z.of_nat k) n (start c n) c) (fun _ => tt)) by (intros d Hd; apply PO, Hd).
      cbn [rbind numpy_ufunc].
      rewrite (call_numpy sh (map d_data outs)); [|exact B|].
      2:{ intros o Ho. apply in_map_iff in Ho. destruct Ho as (d & <- & Hd). fold k lsh. apply PO, Hd. }
      cbn [rbind]. f_equal. fold k lsh.
      assert (GG : forall l s, (forall d, In d l -> In d outs) ->
        map (fun '(r, d) => set_data d r) (combine (map (apply_on u (map local_of inputs) lsh) (seq s (length l))) l)
        = map (fun i => mkdarr (Z.of_nat k) sh lsh (set_nth k (start c n) (repeat 0 (length sh))) (Some c) (apply_on u (map local_of inputs) lsh i)) (seq s (length l))).
      { induction l as [|d l IH]; intros s Hin; [reflexivity|]. cbn [length seq map combine]. f_equal; [|apply IH; intros; apply Hin; now right].
        destruct (PO d) as (_ & -> & _); [apply Hin; now left|reflexivity]. }
      rewrite <- HLen. apply GG. auto.
    + exact (inputs_comm c j n inputs Gs SF HD).
    + exact (inputs_validate c j n inputs Gs Hc SF HD sh B).
  - now rewrite map_length, seq_length.
  - intros i R Hi ER. assert (ES : shp R = sh) by (eapply broadcast_unique; [apply ER|exact B]).
    eexists. split; [rewrite nth_error_map_seq by exact Hi; reflexivity|].
    pose proof (apply_share c j n inputs Gs Hc SF HD u sh i R B ES ER) as Sh.
    split; [exact Sh|]. cbn [d_axis d_gshape d_lshape d_data d_loffset d_comm Nat.add]. rewrite ES, Hn. repeat split.
Qed.
End Call.
End WithA.
