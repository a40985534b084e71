(** Lemmas for the creation of containers. *)
From Coq Require Import String.
From Coq Require Import List Ascii Bool Arith Lia.
From Verif Require Import PyBase PyStr MemModel MemProofs2 AttrProofs CopyProofs ContModel ContProofs ContProofs2 PartModel SliceModel RedModel RedSpec RedProofs
  DistModel DistProofs InitModel InitSpec.
Import ListNotations.
Open Scope list_scope.
Open Scope nat_scope.

Section Init.
Context {M A : Type}.
Variable mlen : M -> nat.
Variable arange : nat -> M.
Variable zero : A.
Notation cont := (@cont M A).
Notation idset := (@idset A).
Notation kwarg := (@kwarg M).

(** * Axes *)
Lemma axis_map_defines : forall kwargs (axes_from : option cont) a m, axis_map arange kwargs axes_from a = Some m -> Defines arange kwargs axes_from a m.
Proof.
  intros kwargs af a m H. unfold axis_map in H. destruct (dget a kwargs) as [[|n|k]|] eqn:E; try discriminate.
  - injection H as <-. apply D_int. now apply dget_elem.
  - injection H as <-. apply D_map. now apply dget_elem.
  - destruct af as [c|]; [|discriminate]. eapply D_from; [now apply dget_none|reflexivity|now apply dget_elem].
Qed.
Lemma defines_axis_map : forall kwargs (axes_from : option cont) a m, NoDup (map fst kwargs) -> (forall c, axes_from = Some c -> NoDup (map fst (k_index c))) ->
  Defines arange kwargs axes_from a m -> axis_map arange kwargs axes_from a = Some m.
Proof.
  intros kwargs af a m N Nc H. unfold axis_map. destruct H as [m H|n H|c m H E I].
  - now rewrite (dget_nodup _ kwargs a _ N H).
  - now rewrite (dget_nodup _ kwargs a _ N H).
  - rewrite (proj2 (dget_none a kwargs) H), E. apply dget_nodup; auto.
Qed.
Lemma make_axes_ok : forall kwargs (axes_from : option cont) axes index, make_axes arange kwargs axes_from axes = Ok index ->
  map fst index = axes /\ forall a m, In (a, m) index -> Defines arange kwargs axes_from a m.
Proof.
  induction axes as [|a axes IH]; intros index H; cbn [make_axes] in H.
  - injection H as <-. split; [reflexivity|intros ? ? []].
  - destruct (axis_map arange kwargs axes_from a) as [m|] eqn:E; [|discriminate].
    destruct (make_axes arange kwargs axes_from axes) as [l|]; [|discriminate]. cbn [rbind] in H. injection H as <-.
    destruct (IH l eq_refl) as [E1 E2]. cbn [map fst]. split; [now f_equal|].
    intros a' m' [K|K]; [injection K as <- <-; now apply axis_map_defines|auto].
Qed.
Lemma make_axes_err : forall kwargs (axes_from : option cont) axes,
  (exists index, make_axes arange kwargs axes_from axes = Ok index) \/
  (make_axes arange kwargs axes_from axes = Err RuntimeError /\ exists a, In a axes /\ axis_map arange kwargs axes_from a = None).
Proof.
  induction axes as [|a axes IH]; cbn [make_axes]; [left; eauto|].
  destruct (axis_map arange kwargs axes_from a) as [m|] eqn:E.
  - destruct IH as [(l & ->)|(-> & b & I & K)]; [left; cbn; eauto|]. right. split; [reflexivity|]. exists b. split; auto. now right.
  - right. split; [reflexivity|]. exists a. split; auto. now left.
Qed.
Lemma make_axes_ok_all : forall kwargs (axes_from : option cont) axes index, make_axes arange kwargs axes_from axes = Ok index ->
  forall a, In a axes -> axis_map arange kwargs axes_from a <> None.
Proof.
  induction axes as [|b axes IH]; intros index H a I; [destruct I|]. cbn [make_axes] in H.
  destruct (axis_map arange kwargs axes_from b) as [m|] eqn:E; [|discriminate].
  destruct (make_axes arange kwargs axes_from axes) as [l|]; [|discriminate]. destruct I as [<-|I]; [congruence|eauto].
Qed.

(** * Datasets *)
Lemma make_shape_ok : forall index axs sh, make_shape mlen index axs = Ok sh -> HasShape mlen index axs sh.
Proof.
  induction axs as [|[a|n] axs IH]; intros sh H; cbn [make_shape] in H.
  - injection H as <-. constructor.
  - destruct (dget a index) as [m|] eqn:E; [|discriminate]. destruct (make_shape mlen index axs) as [l|]; [|discriminate].
    cbn [rbind] in H. injection H as <-. constructor; [now apply dget_elem|auto].
  - destruct (make_shape mlen index axs) as [l|]; [|discriminate]. cbn [rbind] in H. injection H as <-. constructor; auto.
Qed.
Lemma make_shape_total : forall index axs, (forall a, In (AName a) axs -> In a (map fst index)) -> exists sh, make_shape mlen index axs = Ok sh.
Proof.
  induction axs as [|[a|n] axs IH]; intros H; cbn [make_shape]; [eauto| |].
  - destruct IH as [sh ->]; [intros b Hb; apply H; now right|]. destruct (proj1 (dget_in _ a index) (H a (or_introl eq_refl))) as [m ->]. cbn; eauto.
  - destruct IH as [sh ->]; [intros b Hb; apply H; now right|]. cbn; eauto.
Qed.
Lemma axis_eqb_eq : forall a b, axis_eqb a b = true <-> a = b.
Proof.
  intros [s|m] [t|n]; cbn [axis_eqb]; split; intros H; try discriminate; try congruence.
  - apply seqb_eq in H. now subst.
  - injection H as ->. apply seqb_refl.
  - apply Nat.eqb_eq in H. now subst.
  - injection H as ->. apply Nat.eqb_refl.
Qed.
Lemma axis_index_nth : forall a l k, axis_index a l = Some k -> nth_error l k = Some a /\ forall j, j < k -> nth_error l j <> Some a.
Proof.
  induction l as [|x l IH]; intros k H; cbn [axis_index] in H; [discriminate|]. destruct (axis_eqb a x) eqn:E.
  - apply axis_eqb_eq in E. subst x. injection H as <-. split; [reflexivity|]. intros j Hj. lia.
  - destruct (axis_index a l) as [j|] eqn:F; [|discriminate]. injection H as <-. destruct (IH j eq_refl) as [H1 H2]. split; auto.
    intros [|i] Hi; cbn [nth_error]; [|apply H2; lia]. intros K. injection K as ->. rewrite (proj2 (axis_eqb_eq a a) eq_refl) in E. discriminate.
Qed.
Lemma axis_index_in : forall a l, In a l -> exists k, axis_index a l = Some k.
Proof.
  induction l as [|x l IH]; intros H; [destruct H|]. cbn [axis_index]. destruct (axis_eqb a x) eqn:E; [eauto|].
  destruct H as [->|H]; [rewrite (proj2 (axis_eqb_eq a a) eq_refl) in E; discriminate|]. destruct (IH H) as [k ->]. cbn; eauto.
Qed.
Lemma fit_chunks_ok : forall shape chunks r, fit_chunks chunks shape = Ok r ->
  length r = length shape /\ forall i c l, nth_error chunks i = Some c -> nth_error shape i = Some l -> nth_error r i = Some (Nat.min c l).
Proof.
  induction shape as [|l shape IH]; intros [|c chunks] r H; cbn [fit_chunks] in H; try discriminate.
  - injection H as <-. split; [reflexivity|]. intros [|i] ? ? ? K; discriminate.
  - injection H as <-. split; [reflexivity|]. intros [|i] ? ? ? K; discriminate.
  - destruct (fit_chunks chunks shape) as [r'|] eqn:E; [|discriminate]. cbn [rbind] in H. injection H as <-. destruct (IH _ _ E) as [H1 H2].
    cbn [length]. split; [lia|]. intros [|i] c' l' K1 K2; cbn [nth_error] in *; [congruence|eauto].
Qed.
Lemma fit_chunks_total : forall shape chunks, length shape <= length chunks -> exists r, fit_chunks chunks shape = Ok r.
Proof.
  induction shape as [|l shape IH]; intros [|c chunks] H; cbn [length fit_chunks] in *; eauto; [lia|].
  destruct (IH chunks ltac:(lia)) as [r ->]. cbn. eauto.
Qed.

Lemma new_dataset_fresh : forall di ac index d x, new_dataset mlen zero di ac index d = Ok x -> Fresh mlen zero di ac index d x.
Proof.
  intros di ac index d x H. unfold new_dataset in H. destruct (make_shape mlen index (i_axes d)) as [sh|] eqn:E; [|discriminate]. cbn [rbind] in H.
  destruct (match i_dist d with Some a => _ | None => _ end) as [a|] eqn:Ea; [|discriminate]. cbn [rbind] in H.
  destruct (axis_index a (i_axes d)) as [k|] eqn:Ek; [|discriminate].
  destruct (match (if ac then i_chunks d else None) with None => _ | Some c => _ end) as [ch|] eqn:Ec; [|discriminate]. cbn [rbind] in H.
  injection H as <-. unfold Fresh. cbn [b_axes b_val b_dist b_chunks shp elt]. apply axis_index_nth in Ek as [K1 K2].
  repeat split; auto using make_shape_ok.
  - now intros ->.
  - intros ->. exists k, a. repeat split; auto.
    + intros b Hb. rewrite Hb in Ea. now injection Ea as ->.
    + intros Hb. rewrite Hb in Ea. destruct (i_axes d) as [|y l]; [discriminate|]. injection Ea as ->.
      destruct k as [|k]; [reflexivity|]. destruct (K2 0 ltac:(lia)). reflexivity.
  - intros ->. now injection Ec as <-.
  - intros Hc. rewrite Hc in Ec. destruct ac; now injection Ec as <-.
  - intros cs -> Hc. rewrite Hc in Ec. destruct (fit_chunks cs sh) as [r|] eqn:F; [|discriminate]. cbn [rbind] in Ec. injection Ec as <-.
    destruct (fit_chunks_ok _ _ _ F). exists r. auto.
Qed.
Lemma has_shape_len : forall index axs sh, HasShape mlen index axs sh -> length sh = length axs.
Proof. induction 1; cbn; lia. Qed.
Lemma new_dataset_total : forall di ac index d, Sensible (map fst index) d -> exists x, new_dataset mlen zero di ac index d = Ok x.
Proof.
  intros di ac index d (H1 & H2 & H3). unfold new_dataset. destruct (make_shape_total index (i_axes d) H1) as [sh E]. rewrite E. cbn [rbind].
  assert (X : exists a, match i_dist d with Some a => Ok a | None => match i_axes d with a :: _ => Ok a | [] => Err IndexError end end = Ok a /\ In a (i_axes d)).
  { destruct (i_dist d) as [a|]; [eauto|]. destruct (i_axes d) as [|a l]; [contradiction|]. exists a. split; [reflexivity|now left]. }
  destruct X as (a & -> & Ia). cbn [rbind]. destruct (axis_index_in a _ Ia) as [k ->].
  destruct (if ac then i_chunks d else None) as [cs|] eqn:Ec; [|cbn; eauto].
  assert (L : length sh <= length cs). { rewrite (has_shape_len _ _ _ (make_shape_ok _ _ _ E)). apply H3. destruct ac; congruence. }
  destruct (fit_chunks_total sh cs L) as [r ->]. cbn. eauto.
Qed.

(** * Creating and copying *)
Section Loops.
Variables (di ac : bool) (index : list (str * M)) (spec : list (str * @ispec)).
Hypothesis Ns : NoDup (map fst spec).
Lemma initialise_ok : forall todo dsets r, incl todo spec -> NoDup (map fst todo) -> initialise mlen zero di ac index spec todo dsets = Ok r ->
  forall n, match dget n todo with
            | Some d => if i_init d then exists x, dget n r = Some x /\ Fresh mlen zero di ac index d x else dget n r = dget n dsets
            | None => dget n r = dget n dsets
            end.
Proof.
  induction todo as [|[m d] todo IH]; intros dsets r I N H n; cbn [initialise] in H; [injection H as <-; reflexivity|].
  inversion N as [|? ? Hm Hn]; subst. assert (I' : incl todo spec) by (intros x Hx; apply I; now right).
  cbn [dget]. destruct (i_init d) eqn:Ei.
  - unfold add_dataset in H. rewrite (dget_nodup _ spec m d Ns (I _ (or_introl eq_refl))) in H.
    destruct (new_dataset mlen zero di ac index d) as [x|] eqn:Ex; [|discriminate]. cbn [rbind] in H.
    specialize (IH _ _ I' Hn H n). destruct (seqb n m) eqn:E.
    + apply seqb_eq in E. subst m. rewrite (proj2 (dget_none n todo) Hm) in IH. rewrite Ei. exists x. rewrite IH. split; [apply dget_dput_same|].
      now apply new_dataset_fresh.
    + apply seqb_neq in E. rewrite dget_dput_other in IH by exact E. exact IH.
  - cbn [rbind] in H. specialize (IH _ _ I' Hn H n). destruct (seqb n m) eqn:E; [|exact IH].
    apply seqb_eq in E. subst m. rewrite (proj2 (dget_none n todo) Hm) in IH. now rewrite Ei.
Qed.
Lemma initialise_total : forall todo dsets, incl todo spec -> (forall n d, In (n, d) spec -> Sensible (map fst index) d) ->
  exists r, initialise mlen zero di ac index spec todo dsets = Ok r.
Proof.
  induction todo as [|[m d] todo IH]; intros dsets I S; cbn [initialise]; [eauto|].
  assert (I' : incl todo spec) by (intros x Hx; apply I; now right).
  destruct (i_init d); cbn [rbind]; [|auto]. unfold add_dataset. rewrite (dget_nodup _ spec m d Ns (I _ (or_introl eq_refl))).
  destruct (new_dataset_total di ac index d (S m d (I _ (or_introl eq_refl)))) as [x ->]. cbn [rbind]. auto.
Qed.
Variables (changed : list str) (src : list (str * idset)).
(** The dataset is taken over. *)
Definition taken (n : str) : option idset :=
  match dget n src with
  | Some s => if existsb (axis_changed changed) (b_axes s) then None else Some s
  | None => None
  end.
Lemma assign_all_elt : forall (d s v : nd A), assign_all d s = Ok v -> shp v = shp d /\ (shp s = shp d -> SameArray v s).
Proof.
  intros d s v H. unfold assign_all in H. destruct (fits (shp s) (shp d)); [|discriminate]. injection H as <-. cbn [shp]. split; auto.
  intros E. split; [now symmetry|]. intros idx Hi. cbn [elt shp] in *. rewrite spread_id by (now rewrite E). reflexivity.
Qed.
Lemma copy_dsets_ok : forall todo dsets r, incl todo spec -> NoDup (map fst todo) ->
  copy_dsets mlen zero di ac index spec todo changed src dsets = Ok r ->
  forall n, match dget n todo, taken n with
            | Some d, Some s => exists x y, (dget n dsets = Some x \/ (dget n dsets = None /\ Fresh mlen zero di ac index d x)) /\ dget n r = Some y /\
                b_axes y = b_axes x /\ b_dist y = b_dist x /\ b_chunks y = b_chunks x /\ shp (b_val y) = shp (b_val x) /\
                (shp (b_val s) = shp (b_val x) -> SameArray (b_val y) (b_val s))
            | _, _ => dget n r = dget n dsets
            end.
Proof.
  induction todo as [|[m d] todo IH]; intros dsets r I N H n; [cbn [copy_dsets] in H; injection H as <-; reflexivity|].
  inversion N as [|? ? Hm Hn]; subst. assert (I' : incl todo spec) by (intros x Hx; apply I; now right).
  cbn [copy_dsets] in H. cbn [dget].
  assert (SKIP : copy_dsets mlen zero di ac index spec todo changed src dsets = Ok r -> taken m = None ->
    match (if seqb n m then Some d else dget n todo), taken n with
            | Some d, Some s => exists x y, (dget n dsets = Some x \/ (dget n dsets = None /\ Fresh mlen zero di ac index d x)) /\ dget n r = Some y /\
                b_axes y = b_axes x /\ b_dist y = b_dist x /\ b_chunks y = b_chunks x /\ shp (b_val y) = shp (b_val x) /\
                (shp (b_val s) = shp (b_val x) -> SameArray (b_val y) (b_val s))
            | _, _ => dget n r = dget n dsets
            end).
  { intros H' T. specialize (IH _ _ I' Hn H' n). destruct (seqb n m) eqn:E; [|exact IH]. apply seqb_eq in E. subst m.
    rewrite (proj2 (dget_none n todo) Hm) in IH. now rewrite T. }
  destruct (dget m src) as [s|] eqn:Es; [|apply SKIP; [exact H|unfold taken; now rewrite Es]].
  destruct (existsb (axis_changed changed) (b_axes s)) eqn:Ec; [apply SKIP; [exact H|unfold taken; now rewrite Es, Ec]|]. clear SKIP.
  assert (T : taken m = Some s) by (unfold taken; now rewrite Es, Ec).
  assert (X : exists x dsets', (dget m dsets = Some x \/ (dget m dsets = None /\ Fresh mlen zero di ac index d x)) /\ dget m dsets' = Some x /\
     (forall q, q <> m -> dget q dsets' = dget q dsets) /\
     match dget m dsets' with
     | None => Err KeyError
     | Some d => rbind (assign_all (b_val d) (b_val s)) (fun v =>
                copy_dsets mlen zero di ac index spec todo changed src (dput m (mkid (b_axes d) v (b_dist d) (b_chunks d)) dsets'))
     end = Ok r).
  { destruct (dget m dsets) as [x|] eqn:Ed.
    - cbn [rbind] in H. rewrite Ed in H. exists x, dsets. rewrite Ed. auto.
    - unfold add_dataset in H. rewrite (dget_nodup _ spec m d Ns (I _ (or_introl eq_refl))) in H.
      destruct (new_dataset mlen zero di ac index d) as [x|] eqn:Ex; [|discriminate]. cbn [rbind] in H.
      exists x, (dput m x dsets). split; [right; split; [reflexivity|now apply new_dataset_fresh]|]. split; [apply dget_dput_same|].
      split; [intros q Hq; now apply dget_dput_other|exact H]. }
  destruct X as (x & dsets' & Hx & Hx' & Hq & H'). rewrite Hx' in H'. destruct (assign_all (b_val x) (b_val s)) as [v|] eqn:Ev; [|discriminate].
  cbn [rbind] in H'. specialize (IH _ _ I' Hn H' n). destruct (seqb n m) eqn:E.
  - apply seqb_eq in E. subst m. rewrite (proj2 (dget_none n todo) Hm) in IH. rewrite T. exists x, (mkid (b_axes x) v (b_dist x) (b_chunks x)).
    destruct (assign_all_elt _ _ _ Ev) as [E1 E2]. rewrite IH, dget_dput_same. cbn [b_axes b_val b_dist b_chunks]. repeat (split; auto).
  - apply seqb_neq in E. rewrite dget_dput_other in IH by exact E. rewrite (Hq n E) in IH. exact IH.
Qed.
End Loops.
End Init.
