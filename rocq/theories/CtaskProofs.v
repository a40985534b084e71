(** Lemmas for container tasks. *)
From Coq Require Import String.
From Coq Require Import List Ascii Bool Arith ZArith Lia.
From Verif Require Import PyBase PyStr MemModel MemProofs2 AttrModel AttrProofs CopyProofs ContProofs GlobModel FlowProofs CtaskModel CtaskSpec.
Import ListNotations.
Open Scope list_scope.
Open Scope nat_scope.

(** * The walk *)
Definition total (l : list node) : nat := fold_right (fun m s => size m + s) 0 l.
Lemma total_app : forall a b, total (a ++ b) = total a + total b.
Proof. induction a as [|x a IH]; intros b; [reflexivity|]. change (size x + total (a ++ b) = size x + total a + total b). rewrite IH. lia. Qed.
Lemma total_rev : forall a, total (rev a) = total a.
Proof. induction a as [|x a IH]; [reflexivity|]. cbn [rev]. rewrite total_app, IH. change (total a + (size x + 0) = size x + total a). lia. Qed.
Lemma bad_iff : forall l, existsb bad l = true <-> In NaN l \/ In Inf l.
Proof.
  intros l. rewrite existsb_exists. split.
  - intros ([] & I & B); auto. discriminate.
  - intros [I|I]; eexists; split; eauto.
Qed.
Lemma walk_iff : forall fuel stack, total stack <= fuel -> (walk fuel stack = true <-> exists n, In n stack /\ NotFinite n).
Proof.
  induction fuel as [|fuel IH]; intros stack L.
  - destruct stack as [|n stack]; [split; [discriminate|intros (n & [] & _)]|]. exfalso. cbn [total fold_right] in L. destruct n; cbn [size] in L; lia.
  - destruct stack as [|n stack]; [split; [discriminate|intros (n & [] & _)]|]. cbn [walk]. destruct n as [l|l|items].
    + destruct (existsb bad l) eqn:B.
      * split; [|reflexivity]. intros _. exists (DNum l). split; [now left|]. constructor. now apply bad_iff.
      * rewrite IH by (change (1 + total stack <= S fuel) in L; lia). split; intros (n & I & H); [exists n; split; [now right|exact H]|].
        destruct I as [<-|I]; [|eauto]. inversion H as [? K|]; subst. apply bad_iff in K. congruence.
    + rewrite IH by (change (1 + total stack <= S fuel) in L; lia). split; intros (n & I & H); [exists n; split; [now right|exact H]|].
      destruct I as [<-|I]; [inversion H|eauto].
    + rewrite IH. 2:{ rewrite total_app, total_rev. change (S (total items) + total stack <= S fuel) in L. lia. }
      split; intros (n & I & H).
      * apply in_app_or in I as [I|I]; [|exists n; split; [now right|exact H]]. exists (Grp items). split; [now left|]. apply in_rev in I. econstructor; eauto.
      * destruct I as [<-|I]; [|exists n; split; [apply in_or_app; now right|exact H]]. inversion H as [|? m I' H']; subst.
        exists m. split; [|exact H']. apply in_or_app. left. rewrite <- in_rev. exact I'.
Qed.
Lemma nan_local_iff : forall n, nan_local n = true <-> NotFinite n.
Proof.
  intros n. unfold nan_local. rewrite walk_iff by (change (size n + 0 <= S (size n)); lia). split; [intros (m & [<-|[]] & H); exact H|]. intros H. exists n. split; [now left|exact H].
Qed.
Lemma nan_check_iff : forall trees, nan_check_walk trees = true <-> exists n, In n trees /\ NotFinite n.
Proof.
  intros trees. unfold nan_check_walk. rewrite existsb_exists. split; intros (n & I & H); exists n; split; auto; now apply nan_local_iff.
Qed.

Section Task.
Variable show_any : aval -> str.
Variable cfg : config.
(** * Formats *)
Lemma format_iff : forall f d s, format show_any f d = Ok s <-> Formats (show show_any) (fun n => dget n d) f s.
Proof.
  induction f as [|[t|n] f IH]; intros d s; cbn [format].
  - split; [intros H; injection H as <-; constructor|intros H; inversion H; reflexivity].
  - split.
    + destruct (format show_any f d) as [r|] eqn:E; [|discriminate]. cbn. intros H. injection H as <-. constructor. now apply IH.
    + intros H. inversion H; subst. rewrite (proj2 (IH d r)) by assumption. reflexivity.
  - split.
    + destruct (dget n d) as [v|] eqn:G; [|discriminate]. destruct (format show_any f d) as [r|] eqn:E; [|discriminate]. cbn. intros H. injection H as <-. constructor; [exact G|now apply IH].
    + intros H. inversion H as [| |? v ? r G F]; subst. rewrite G, (proj2 (IH d r)) by assumption. reflexivity.
Qed.
(** * The dictionary *)
Definition specials : list str := map s_ ["tag"; "count"; "task"; "key"; "output_root"]%string.
Lemma idict_ok : forall count c ii d, idict cfg count c ii = Ok d ->
  dget (s_ "tag") d = Some (tag_value count (c_attrs c)) /\ dget (s_ "count") d = Some (VNum count) /\ dget (s_ "task") d = Some (VText (t_class cfg)) /\
  dget (s_ "output_root") d = Some (VText (t_root cfg)) /\
  dget (s_ "key") d = Some (VText (nth ii (t_out_keys cfg) [])) /\
  forall n, ~ In n specials -> dget n d = dget n (c_attrs c).
Proof.
  intros count c ii d H. unfold idict in H.
  assert (G : exists key, key = nth ii (t_out_keys cfg) [] /\
    d = dput (s_ "output_root") (VText (t_root cfg)) (dput (s_ "key") (VText key) (dput (s_ "task") (VText (t_class cfg))
     (dput (s_ "count") (VNum count) (dput (s_ "tag") (tag_value count (c_attrs c)) (c_attrs c)))))).
  { destruct (t_out_keys cfg) as [|k ks]; [cbn [rbind] in H; injection H as <-; exists []; split; [destruct ii; reflexivity|reflexivity]|].
    destruct (nth_error (k :: ks) ii) as [x|] eqn:N; [|discriminate]. cbn [rbind] in H. injection H as <-. exists x. split; [symmetry; now apply nth_error_nth|reflexivity]. }
  destruct G as (key & K & ->). subst key. clear.
  repeat split; try (repeat (rewrite dget_dput_other by discriminate); apply dget_dput_same).
  intros n N. repeat rewrite dget_dput_other by (intros ->; apply N; cbn; tauto). reflexivity.
Qed.
Lemma set_attrs_ok : forall l d c c', NoDup (map fst l) -> set_attrs show_any l d c = Ok c' ->
  c_data c' = c_data c /\ c_others c' = c_others c /\
  (forall k f, In (k, inl f) l -> exists s, format show_any f d = Ok s /\ dget k (c_attrs c') = Some (VText s)) /\
  (forall k v, In (k, inr v) l -> dget k (c_attrs c') = Some v) /\
  (forall k, ~ In k (map fst l) -> dget k (c_attrs c') = dget k (c_attrs c)).
Proof.
  induction l as [|[k [f|v]] l IH]; intros d c c' N H; cbn [set_attrs] in H.
  - injection H as <-. repeat split; try (intros ? ? []); auto.
  - destruct (format show_any f d) as [s|] eqn:F; [|discriminate]. cbn [rbind] in H. cbn [map fst] in N. inversion N as [|? ? N1 N2]; subst.
    destruct (IH _ _ _ N2 H) as (A & B & P1 & P2 & P3). cbn [set_attr c_data c_others c_attrs] in *. split; [exact A|]. split; [exact B|]. repeat split.
    + intros k0 f0 [E|I]; [|eauto]. injection E as <- <-. exists s. split; [exact F|]. rewrite P3 by exact N1. apply dget_dput_same.
    + intros k0 v0 [E|I]; [discriminate|eauto].
    + intros k0 I. cbn [map fst] in I. rewrite P3 by (intros K; apply I; now right). apply dget_dput_other. intros ->. apply I. now left.
  - cbn [map fst] in N. inversion N as [|? ? N1 N2]; subst.
    destruct (IH _ _ _ N2 H) as (A & B & P1 & P2 & P3). cbn [set_attr c_data c_others c_attrs] in *. split; [exact A|]. split; [exact B|]. repeat split.
    + intros k0 f0 [E|I]; [discriminate|eauto].
    + intros k0 v0 [E|I]; [|eauto]. injection E as <- <-. rewrite P3 by exact N1. apply dget_dput_same.
    + intros k0 I. cbn [map fst] in I. rewrite P3 by (intros K; apply I; now right). apply dget_dput_other. intros ->. apply I. now left.
Qed.
Lemma nan_found_iff : forall c, nan_found c = true <-> exists n, In n (c_data c :: c_others c) /\ NotFinite n.
Proof. intros c. apply nan_check_iff. Qed.
(** * Inputs *)
Lemma set_input_tags_ok : forall tags cs, set_input_tags tags (map Cont cs) = Ok (map (fun c => Cont (set_attr (s_ "input_tags") (VTags tags) c)) cs).
Proof. intros tags. induction cs as [|c cs IH]; [reflexivity|]. cbn [map set_input_tags]. rewrite IH. reflexivity. Qed.
Lemma process_outputs_nth : forall os count ii cs ws, process_outputs show_any cfg count os ii = Ok (cs, ws) ->
  length cs = length os /\ forall j o, nth_error os j = Some o -> exists c w, process_output show_any cfg count o (ii + j) = Ok (c, w) /\ nth_error cs j = Some c /\ incl w ws.
Proof.
  induction os as [|o os IH]; intros count ii cs ws H; cbn [process_outputs] in H.
  - injection H as <- <-. split; [reflexivity|]. intros [|j] o N; discriminate.
  - destruct (process_output show_any cfg count o ii) as [[c w]|] eqn:P; [|discriminate]. cbn [rbind] in H.
    destruct (process_outputs show_any cfg count os (S ii)) as [[cs' ws']|] eqn:Q; [|discriminate]. cbn [rbind] in H. injection H as <- <-.
    destruct (IH _ _ _ _ Q) as [L X]. split; [cbn; now rewrite L|]. intros [|j] o' N.
    + injection N as <-. exists c, w. rewrite Nat.add_0_r. split; [exact P|]. split; [reflexivity|]. apply incl_appl, incl_refl.
    + destruct (X j o' N) as (c' & w' & P' & N' & I). exists c', w'. replace (ii + S j) with (S ii + j) by lia. split; [exact P'|]. split; [exact N'|]. now apply incl_appr.
Qed.
End Task.
