(** Lemmas about [copyattrs]. *)
From Coq Require Import String.
From Coq Require Import List Ascii Bool Arith ZArith Lia Permutation.
From Verif Require Import PyBase PyStr MemModel MemProofs MemProofs2 JsonModel JsonSpec JsonProofs AttrModel AttrSpec.
Import ListNotations.
Open Scope list_scope.
Open Scope nat_scope.

(** *** The loop over the keys *)
Lemma dget_in : forall (V : Type) k (a : list (str * V)), In k (map fst a) <-> exists v, dget k a = Some v.
Proof.
  induction a as [|[k' v'] a IH]; cbn [map fst dget In].
  - split; [intros []|intros (v & H); discriminate].
  - destruct (seqb k k') eqn:E0.
    + apply seqb_eq in E0. split; [eauto|left; congruence].
    + apply seqb_neq in E0. rewrite IH. split; [intros [H|H]; [congruence|assumption]|right; assumption].
Qed.
Lemma dget_elem : forall (V : Type) k (a : list (str * V)) v, dget k a = Some v -> In (k, v) a.
Proof.
  induction a as [|[k' v'] a IH]; intros v H; cbn [dget] in H; [discriminate|].
  destruct (seqb k k') eqn:E0; [apply seqb_eq in E0; injection H as <-; left; congruence|right; now apply IH].
Qed.

Lemma copy_loop : forall ks a1 t c a2 f,
  (forall k, In k ks -> exists v, dget k a1 = Some v /\ copy_value c t v = Ok (f v)) ->
  exists b, fold_left (fun acc key => rbind acc (fun a2 =>
     match dget key a1 with
     | Some v => rbind (copy_value c t v) (fun w => Ok (dput key w a2))
     | None => Err KeyError
     end)) ks (Ok a2) = Ok b /\
  forall k, dget k b = if in_dec str_eq_dec k ks then option_map f (dget k a1) else dget k a2.
Proof.
  induction ks as [|k0 ks IH]; intros a1 t c a2 f H.
  - exists a2. split; reflexivity.
  - cbn [fold_left]. destruct (H k0 (or_introl eq_refl)) as (v & Hv & Hc). cbn [rbind]. rewrite Hv, Hc. cbn [rbind].
    destruct (IH a1 t c (dput k0 (f v) a2) f) as (b & Hb & Hk); [intros k Hk; apply H; now right|].
    exists b. split; [assumption|]. intro k. rewrite Hk.
    destruct (in_dec str_eq_dec k ks) as [Hi|Hi].
    + destruct (in_dec str_eq_dec k (k0 :: ks)) as [|N]; [reflexivity|exfalso; apply N; now right].
    + destruct (str_eq_dec k k0) as [->|Hne].
      * rewrite dget_dput_same. destruct (in_dec str_eq_dec k0 (k0 :: ks)) as [|N]; [now rewrite Hv|exfalso; apply N; now left].
      * rewrite dget_dput_other by assumption. destruct (in_dec str_eq_dec k (k0 :: ks)) as [[N|N]|]; [congruence|contradiction|reflexivity].
Qed.
Theorem copyattrs_ok : forall a1 t c a2 f,
  (forall k v, dget k a1 = Some v -> copy_value c t v = Ok (f v)) ->
  exists b, copyattrs a1 t c a2 = Ok b /\
  forall k, dget k b = match dget k a1 with Some v => Some (f v) | None => dget k a2 end.
Proof.
  intros a1 t c a2 f H. unfold copyattrs.
  destruct (copy_loop (py_sorted sleb (map fst a1)) a1 t c a2 f) as (b & Hb & Hk).
  - intros k Hk. apply (Permutation_in k (Permutation_sym (py_sorted_perm sleb (map fst a1)))) in Hk.
    apply dget_in in Hk as (v & Hv). eauto.
  - exists b. split; [assumption|]. intro k. rewrite Hk.
    destruct (in_dec str_eq_dec k (py_sorted sleb (map fst a1))) as [Hi|Hi].
    + apply (Permutation_in k (Permutation_sym (py_sorted_perm sleb (map fst a1)))) in Hi.
      apply dget_in in Hi as (v & Hv). now rewrite Hv.
    + destruct (dget k a1) eqn:E0; [|reflexivity]. exfalso. apply Hi.
      apply (Permutation_in k (py_sorted_perm sleb (map fst a1))). apply dget_in. eauto.
Qed.
(** One value that cannot be copied stops the whole copy. *)
Lemma copy_loop_err : forall ks a1 t c e, fold_left (fun acc key => rbind acc (fun a2 =>
     match dget key a1 with
     | Some v => rbind (copy_value c t v) (fun w => Ok (dput key w a2))
     | None => Err KeyError
     end)) ks (Err e) = Err e.
Proof. induction ks as [|k ks IH]; intros; [reflexivity|]. cbn [fold_left rbind]. apply IH. Qed.

(** *** Single values *)
Lemma prefix_tagged : forall s, startswith json_prefix s = true <-> tagged s.
Proof. intro s. apply startswith_spec. Qed.
Lemma untagged_false : forall s, ~ tagged s -> startswith json_prefix s = false.
Proof. intros s H. destruct (startswith json_prefix s) eqn:E0; [|reflexivity]. exfalso. apply H. now apply prefix_tagged. Qed.
Lemma tag_decode : forall s, startswith json_prefix (json_prefix ++ s) = true /\ skipn (length json_prefix) (json_prefix ++ s) = s.
Proof. intro s. split; [apply prefix_tagged; exists s; reflexivity|reflexivity]. Qed.

Lemma b2u_jsonlike : forall v, jsonlike v -> bytes_to_unicode v = v.
Proof.
  induction v as [|b|z|lit|x|x|x|z|l IH|kv IH|l IH] using av_ind'; intro J; try reflexivity; try (destruct J; fail).
  - cbn [bytes_to_unicode]. f_equal. induction l as [|x l IHl]; [reflexivity|]. cbn [map].
    destruct J as [J1 J2]. rewrite (Forall_inv IH J1). f_equal. apply IHl; [exact (Forall_inv_tail IH)|exact J2].
  - cbn [bytes_to_unicode]. f_equal. destruct J as [_ J]. induction kv as [|[k x] kv IHl]; [reflexivity|]. cbn [map].
    destruct J as [J1 J2]. pose proof (Forall_inv IH J1) as Hx. cbn [snd] in Hx. rewrite Hx. f_equal. apply IHl; [exact (Forall_inv_tail IH)|exact J2].
Qed.
Lemma jsonlike_std : forall v, jsonlike v -> json_std v = true.
Proof.
  induction v as [|b|z|lit|x|x|x|z|l IH|kv IH|l IH] using av_ind'; intro J; try reflexivity; try (destruct J; fail).
  - cbn [json_std]. induction l as [|x l IHl]; [reflexivity|]. cbn [forallb].
    destruct J as [J1 J2]. rewrite (Forall_inv IH J1). cbn [andb]. apply IHl; [exact (Forall_inv_tail IH)|exact J2].
  - cbn [json_std]. destruct J as [_ J]. induction kv as [|[k x] kv IHl]; [reflexivity|]. cbn [forallb].
    destruct J as [J1 J2]. pose proof (Forall_inv IH J1) as Hx. cbn [snd] in Hx. rewrite Hx. cbn [andb]. apply IHl; [exact (Forall_inv_tail IH)|exact J2].
Qed.

(** To zarr and back. *)
Definition zarr_form (v : av) : av :=
  match v with ADict _ => match enc v with Ok s => AStr (json_prefix ++ s) | Err _ => v end | _ => v end.
Lemma zarr_out : forall v, jsonlike v -> untagged v -> copy_value true Zarr v = Ok (zarr_form v).
Proof.
  intros v J U. unfold copy_value, map_unicode. cbn [negb rbind]. rewrite b2u_jsonlike by assumption.
  destruct (jsonlike_ok v J) as (W & HP & s & HE). pose proof (jsonlike_std v J) as HS.
  destruct v as [|b|z|lit|x|x|x|z|l|kv|l]; try (destruct J; fail); cbn [map_json rbind item zarr_form set] in *.
  - reflexivity.
  - reflexivity.
  - reflexivity.
  - reflexivity.
  - rewrite untagged_false by assumption. reflexivity.
  - now rewrite HS.
  - rewrite HE. reflexivity.
Qed.
Lemma zarr_in : forall v, jsonlike v -> untagged v -> copy_value true Mem (zarr_form v) = Ok v.
Proof.
  intros v J U. destruct (jsonlike_ok v J) as (W & HP & s & HE).
  destruct v as [|b|z|lit|x|x|x|z|l|kv|l]; try (destruct J; fail); cbn [zarr_form];
    unfold copy_value, map_unicode; cbn [negb rbind bytes_to_unicode map_json item set]; try reflexivity.
  - rewrite untagged_false by assumption. reflexivity.
  - pose proof (b2u_jsonlike (AList l) J) as HB. cbn [bytes_to_unicode] in HB. rewrite HB. reflexivity.
  - rewrite HE. cbn [bytes_to_unicode]. destruct (tag_decode s) as [-> ->].
    rewrite (loads_enc _ _ W HE), HP. reflexivity.
Qed.

(** To h5py and back. *)
Definition h5_form (v : av) : av :=
  match v with
  | ADict _ => match enc v with Ok s => AStr (json_prefix ++ s) | Err _ => v end
  | AInt z => ANpInt z
  | AList l => AArr l
  | _ => v
  end.
Lemma no_nul_text : forall s, h5_text s <-> no_nul s = true.
Proof.
  intro s. unfold h5_text, no_nul, nul. rewrite negb_true_iff. rewrite <- not_true_iff_false, existsb_ceqb. reflexivity.
Qed.
(** The text of a value has no NUL. *)
Definition clear (s : str) : Prop := ~ In nul s.
Lemma clear_app : forall a b, clear a -> clear b -> clear (a ++ b).
Proof. intros a b Ha Hb H. apply in_app_or in H as [H|H]; contradiction. Qed.
Lemma clear_cons : forall c b, c <> nul -> clear b -> clear (c :: b).
Proof. intros c b Ha Hb [H|H]; contradiction. Qed.
Lemma qchar_clear : forall c, clear (qchar c).
Proof. intros [[] [] [] [] [] [] [] []] H; cbn in H; repeat (destruct H as [H|H]; [discriminate|]); exact H. Qed.
Lemma quoted_clear : forall s, clear (quoted s).
Proof.
  intro s. unfold quoted. apply clear_cons; [discriminate|]. apply clear_app.
  - unfold qbody. induction s as [|c s IH]; [intros []|]. cbn [map concat]. apply clear_app; [apply qchar_clear|assumption].
  - intros [H|[]]. discriminate.
Qed.
Lemma digits_clear : forall s, Digits s -> clear s.
Proof.
  intros s H Hi. unfold Digits in H. rewrite Forall_forall in H. specialize (H nul Hi). cbn in H. lia.
Qed.
Lemma uint_clear : forall u, clear (uint_str u).
Proof. intro u. apply digits_clear, uint_digits. Qed.
Lemma dec_clear : forall z, clear (dec z).
Proof. intros [|p|p]; cbn [dec]; try apply uint_clear. apply clear_cons; [discriminate|apply uint_clear]. Qed.
Lemma int_clear : forall s, IntText s -> clear s.
Proof. intros s [->|(d & ds & -> & H & _)]; [intros [H|[]]; discriminate|now apply digits_clear]. Qed.
Lemma float_clear : forall s, FloatText s -> clear s.
Proof.
  intros s [| | |sg ip fr ex Hsg Hi Hf He _].
  1-3: intro H; cbn in H; repeat (destruct H as [H|H]; [discriminate|]); exact H.
  apply clear_app; [destruct Hsg as [<-|[<-|[]]]; intro H; cbn in H; repeat (destruct H as [H|H]; [discriminate|]); exact H|].
  apply clear_app; [now apply int_clear|]. apply clear_app.
  - destruct Hf as [->|(ds & -> & _ & Hd)]; [intros []|]. apply clear_cons; [discriminate|now apply digits_clear].
  - destruct He as [->|(sg2 & ds & -> & Hs2 & _ & Hd)]; [intros []|]. apply clear_cons; [discriminate|]. apply clear_app; [|now apply digits_clear].
    destruct Hs2 as [<-|[<-|[<-|[]]]]; intro H; cbn in H; repeat (destruct H as [H|H]; [discriminate|]); exact H.
Qed.
Lemma commas_clear : forall l, Forall clear l -> clear (commas l).
Proof.
  induction l as [|w l IH]; intro H; [intros []|]. destruct l as [|v l]; [exact (Forall_inv H)|].
  rewrite commas_cons by discriminate. apply clear_app; [exact (Forall_inv H)|].
  apply clear_app; [intro G; cbn in G; repeat (destruct G as [G|G]; [discriminate|]); exact G|]. apply IH. exact (Forall_inv_tail H).
Qed.
Lemma enc_clear : forall v s, wf v -> enc v = Ok s -> clear s.
Proof.
  assert (HL : forall l parts, Forall (fun v => forall s, wf v -> enc v = Ok s -> clear s) l -> wfs l ->
      enc_list l = Ok parts -> Forall clear parts).
  { induction l as [|x l IHl]; intros parts IH W E; [injection E as <-; constructor|].
    destruct (enc_list_cons _ _ _ E) as (a & b & Ea & Eb & ->). destruct W as [W1 W2].
    constructor; [exact (Forall_inv IH a W1 Ea)|]. apply IHl; [exact (Forall_inv_tail IH)|assumption|assumption]. }
  assert (HB : forall parts (x y : ascii), x <> nul -> y <> nul -> Forall clear parts -> clear (x :: commas parts ++ [y])).
  { intros parts x y Hx Hy H. apply clear_cons; [assumption|]. apply clear_app; [now apply commas_clear|]. intros [G|[]]; congruence. }
  induction v as [|b|z|lit|x|x|x|z|l IH|kv IH|l IH] using av_ind'; intros s W E.
  - injection E as <-. intro H; cbn in H; repeat (destruct H as [H|H]; [discriminate|]); exact H.
  - destruct b; injection E as <-; intro H; cbn in H; repeat (destruct H as [H|H]; [discriminate|]); exact H.
  - injection E as <-. apply dec_clear.
  - injection E as <-. now apply float_clear.
  - injection E as <-. apply quoted_clear.
  - cbn [enc] in E. destruct (forallb _ x) in E; [|discriminate]. injection E as <-. apply quoted_clear.
  - injection E as <-. apply quoted_clear.
  - discriminate.
  - rewrite enc_AList in E. destruct (enc_list l) as [parts|] eqn:EL; [|discriminate]. injection E as <-.
    apply HB; [discriminate|discriminate|]. eapply HL; eauto.
  - rewrite enc_ADict in E. destruct (enc_dict kv) as [parts|] eqn:EL; [|discriminate]. injection E as <-.
    apply HB; [discriminate|discriminate|]. destruct W as [_ W]. change (wfd kv) in W.
    clear - IH W EL. revert parts EL. induction kv as [|[k x] kv IHl]; intros parts EL; [injection EL as <-; constructor|].
    destruct (enc_dict_cons _ _ _ _ EL) as (a & b & Ea & Eb & ->). destruct W as [W1 W2].
    constructor; [|apply IHl; [exact (Forall_inv_tail IH)|assumption|assumption]].
    apply clear_app; [apply quoted_clear|]. apply clear_app; [intro G; cbn in G; repeat (destruct G as [G|G]; [discriminate|]); exact G|].
    exact (Forall_inv IH a W1 Ea).
  - rewrite enc_AArr in E. destruct l as [|x [|y l]].
    + injection E as <-. intros [H|[H|[]]]; discriminate.
    + destruct W as [W _]. exact (Forall_inv IH s W E).
    + rewrite enc_AList in E. destruct (enc_list (x :: y :: l)) as [parts|] eqn:EL; [|discriminate]. injection E as <-.
      apply HB; [discriminate|discriminate|]. eapply HL; eauto.
Qed.

Lemma int64_ok : forall z, h5_int z <-> int64 z = true.
Proof. intro z. unfold h5_int, int64. rewrite andb_true_iff, Z.leb_le, Z.ltb_lt. reflexivity. Qed.
Lemma h5_list_array : forall l, h5_list l -> np_array l = Ok (AArr l) /\
  forallb (fun x => match x with AStr s => no_nul s | _ => true end) l = true /\
  map (fun x => match x with ABytes s => AStr s | _ => x end) l = l.
Proof.
  intros l [(zs & -> & H)|[(bs & ->)|[(fs & ->)|(ss & -> & H)]]]; unfold np_array.
  - assert (E : forallb is_int (map AInt zs) = true).
    { apply forallb_forall. intros x Hx. apply in_map_iff in Hx as (z & <- & Hz). rewrite Forall_forall in H. now apply int64_ok, H. }
    rewrite E. cbn [orb]. split; [reflexivity|]. split.
    + apply forallb_forall. intros x Hx. apply in_map_iff in Hx as (z & <- & Hz). reflexivity.
    + rewrite map_map. reflexivity.
  - assert (E : forallb is_bool (map ABool bs) = true).
    { apply forallb_forall. intros x Hx. apply in_map_iff in Hx as (z & <- & Hz). reflexivity. }
    rewrite E, orb_true_r. cbn [orb]. split; [reflexivity|]. split.
    + apply forallb_forall. intros x Hx. apply in_map_iff in Hx as (z & <- & Hz). reflexivity.
    + rewrite map_map. reflexivity.
  - assert (E : forallb is_float (map AFloat fs) = true).
    { apply forallb_forall. intros x Hx. apply in_map_iff in Hx as (z & <- & Hz). reflexivity. }
    rewrite E, orb_true_r. cbn [orb]. split; [reflexivity|]. split.
    + apply forallb_forall. intros x Hx. apply in_map_iff in Hx as (z & <- & Hz). reflexivity.
    + rewrite map_map. reflexivity.
  - assert (E : forallb is_str (map AStr ss) = true).
    { apply forallb_forall. intros x Hx. apply in_map_iff in Hx as (z & <- & Hz). reflexivity. }
    rewrite E, orb_true_r. split; [reflexivity|]. split.
    + apply forallb_forall. intros x Hx. apply in_map_iff in Hx as (z & <- & Hz). rewrite Forall_forall in H. now apply no_nul_text, H.
    + rewrite map_map. reflexivity.
Qed.
Lemma h5_out : forall v, h5_value v -> copy_value true H5 v = Ok (h5_form v).
Proof.
  intros v H. destruct v as [|b|z|lit|x|x|x|z|l|kv|l]; try (destruct H; fail);
    unfold copy_value, map_unicode; cbn [negb rbind map_json item set h5_form h5_set h5_value] in *; try reflexivity.
  - apply int64_ok in H. now rewrite H.
  - destruct H as [H1 H2]. rewrite untagged_false by assumption. cbn [rbind item set h5_set].
    apply no_nul_text in H2. now rewrite H2.
  - destruct (h5_list_array l H) as (E1 & E2 & _). rewrite E1. cbn [rbind map_json item set h5_set]. now rewrite E2.
  - destruct (jsonlike_ok _ H) as (W & HP & s & HE). rewrite HE. cbn [rbind item set h5_set].
    assert (HN : no_nul (json_prefix ++ s) = true); [|now rewrite HN].
    apply no_nul_text. apply clear_app; [intro G; cbn in G; repeat (destruct G as [G|G]; [discriminate|]); exact G|].
    eapply enc_clear; eauto.
Qed.
Lemma h5_in : forall v, h5_value v -> copy_value true Mem (h5_form v) = Ok (h5_back v).
Proof.
  intros v H. destruct v as [|b|z|lit|x|x|x|z|l|kv|l]; try (destruct H; fail);
    unfold copy_value, map_unicode; cbn [negb rbind bytes_to_unicode map_json item set h5_form h5_back h5_value] in *; try reflexivity.
  - destruct H as [H1 H2]. rewrite untagged_false by assumption. reflexivity.
  - destruct (h5_list_array l H) as (_ & _ & E3). rewrite E3. reflexivity.
  - destruct (jsonlike_ok _ H) as (W & HP & s & HE). rewrite HE. cbn [bytes_to_unicode]. destruct (tag_decode s) as [-> ->].
    rewrite (loads_enc _ _ W HE), HP. reflexivity.
Qed.

Theorem roundtrip : forall t form back (good : av -> Prop) a,
  (forall v, good v -> copy_value true t v = Ok (form v)) ->
  (forall v, good v -> copy_value true Mem (form v) = Ok (back v)) ->
  (forall k v, dget k a = Some v -> good v) ->
  exists f b, copyattrs a t true [] = Ok f /\ copyattrs f Mem true [] = Ok b /\
  forall k, dget k b = option_map back (dget k a).
Proof.
  intros t form back good a H1 H2 Ha.
  destruct (copyattrs_ok a t true [] form) as (f & Hf & Kf); [intros k v Hv; apply H1; eauto|].
  assert (HK : forall k v, dget k f = Some v -> exists w, dget k a = Some w /\ v = form w).
  { intros k v Hv. rewrite Kf in Hv. destruct (dget k a) as [w|]; [|discriminate]. injection Hv as <-. eauto. }
  (* the second copy, as a function of the key *)
  assert (G : exists b, copyattrs f Mem true [] = Ok b /\ forall k, dget k b =
              match dget k f with Some v => match copy_value true Mem v with Ok w => Some w | Err _ => None end | None => None end).
  { destruct (copyattrs_ok f Mem true [] (fun v => match copy_value true Mem v with Ok w => w | Err _ => v end)) as (b & Hb & Kb).
    - intros k v Hv. destruct (HK k v Hv) as (w & Hw & ->). rewrite (H2 w (Ha k w Hw)). reflexivity.
    - exists b. split; [assumption|]. intro k. rewrite Kb. destruct (dget k f) as [v|] eqn:E0; [|reflexivity].
      destruct (HK k v E0) as (w & Hw & ->). now rewrite (H2 w (Ha k w Hw)). }
  destruct G as (b & Hb & Kb). exists f, b. split; [assumption|]. split; [assumption|].
  intro k. rewrite Kb, Kf. destruct (dget k a) as [v|] eqn:E0; [|reflexivity]. cbn [option_map].
  now rewrite (H2 v (Ha k v E0)).
Qed.

(** *** What can be written *)
Fixpoint encs_ok (l : list av) : Prop := match l with [] => True | x :: r => encodable x /\ encs_ok r end.
Fixpoint encd_ok (l : list (str * av)) : Prop := match l with [] => True | (_, x) :: r => encodable x /\ encd_ok r end.
Lemma rbind_ok : forall (A B : Type) (r : res A) (f : A -> res B), (exists b, rbind r f = Ok b) <-> exists a, r = Ok a /\ exists b, f a = Ok b.
Proof.
  intros A B r f. destruct r as [a|e]; cbn [rbind].
  - split; [intros (b & H); exists a; eauto|intros (a' & H & b & Hb)]. injection H as <-. eauto.
  - split; [intros (b & H); discriminate|intros (a & H & _); discriminate].
Qed.
Lemma encodable_iff : forall v, (exists s, enc v = Ok s) <-> encodable v.
Proof.
  assert (HL : forall l, Forall (fun v => (exists s, enc v = Ok s) <-> encodable v) l ->
     ((exists p, enc_list l = Ok p) <-> encs_ok l)).
  { induction l as [|x l IHl]; intro F; [cbn; split; [trivial|eauto]|].
    cbn [enc_list encs_ok]. rewrite rbind_ok. rewrite <- (Forall_inv F), <- (IHl (Forall_inv_tail F)). split.
    - intros (a & Ha & H). apply rbind_ok in H as (b & Hb & _). eauto.
    - intros ((a & Ha) & b & Hb). exists a. split; [assumption|]. apply rbind_ok. exists b. split; [assumption|eauto]. }
  induction v as [|b|z|lit|x|x|x|z|l IH|kv IH|l IH] using av_ind'; cbn [encodable].
  - split; [trivial|cbn; eauto].
  - split; [trivial|destruct b; cbn; eauto].
  - split; [trivial|cbn; eauto].
  - split; [trivial|cbn; eauto].
  - split; [trivial|cbn; eauto].
  - cbn [enc]. rewrite Forall_forall.
    destruct (forallb _ x) eqn:E0.
    + split; [|eauto]. intros _ c Hc. rewrite forallb_forall in E0. now apply Nat.ltb_lt, E0.
    + split; [intros (s & H); discriminate|]. intro H. exfalso. apply not_true_iff_false in E0. apply E0.
      apply forallb_forall. intros c Hc. now apply Nat.ltb_lt, H.
  - split; [trivial|cbn; eauto].
  - split; [intros (s & H); discriminate|intros []].
  - rewrite enc_AList, rbind_ok. change ((exists a, enc_list l = Ok a /\ (exists b, Ok ("["%char :: commas a ++ ["]"%char]) = Ok b)) <-> encs_ok l).
    rewrite <- (HL l IH). split; [intros (a & Ha & _); eauto|intros (a & Ha); eauto].
  - rewrite enc_ADict, rbind_ok. change ((exists a, enc_dict kv = Ok a /\ (exists b, Ok ("{"%char :: commas a ++ ["}"%char]) = Ok b)) <-> encd_ok kv).
    transitivity (exists p, enc_dict kv = Ok p); [split; [intros (a & Ha & _); eauto|intros (a & Ha); eauto]|].
    induction kv as [|[k x] kv IHl]; [cbn; split; [trivial|eauto]|].
    cbn [enc_dict encd_ok]. rewrite rbind_ok. rewrite <- (Forall_inv IH : _ <-> encodable x), <- (IHl (Forall_inv_tail IH)). split.
    + intros (a & Ha & H). apply rbind_ok in H as (b & Hb & _). eauto.
    + intros ((a & Ha) & b & Hb). exists a. split; [assumption|]. apply rbind_ok. exists b. split; [assumption|eauto].
  - rewrite enc_AArr. change ((exists s, match l with [x] => enc x | _ => enc (AList l) end = Ok s) <-> encs_ok l).
    assert (G : (exists s, enc (AList l) = Ok s) <-> encs_ok l).
    { rewrite enc_AList, rbind_ok, <- (HL l IH). split; [intros (a & Ha & _); eauto|intros (a & Ha); eauto]. }
    destruct l as [|x [|y l]]; [exact G| |exact G].
    rewrite (Forall_inv IH). cbn [encs_ok]. tauto.
Qed.
