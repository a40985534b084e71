(** Lemmas for the data types. *)
From Coq Require Import String.
From Coq Require Import List Ascii Bool Arith Lia.
From Verif Require Import PyBase PyStr TypModel TypSpec.
Import ListNotations.
Open Scope list_scope.
Open Scope nat_scope.

Section Ind.
  Variable P : dtype -> Prop.
  Hypothesis HL : forall s m, P (Leaf s m).
  Hypothesis HC : forall l, Forall (fun i => match i with Gap _ => True | Field _ t _ => P t end) l -> P (Comp l).
  Fixpoint dtype_ind' (t : dtype) : P t.
  Proof.
    destruct t as [s m|l]; [apply HL|]. apply HC.
    induction l as [|i l IH]; constructor; [|exact IH].
    destruct i as [n|name t shape]; [exact I|apply dtype_ind'].
  Defined.
End Ind.

Lemma replace2_none : forall a b new s, ~ In a s -> replace2 a b new s = s.
Proof.
  intros a b new s. induction s as [|x s IH]; intros H; [reflexivity|].
  cbn [replace2]. destruct s as [|y r]; [reflexivity|].
  assert (E : ceqb x a = false) by (apply ceqb_neq; intros ->; apply H; now left).
  rewrite E. cbn [andb]. rewrite IH; [reflexivity|]. intros Hin. apply H; now right.
Qed.
Lemma replace2_head : forall a b new o k r, ~ In a (k :: r) ->
  replace2 a b new (o :: k :: r) = if ceqb o a && ceqb k b then new ++ r else o :: k :: r.
Proof.
  intros a b new o k r H. change (replace2 a b new (o :: k :: r)) with
    (if ceqb o a && ceqb k b then new ++ replace2 a b new r else o :: replace2 a b new (k :: r)).
  rewrite !replace2_none; auto. intros Hin. apply H. now right.
Qed.
Lemma conv_s2u : forall s, type_string s -> replace2 "|"%char "S"%char (s_ "<U") s = s2u s.
Proof. intros s (o & k & r & -> & H1 & H2). now rewrite replace2_head. Qed.
Lemma conv_u2s : forall s, type_string s -> replace2 "<"%char "U"%char (s_ "|S") s = u2s s.
Proof. intros s (o & k & r & -> & H1 & H2). now rewrite replace2_head. Qed.

Section C.
Variables (fa fb : ascii) (to : str).
Lemma mkdtype_list : forall l i,
  (fix go (i : nat) (l : list (str * dty * list nat)) : list item :=
      match l with
      | [] => []
      | (name, t, shape) :: r =>
          Field (match name with [] => default_name i | _ => name end) (mkdtype t) shape :: go (S i) r
      end) i l = map (fun p => match p with (j, (name, t, shape)) =>
                   Field (match name with [] => default_name j | _ => name end) (mkdtype t) shape end)
                 (combine (seq i (length l)) l).
Proof.
  induction l as [|[[name t] shape] l IH]; intros i; [reflexivity|]. cbn [length seq combine map]. now rewrite IH.
Qed.
Lemma convert_plain : forall t, plain t -> mkdtype (iter_conv fa fb to (descr_of t)) = map_leaves (conv_str fa fb to) t.
Proof.
  induction t as [s m|l IH] using dtype_ind'; intros H.
  - cbn in H. subst m. reflexivity.
  - cbn [descr_of iter_conv mkdtype map_leaves]. f_equal. rewrite mkdtype_list. rewrite !map_length.
    destruct H as [_ H]. generalize 0 as i. revert H IH.
    induction l as [|[n|name t shape] l IHl]; intros H IH i; [reflexivity|destruct H|].
    destruct H as (H1 & -> & H3 & H4). cbn [length seq map combine]. f_equal.
    + destruct name; [congruence|]. f_equal. exact (Forall_inv IH H3).
    + apply IHl; auto. exact (Forall_inv_tail IH).
Qed.
End C.

Lemma map_leaves_ext : forall f g t, (forall s, In s (leaves t) -> f s = g s) -> map_leaves f t = map_leaves g t.
Proof.
  induction t as [s m|l IH] using dtype_ind'; intros H; cbn.
  - rewrite H; [reflexivity|now left].
  - f_equal. apply map_ext_in. intros [n|name t shape] Hin; [reflexivity|]. f_equal.
    rewrite Forall_forall in IH. apply (IH _ Hin). intros s Hs. apply H. cbn. apply in_flat_map.
    exists (Field name t shape). auto.
Qed.
Lemma map_leaves_id : forall t, map_leaves (fun s => s) t = t.
Proof.
  induction t as [s m|l IH] using dtype_ind'; cbn; [reflexivity|]. f_equal.
  rewrite <- (map_id l) at 2. apply map_ext_in. intros [n|name t shape] Hin; [reflexivity|]. f_equal.
  rewrite Forall_forall in IH. apply (IH _ Hin).
Qed.
Lemma map_leaves_comp : forall f g t, map_leaves f (map_leaves g t) = map_leaves (fun s => f (g s)) t.
Proof.
  induction t as [s m|l IH] using dtype_ind'; cbn; [reflexivity|]. f_equal.
  rewrite map_map. apply map_ext_in. intros [n|name t shape] Hin; [reflexivity|]. f_equal.
  rewrite Forall_forall in IH. apply (IH _ Hin).
Qed.
Lemma leaves_map : forall f t, leaves (map_leaves f t) = map f (leaves t).
Proof.
  induction t as [s m|l IH] using dtype_ind'; cbn; [reflexivity|].
  induction l as [|[n|name t shape] l IHl]; cbn; auto.
  - apply IHl. exact (Forall_inv_tail IH).
  - rewrite map_app. f_equal; [exact (Forall_inv IH)|]. apply IHl. exact (Forall_inv_tail IH).
Qed.
Lemma plain_map : forall f t, plain t -> plain (map_leaves f t).
Proof.
  induction t as [s m|l IH] using dtype_ind'; cbn; auto. intros [Hne H]. split; [destruct l; [congruence|discriminate]|].
  clear Hne. induction l as [|[n|name t shape] l IHl]; cbn in *; auto.
  destruct H as (H1 & H2 & H3 & H4). repeat split; auto; [exact (Forall_inv IH H3)|].
  apply IHl; auto. exact (Forall_inv_tail IH).
Qed.

Lemma convert_top : forall fa fb to t, plain t -> convert_dtype fa fb to t = map_leaves (conv_str fa fb to) t.
Proof.
  intros fa fb to [s m|[|i l]] H.
  - cbn in H. subst. reflexivity.
  - destruct H as [H _]. congruence.
  - unfold convert_dtype. now apply convert_plain.
Qed.

Lemma s2u_type_string : forall s, type_string s -> type_string (s2u s).
Proof.
  intros s (o & k & r & -> & H1 & H2). cbn [s2u]. destruct (ceqb o "|" && ceqb k "S").
  - exists "<"%char, "U"%char, r. split; auto. cbn [In] in *. split; intros [H|H]; try discriminate; tauto.
  - exists o, k, r. auto.
Qed.
Lemma u2s_type_string : forall s, type_string s -> type_string (u2s s).
Proof.
  intros s (o & k & r & -> & H1 & H2). cbn [u2s]. destruct (ceqb o "<" && ceqb k "U").
  - exists "|"%char, "S"%char, r. split; auto. cbn [In] in *. split; intros [H|H]; try discriminate; tauto.
  - exists o, k, r. auto.
Qed.
Lemma u2s_s2u : forall s, kind_of s <> Some "U"%char -> u2s (s2u s) = s.
Proof.
  intros [|o [|k r]] H; try reflexivity. cbn [s2u]. destruct (ceqb o "|" && ceqb k "S") eqn:E.
  - apply andb_true_iff in E as [E1 E2]. apply ceqb_eq in E1, E2. now subst.
  - cbn [u2s]. destruct (ceqb o "<" && ceqb k "U") eqn:E'; [|reflexivity].
    apply andb_true_iff in E' as [E1 E2]. apply ceqb_eq in E1, E2. subst. cbn in H. congruence.
Qed.
Lemma s2u_u2s : forall s, kind_of s <> Some "S"%char -> s2u (u2s s) = s.
Proof.
  intros [|o [|k r]] H; try reflexivity. cbn [u2s]. destruct (ceqb o "<" && ceqb k "U") eqn:E.
  - apply andb_true_iff in E as [E1 E2]. apply ceqb_eq in E1, E2. now subst.
  - cbn [s2u]. destruct (ceqb o "|" && ceqb k "S") eqn:E'; [|reflexivity].
    apply andb_true_iff in E' as [E1 E2]. apply ceqb_eq in E1, E2. subst. cbn in H. congruence.
Qed.

(** * Kinds *)
Definition kinds_of (kind : ascii) (t : dtype) : bool :=
  existsb (fun s => match kind_of s with Some k => ceqb k kind | None => false end) (leaves t).

Fixpoint kind_go (kind : ascii) (l : list (str * dty * list nat)) : res bool :=
  match l with
  | [] => Ok false
  | (_, t, _) :: r =>
      rbind (kind_in kind t) (fun b =>
      if b then Ok true
      else match t with
           | TList (_ :: _ :: _) => kind_go kind r
           | TList _ => Err IndexError
           | _ => kind_go kind r
           end)
  end.
Lemma kind_in_list : forall kind l, kind_in kind (TList l) = kind_go kind l.
Proof. intros. induction l as [|[[name t] shape] l IH]; [reflexivity|]. cbn [kind_go]. rewrite <- IH. reflexivity. Qed.

Definition ditem (i : item) : str * dty * list nat :=
  match i with
  | Gap n => ([], TStr (s_ "|V" ++ n), [])
  | Field name t shape => (name, descr_of t, shape)
  end.
Lemma kind_sound : forall kind, kind <> "V"%char -> forall t b,
  kind_in kind (descr_of t) = Ok b -> b = kinds_of kind t.
Proof.
  intros kind HV. induction t as [s m|l IH] using dtype_ind'; intros b H.
  - assert (H' : rbind (second s) (fun k => Ok (ceqb k kind)) = Ok b) by (destruct m; exact H).
    destruct s as [|o [|k r]]; try discriminate. cbn in H'. injection H' as <-.
    unfold kinds_of. cbn. now rewrite orb_false_r.
  - change (kind_in kind (TList (map ditem l)) = Ok b) in H. rewrite kind_in_list in H. revert b H.
    unfold kinds_of in *. cbn [leaves].
    induction l as [|i l IHl]; intros b H; [cbn in H; injection H as <-; reflexivity|].
    cbn [map kind_go] in H. specialize (IHl (Forall_inv_tail IH)). apply Forall_inv in IH.
    destruct i as [n|name t shape].
    + cbn [ditem kind_in s_ app second rbind] in H.
      assert (E : ceqb "V" kind = false) by (apply ceqb_neq; congruence).
      change (rbind (Ok (ceqb "V" kind)) (fun b => if b then Ok true else kind_go kind (map ditem l)) = Ok b) in H.
      rewrite E in H. cbn [rbind] in H. cbn [flat_map app]. auto.
    + cbn [ditem] in H. destruct (kind_in kind (descr_of t)) as [b1|] eqn:E; [|discriminate]. cbn [rbind] in H.
      cbn [flat_map]. rewrite existsb_app, <- (IH b1 eq_refl). destruct b1.
      * injection H as <-. reflexivity.
      * cbn [orb]. destruct (descr_of t) as [s|s|[|x [|y l']]]; try discriminate; auto.
Qed.

Lemma kind_total : forall kind t, wide t -> (forall s, In s (leaves t) -> type_string s) ->
  exists b, kind_in kind (descr_of t) = Ok b.
Proof.
  intros kind. induction t as [s m|l IH] using dtype_ind'; intros W T.
  - destruct (T s) as (o & k & r & -> & _); [now left|]. destruct m; eexists; reflexivity.
  - change (exists b, kind_in kind (TList (map ditem l)) = Ok b). rewrite kind_in_list. cbn [wide leaves] in W, T.
    induction l as [|i l IHl]; [eexists; reflexivity|].
    cbn [map kind_go]. specialize (IHl (Forall_inv_tail IH)). apply Forall_inv in IH.
    destruct i as [n|name t shape].
    + destruct IHl as [b Hb]; auto.
      change (exists b, rbind (Ok (ceqb "V" kind)) (fun b => if b then Ok true else kind_go kind (map ditem l)) = Ok b).
      cbn [rbind]. destruct (ceqb "V" kind); eauto.
    + cbn [flat_map] in T. destruct W as (W1 & W2 & W3). destruct IHl as [b Hb]; auto.
      { intros s Hs. apply T. apply in_or_app. now right. }
      destruct IH as [b1 Hb1]; auto. { intros s Hs. apply T. apply in_or_app. now left. }
      cbn [ditem]. rewrite Hb1. cbn [rbind]. destruct b1; [eauto|].
      destruct t as [s m|[|x [|y l']]]; cbn [descr_of map]; cbn in W1; try lia; [destruct m|]; eauto.
Qed.
