(** Lemmas for selections. *)
From Coq Require Import String.
From Coq Require Import List Ascii Bool Arith ZArith Lia Sorting.Sorted Permutation.
From Verif Require Import PyBase PyStr MemModel MemProofs2 AttrModel AttrProofs CopyProofs ContModel ContProofs FlowSpec SelModel SelSpec.
Import ListNotations.
Open Scope list_scope.
Open Scope nat_scope.

(** * Values *)
Lemma is_int_iff : forall v, is_int v = true <-> Int v.
Proof. intros v. destruct v; cbn; split; intros H; try discriminate; try constructor; inversion H. Qed.
Definition kparse (k : kind) : yaml -> res selector := match k with Range => parse_range | Index => parse_index is_int | Map => parse_index is_object end.
Lemma ints_iff : forall l, forallb is_int l = true <-> forall v, In v l -> Int v.
Proof. intros l. rewrite forallb_forall. split; intros H v I; [apply is_int_iff|apply is_int_iff]; auto. Qed.
Lemma kparse_iff : forall k v s, kparse k v = Ok s <-> Means k v s.
Proof.
  intros k v s. destruct k; cbn [kparse].
  - split; intros H.
    + destruct v; try discriminate. cbn [parse_range] in H. destruct ((3 <? length l) || (length l <? 2)) eqn:L; [discriminate|].
      destruct (forallb is_int l) eqn:F; [|discriminate]. injection H as <-. rewrite ints_iff in F.
      apply orb_false_iff in L as [L1 L2]. apply Nat.ltb_ge in L1, L2.
      destruct l as [|a [|b [|c [|d l]]]]; cbn in L1, L2; try lia; constructor; apply F; cbn; auto.
    + inversion H; subst; cbn [parse_range length]; cbn [Nat.ltb Nat.leb orb].
      * rewrite (proj2 (ints_iff [a; b])); [reflexivity|]. intros v [<-|[<-|[]]]; auto.
      * rewrite (proj2 (ints_iff [a; b; c])); [reflexivity|]. intros v [<-|[<-|[<-|[]]]]; auto.
  - split; intros H.
    + destruct v; try discriminate. cbn [parse_index] in H. destruct (length l =? 0) eqn:L; [discriminate|]. destruct (forallb is_int l) eqn:F; [|discriminate].
      injection H as <-. constructor; [intros ->; discriminate|]. now apply ints_iff.
    + inversion H; subst. cbn [parse_index]. destruct l as [|a l]; [congruence|]. cbn [length Nat.eqb]. now rewrite (proj2 (ints_iff (a :: l))).
  - split; intros H.
    + destruct v; try discriminate. cbn [parse_index] in H. destruct (length l =? 0) eqn:L; [discriminate|]. destruct (forallb is_object l) eqn:F; [|discriminate].
      injection H as <-. constructor. intros ->; discriminate.
    + inversion H; subst. cbn [parse_index]. destruct l as [|a l]; [congruence|]. cbn [length Nat.eqb]. rewrite (proj2 (forallb_forall is_object (a :: l))); auto.
Qed.
Lemma kparse_err : forall k v, (exists s, kparse k v = Ok s) \/ kparse k v = Err ValueError.
Proof.
  intros k v. destruct k; cbn; destruct v; auto; cbn;
    repeat match goal with |- context [if ?b then _ else _] => destruct b end; eauto.
Qed.
(** * Keys *)
Lemma parser_iff : forall allow t f, parser allow t = Some f <-> exists k, t = kind_name k /\ f = kparse k /\ (k = Map -> allow = true).
Proof.
  intros allow t f. unfold parser. split.
  - destruct (seqb t (s_ "range")) eqn:E1; [intros H; injection H as <-; exists Range; apply seqb_eq in E1; repeat split; auto; discriminate|].
    destruct (seqb t (s_ "index")) eqn:E2; [intros H; injection H as <-; exists Index; apply seqb_eq in E2; repeat split; auto; discriminate|].
    destruct (seqb t (s_ "map")) eqn:E3; [|discriminate]. destruct allow eqn:Ea; [|discriminate]. intros H; injection H as <-. exists Map.
    apply seqb_eq in E3. repeat split; auto.
  - intros (k & -> & -> & H). destruct k; try reflexivity. rewrite H by reflexivity. reflexivity.
Qed.
Lemma no_underscore : forall k, ~ In underscore (kind_name k).
Proof. intros k I. destruct k; cbn in I; repeat destruct I as [I|I]; try discriminate; destruct I. Qed.
Lemma split_snoc : forall c a w, ~ In c w -> split c (a ++ c :: w) = split c a ++ [w].
Proof.
  intros c a w H. rewrite <- (join_split c a) at 1.
  assert (G : forall l, l <> [] -> (forall x, In x l -> ~ In c x) -> split c (join c l ++ c :: w) = l ++ [w]).
  { induction l as [|x l IH]; intros N F; [congruence|]. cbn [join]. destruct l as [|y l].
    - rewrite split_app by (apply F; now left). rewrite split_word by exact H. reflexivity.
    - rewrite <- app_assoc. cbn [app]. rewrite split_app by (apply F; now left).
      f_equal. apply IH; [discriminate|]. intros; apply F; now right. }
  apply G; [apply split_nonempty|apply split_noslash].
Qed.
Lemma key_parts_of : forall axis k, key_parts (key_of axis k) = (axis, kind_name k).
Proof.
  intros axis k. unfold key_parts, key_of. change (axis ++ s_ "_" ++ kind_name k) with (axis ++ underscore :: kind_name k).
  rewrite split_snoc by apply no_underscore. rewrite removelast_last, last_last, join_split. reflexivity.
Qed.
Lemma key_parts_word : forall k, key_parts (kind_name k) = ([], kind_name k).
Proof. intros k. unfold key_parts. rewrite split_word by apply no_underscore. reflexivity. Qed.
Lemma key_parts_inv : forall k, (exists a t, k = a ++ underscore :: t /\ key_parts k = (a, t)) \/ key_parts k = ([], k).
Proof.
  intros k. unfold key_parts. pose proof (split_nonempty underscore k) as N. destruct (exists_last N) as (l & w & E). rewrite E, removelast_last, last_last.
  destruct l as [|x l].
  - right. cbn. rewrite <- (join_split underscore k), E. reflexivity.
  - left. exists (join underscore (x :: l)), w. split; [|reflexivity]. rewrite <- (join_split underscore k), E.
    clear. revert x. induction l as [|y l IH]; intros x; [reflexivity|]. cbn [app join]. rewrite <- app_assoc. cbn [app]. f_equal. f_equal. apply IH.
Qed.
Lemma allowed_iff : forall allow k kd, Allowed allow k kd <-> snd (key_parts k) = kind_name kd /\ (kd = Map -> allow = true).
Proof.
  intros allow k kd. unfold Allowed. split.
  - intros [A [(axis & ->)| ->]]; split; auto; [now rewrite key_parts_of|now rewrite key_parts_word].
  - intros [E A]. split; auto. destruct (key_parts_inv k) as [(a & t & -> & P)|P]; rewrite P in E; cbn in E; [left; exists a; now subst|right; exact E].
Qed.
(** * The loop *)
Definition one (allow : bool) (selections : list (str * yaml)) (k : str) : res (str * selector) :=
  match parser allow (snd (key_parts k)) with
  | None => Err ValueError
  | Some f => match dget k selections with None => Err KeyError | Some v => rbind (f v) (fun s => Ok (fst (key_parts k), s)) end
  end.
Lemma sel_step_one : forall allow sels k d, sel_step allow sels (Ok d) k = rbind (one allow sels k) (fun p => Ok (dput (sel_name (fst p)) (snd p) d)).
Proof.
  intros. unfold sel_step, one. cbn [rbind]. destruct (key_parts k) as [a t]. cbn [fst snd]. destruct (parser allow t); [|reflexivity].
  destruct (dget k sels); [|reflexivity]. destruct (r y); reflexivity.
Qed.
Lemma fold_err : forall allow sels ks e, fold_left (sel_step allow sels) ks (Err e) = Err e.
Proof. intros allow sels ks e. induction ks as [|k ks IH]; [reflexivity|exact IH]. Qed.
Lemma sel_name_inj : forall a b, sel_name a = sel_name b -> a = b.
Proof. intros a b H. unfold sel_name in H. now apply app_inv_tail in H. Qed.
Lemma fold_ok : forall allow sels ks d, (forall k, In k ks -> exists p, one allow sels k = Ok p /\ fst p = fst (key_parts k)) ->
  exists r, fold_left (sel_step allow sels) ks (Ok d) = Ok r /\ forall a,
    (forall k p, LastWith (fun k => fst (key_parts k) = a) ks k -> one allow sels k = Ok p -> dget (sel_name a) r = Some (snd p)) /\
    ((forall k, In k ks -> fst (key_parts k) <> a) -> dget (sel_name a) r = dget (sel_name a) d).
Proof.
  intros allow sels ks. induction ks as [|k ks IH]; intros d H.
  - exists d. split; [reflexivity|]. intros a. split; [|auto]. intros k p (x & y & E & _). destruct x; discriminate.
  - cbn [fold_left]. rewrite sel_step_one. destruct (H k (or_introl eq_refl)) as ([a s] & E & Ea). rewrite E. cbn [rbind fst snd] in *.
    destruct (IH (dput (sel_name a) s d)) as (r & R & P); [intros; apply H; now right|]. exists r. split; [exact R|]. intros b. destruct (P b) as [P1 P2]. split.
    + intros k0 p (x & y & El & Ek & N) Hp. destruct x as [|z x].
      * injection El as -> ->. rewrite Hp in E. injection E as ->. cbn [snd]. rewrite P2; [|intros k I; now apply N]. rewrite <- Ek, <- Ea. apply dget_dput_same.
      * injection El as -> ->. apply (P1 k0 p); auto. exists x, y. auto.
    + intros N. rewrite P2 by (intros; apply N; now right). apply dget_dput_other. intros K. apply sel_name_inj in K.
      apply (N k); [now left|]. now rewrite <- Ea.
Qed.
Lemma fold_bad : forall allow sels ks d k, In k ks -> one allow sels k = Err ValueError ->
  (forall k, In k ks -> (exists p, one allow sels k = Ok p) \/ one allow sels k = Err ValueError) ->
  fold_left (sel_step allow sels) ks (Ok d) = Err ValueError.
Proof.
  intros allow sels ks. induction ks as [|x ks IH]; intros d k I E H; [destruct I|]. cbn [fold_left]. rewrite sel_step_one.
  destruct (H x (or_introl eq_refl)) as [(p & Hp)|Hx].
  - rewrite Hp. cbn [rbind]. destruct I as [<-|I]; [congruence|]. eapply IH; eauto. intros; apply H; now right.
  - rewrite Hx. apply fold_err.
Qed.
(** * Order *)
Lemma sleb_prefix : forall p a b, sleb (p ++ a) (p ++ b) = sleb a b.
Proof. induction p as [|x p IH]; intros a b; [reflexivity|]. cbn [app sleb]. rewrite Nat.ltb_irrefl. apply IH. Qed.
Lemma sorted_last : forall (P : str -> Prop) l x, NoDup l -> In x l -> P x -> (forall y, In y l -> P y -> sleb x y = true -> y = x) ->
  LastWith P (sort_names l) x.
Proof.
  intros P l x N I Px H. pose proof (py_sorted_perm sleb l) as Pm. fold sort_names in Pm. change (py_sorted sleb l) with (sort_names l) in Pm.
  pose proof (py_sorted_sorted sleb sleb_total sleb_trans l) as S. change (py_sorted sleb l) with (sort_names l) in S.
  apply (Permutation_in x Pm) in I. assert (N' : NoDup (sort_names l)) by (eapply Permutation_NoDup; eauto).
  apply in_split in I as (a & b & E). exists a, b. split; [exact E|]. split; [exact Px|]. intros y Iy Py.
  assert (L : sleb x y = true).
  { rewrite E in S. clear - S Iy. induction a as [|z a IH]; cbn [app] in S; inversion S; subst; auto. rewrite Forall_forall in *. auto. }
  assert (y = x); [apply H; auto; apply (Permutation_in y (Permutation_sym Pm)); rewrite E; apply in_or_app; right; now right|].
  subst y. rewrite E in N'. apply NoDup_remove_2 in N'. apply N'. apply in_or_app. now right.
Qed.
(** The kinds in the order of their names. *)
Definition later (k k' : kind) : bool := sleb (kind_name k) (kind_name k').
Lemma later_iff : forall axis k k', sleb (key_of axis k) (key_of axis k') = later k k'.
Proof. intros. unfold key_of. rewrite !sleb_prefix. reflexivity. Qed.
