(** Proofs for distributed groups in files: writing. *)
From Coq Require Import String.
From Coq Require Import List Ascii Bool Arith ZArith Lia Permutation.
From Verif Require Import PyBase PyStr MemModel MemProofs MemProofs2 JsonModel JsonSpec AttrModel AttrSpec AttrProofs PartSpec
  SliceModel SliceSpec NioModel NioSpec NioProofs NioProofs2 NioProofs4 NioProofs5 GfModel GfSpec.
Import ListNotations.
Open Scope list_scope.
Open Scope nat_scope.

Section Ind.
Variable P : gnode -> Prop.
Hypothesis HS : forall d a, P (GSet d a).
Hypothesis HG : forall a kids, (forall k m, In (k, m) kids -> P m) -> P (GGrp a kids).
Fixpoint gnode_ind' (n : gnode) : P n :=
  match n with
  | GSet d a => HS d a
  | GGrp a kids =>
      HG a kids
        ((fix go (l : list (str * gnode)) : forall k m, In (k, m) l -> P m :=
            match l with
            | [] => fun k m H => match H with end
            | (k0, m0) :: l' => fun k m H =>
                match H with
                | or_introl e => eq_ind m0 P (gnode_ind' m0) m (f_equal snd e)
                | or_intror H' => go l' k m H'
                end
            end) kids)
  end.
End Ind.

(** *** Dictionaries *)
Lemma dget_perm : forall V k (l m : list (str * V)), Permutation l m -> NoDup (map fst l) -> dget k l = dget k m.
Proof.
  intros V k l m H. induction H as [|[a x] l m H IH|[a x] [b y] l|l m n H1 IH1 H2 IH2]; intro N; cbn [dget map fst] in *; auto.
  - inversion N; subst. destruct (seqb k a); auto.
  - inversion N as [|? ? Hn ?]; subst. destruct (seqb k a) eqn:E1, (seqb k b) eqn:E2; auto.
    apply seqb_eq in E1. apply seqb_eq in E2. subst. exfalso. apply Hn. now left.
  - rewrite IH1 by assumption. apply IH2. eapply Permutation_NoDup; [|exact N]. now apply Permutation_map.
Qed.
Lemma dget_In : forall V k (x : V) l, NoDup (map fst l) -> In (k, x) l -> dget k l = Some x.
Proof.
  intros V k x. induction l as [|[a y] l IH]; cbn [In map fst dget]; intros N H; [easy|].
  inversion N as [|? ? Hn ?]; subst. destruct H as [E|H].
  - injection E as -> ->. now rewrite seqb_refl.
  - destruct (seqb k a) eqn:E; auto. apply seqb_eq in E. subst. exfalso. apply Hn.
    apply in_map_iff. now exists (a, x).
Qed.
Lemma dput_mid : forall V k (x y : V) pre post, ~ In k (map fst pre) ->
  dput k y (pre ++ (k, x) :: post) = pre ++ (k, y) :: post.
Proof.
  intros V k x y. induction pre as [|[a z] pre IH]; intros post H; cbn [app dput map fst] in *.
  - now rewrite seqb_refl.
  - destruct (seqb k a) eqn:E; [apply seqb_eq in E; subst; exfalso; apply H; now left|].
    f_equal. apply IH. intro; apply H; now right.
Qed.
Lemma dget_mid : forall V k (x : V) pre post, ~ In k (map fst pre) -> dget k (pre ++ (k, x) :: post) = Some x.
Proof.
  intros V k x. induction pre as [|[a z] pre IH]; intros post H; cbn [app dget map fst] in *.
  - now rewrite seqb_refl.
  - destruct (seqb k a) eqn:E; [apply seqb_eq in E; subst; exfalso; apply H; now left|].
    apply IH. intro; apply H; now right.
Qed.
Lemma dput_dput : forall V k (x y : V) l, dput k y (dput k x l) = dput k y l.
Proof.
  intros V k x y. induction l as [|[a z] l IH]; cbn [dput].
  - now rewrite seqb_refl.
  - destruct (seqb k a) eqn:E; cbn [dput]; rewrite E; [reflexivity|now rewrite IH].
Qed.
Lemma dput_id : forall V k (x : V) l, dget k l = Some x -> dput k x l = l.
Proof.
  intros V k x. induction l as [|[a z] l IH]; cbn [dget dput]; intro H; [easy|].
  destruct (seqb k a); [now injection H as ->|f_equal; auto].
Qed.
Lemma dget_dput_eq : forall V k (x : V) l, dget k (dput k x l) = Some x.
Proof. intros. apply dget_dput_same. Qed.

(** *** The children in sorted order *)
Lemma by_key_map : forall X Y (f : str -> X -> Y) (l : list (str * X)),
  exists l', Permutation l l' /\ by_key (map (fun '(k, x) => (k, f k x)) l) = map (fun '(k, x) => (k, f k x)) l'.
Proof.
  intros X Y f l.
  assert (H := py_sorted_perm (fun x y : str * Y => sleb (fst x) (fst y)) (map (fun '(k, x) => (k, f k x)) l)).
  apply Permutation_sym, Permutation_map_inv in H as (l' & E & H).
  exists l'. split; [assumption|exact E].
Qed.
Lemma sequence_all : forall X Y (f : str -> X -> res Y) (l : list (str * X)),
  (forall k x, In (k, x) l -> exists y, f k x = Ok y) ->
  exists l', sequence (map (fun '(k, x) => (k, f k x)) l) = Ok l'
    /\ Forall2 (fun p q => fst p = fst q /\ f (fst p) (snd p) = Ok (snd q)) l l'.
Proof.
  intros X Y f. induction l as [|[k x] l IH]; intro H; cbn [map sequence].
  - exists []. split; constructor.
  - destruct (H k x) as (y & E); [now left|]. rewrite E. cbn [rbind].
    destruct IH as (l' & E' & F); [intros; apply H; now right|]. rewrite E'. cbn [rbind].
    exists ((k, y) :: l'). split; [reflexivity|]. now constructor.
Qed.
Lemma forall2_keys : forall X Y (P : str * X -> str * Y -> Prop) l l',
  (forall p q, P p q -> fst p = fst q) -> Forall2 P l l' -> map fst l = map fst l'.
Proof. intros X Y P l l' HP H. induction H; cbn; f_equal; auto. Qed.
Lemma forall2_in : forall X Y (P : X -> Y -> Prop) l l' y, Forall2 P l l' -> In y l' -> exists x, In x l /\ P x y.
Proof.
  intros X Y P l l' y H. induction H as [|a b l l' Hab H IH]; intro Hy; [easy|].
  destruct Hy as [->|Hy]; [exists a; split; auto; now left|]. destruct (IH Hy) as (x & Hx & Px). exists x. split; auto. now right.
Qed.

(** *** Second step *)
Lemma second_app : forall o order t n1 n2 f,
  second_step o order t (n1 ++ n2) f = rbind (second_step o order t n1 f) (second_step o order t n2).
Proof.
  intros o order t. induction n1 as [|loc n1 IH]; intros n2 f; cbn [app second_step rbind]; auto.
  destruct (second_at o (order loc) t f loc); cbn [rbind]; auto.
Qed.
Lemma second_kid : forall o k t m, (forall loc, look t (k :: loc) = look m loc) ->
  forall ns order a fk f, dget k fk = Some f ->
  second_step o order t (map (cons k) ns) (FGrp a fk)
  = rbind (second_step o (fun loc => order (k :: loc)) m ns f) (fun f' => Ok (FGrp a (dput k f' fk))).
Proof.
  intros o k t m Hl. induction ns as [|loc ns IH]; intros order a fk f Hf; cbn [map second_step rbind].
  - now rewrite dput_id.
  - unfold second_at. rewrite Hl. destruct (look m loc) as [n|e]; cbn [rbind]; auto.
    destruct n as [[v|x] b|b kids]; cbn [rbind]; auto. cbn [alter]. rewrite Hf.
    destruct (alter f loc (write_one o (order (k :: loc)) x)) as [f1|e]; cbn [rbind]; auto.
    rewrite (IH order a (dput k f1 fk) f1) by apply dget_dput_eq.
    destruct (second_step o (fun loc0 => order (k :: loc0)) m ns f1); cbn [rbind]; auto. now rewrite dput_dput.
Qed.

(** What the file holds of a dataset. *)
Definition FileAttrs (f : fformat) (orig a : attrs) : Prop :=
  exists form back, (forall v, attr_ok f v -> copy_value true Mem (form v) = Ok (back v))
  /\ (forall v, attr_ok f v -> back v = attr_back f v)
  /\ forall k, ~ reserved k -> dget k a = option_map form (dget k orig).
(** Every value in the file can be read. *)
Definition AttrsRead (a : attrs) : Prop := forall k v, dget k a = Some v -> exists w, copy_value true Mem v = Ok w.
Definition stored_type (conv : bool) (ty : nat) : nat := if conv && (ty =? 0) then 1 else ty.
Inductive Filed (o : wopts) : bool -> gnode -> fnode -> Prop :=
| FdCommon : forall root v a d b,
    FileAttrs (w_format o) (a 0) b -> AttrsRead b -> dget dist_dset b = Some (ABool false) ->
    d_shape d = d_shape (v 0) -> d_type d = stored_type (w_convert o) (d_type (v 0)) -> d_data d = d_data (v 0) ->
    Filed o root (GSet (Common v) a) (FSet d b)
| FdDistr : forall root x a d b,
    FileAttrs (w_format o) (a 0) b -> AttrsRead b -> dget dist_dset b = Some (ABool true) ->
    dget dist_axis b = Some (stored_int (w_format o) (a_axis x)) ->
    (forall ax g, a_axis x = Z.of_nat ax -> Distributes (a_gshape x) ax (a_size x) (a_locs x) g ->
       Holds d (a_gshape x) (a_type x) g) ->
    Filed o root (GSet (Distr x) a) (FSet d b)
| FdGrp : forall root a kids b kids',
    FileAttrs (w_format o) (a 0) b -> AttrsRead b ->
    (root = true -> dget dist_file b = Some (ABool true)) ->
    Permutation (map fst kids) (map fst kids') ->
    (forall k m m', In (k, m) kids -> In (k, m') kids' -> Filed o false m m') ->
    Filed o root (GGrp a kids) (FGrp b kids').

Lemma not_reserved_put : forall k r v (a : attrs), ~ reserved k -> reserved r -> dget k (dput r v a) = dget k a.
Proof. intros k r v a H1 H2. apply dget_dput_other. intros ->. auto. Qed.
Lemma res1 : reserved dist_file. Proof. now left. Qed.
Lemma res2 : reserved dist_dset. Proof. right; now left. Qed.
Lemma res3 : reserved dist_axis. Proof. right; now right. Qed.

(** Attributes on their way into the file. *)
Lemma attrs_out : forall f a, f <> OtherFormat -> AttrsOk f a ->
  exists b, copyattrs a (target_of f) true [] = Ok b /\ FileAttrs f a b /\ AttrsRead b.
Proof.
  intros f a Hf Ha.
  assert (G : exists form back, (forall v, attr_ok f v -> copy_value true (target_of f) v = Ok (form v))
     /\ (forall v, attr_ok f v -> copy_value true Mem (form v) = Ok (back v))
     /\ (forall v, attr_ok f v -> back v = attr_back f v)).
  { destruct f; [| |easy]; cbn [attr_ok target_of attr_back].
    - exists h5_form, h5_back. split; [exact h5_out|]. split; [exact h5_in|reflexivity].
    - exists zarr_form, (fun v => v). split; [|split; [|reflexivity]]; intros v (H1 & H2); [now apply zarr_out|now apply zarr_in]. }
  destruct G as (form & back & G1 & G2 & G3).
  destruct (copyattrs_ok a (target_of f) true [] form) as (b & Hb & Kb); [intros k v Hv; apply G1, (Ha k v Hv)|].
  exists b. split; [exact Hb|]. split.
  - exists form, back. split; [exact G2|]. split; [exact G3|]. intros k _. rewrite Kb. now destruct (dget k a).
  - intros k v Hv. rewrite Kb in Hv. destruct (dget k a) as [w|] eqn:E; [|discriminate]. injection Hv as <-.
    eauto.
Qed.
Lemma file_put : forall f a b r v, reserved r -> FileAttrs f a b -> FileAttrs f a (dput r v b).
Proof.
  intros f a b r v Hr (form & back & H1 & H2 & H3). exists form, back. split; auto. split; auto.
  intros k Hk. rewrite not_reserved_put; auto.
Qed.
Lemma read_put : forall b r v, (exists w, copy_value true Mem v = Ok w) -> AttrsRead b -> AttrsRead (dput r v b).
Proof.
  intros b r v Hv Hb k x Hx. destruct (str_eq_dec k r) as [->|N].
  - rewrite dget_dput_same in Hx. now injection Hx as <-.
  - rewrite dget_dput_other in Hx by assumption. eauto.
Qed.
Lemma bool_reads : forall b, exists w, copy_value true Mem (ABool b) = Ok w.
Proof. intro b. now exists (ABool b). Qed.
Lemma int_reads : forall f z, exists w, copy_value true Mem (stored_int f z) = Ok w.
Proof. intros [] z; now exists (AInt z). Qed.

Lemma all_indices_spec : forall shape i, In i (all_indices shape) <-> inside shape i.
Proof.
  induction shape as [|n shape IH]; intro i; cbn [all_indices].
  - split; [intros [<-|[]]; constructor|intro H; inversion H; now left].
  - rewrite in_flat_map. split.
    + intros (x & Hx & Hi). apply in_seq in Hx. apply in_map_iff in Hi as (i' & <- & Hi). apply IH in Hi.
      constructor; [lia|assumption].
    + intro H. inversion H as [|x n' i' sh' Hx Hi]; subst. exists x. split; [apply in_seq; lia|].
      apply in_map, IH, Hi.
Qed.
Lemma ascii_el_ok : forall x, ascii_only x -> ascii_el x = true.
Proof.
  intros [z|s] H; cbn [ascii_el ascii_only] in *; auto. apply forallb_forall. intros c Hc. rewrite Forall_forall in H.
  apply Nat.ltb_lt. auto.
Qed.
Lemma prepare_common : forall o v, CommonOk (w_convert o) (v 0) ->
  exists d, prepare o (Common v) = Ok (d, false) /\ d_shape d = d_shape (v 0)
    /\ d_type d = stored_type (w_convert o) (d_type (v 0)) /\ d_data d = d_data (v 0).
Proof.
  intros o v (H1 & H2). unfold prepare, stored_type. cbv zeta. destruct (d_shape (v 0)) as [|n sh] eqn:Es; [easy|].
  destruct (w_convert o); cbn [andb].
  - unfold ensure_bytestring. change ty_unicode with 0. destruct (d_type (v 0) =? 0) eqn:Et; cbn [rbind].
    + replace (forallb _ _) with true.
      * cbn [rbind]. eexists. split; [reflexivity|]. cbn. rewrite Es. auto.
      * symmetry. apply forallb_forall. intros i Hi. apply ascii_el_ok, H2; [now apply Nat.eqb_eq|].
        apply all_indices_spec. now rewrite <- Es.
    + eexists. split; [reflexivity|]. auto.
  - change ty_unicode with 0. apply Nat.eqb_neq in H2. rewrite H2. eexists. split; [reflexivity|]. auto.
Qed.

Lemma write_one_holds : forall o size x order d,
  (0 < w_tn o)%Z -> (0 < w_td o)%Z -> w_format o <> OtherFormat -> DistrOk o size x ->
  Permutation order (seq 0 size) -> d_shape d = a_gshape x -> d_type d = a_type x ->
  exists d', write_one o order x d = Ok d'
   /\ forall ax g, a_axis x = Z.of_nat ax -> Distributes (a_gshape x) ax (a_size x) (a_locs x) g ->
      Holds d' (a_gshape x) (a_type x) g.
Proof.
  intros o size x order d Htn Htd Hf ((ax & g & Ha & Hax & Hg & Hs) & H1 & H2 & H3 & H4) Ho D1 D2.
  assert (C : Compatible (Some d) (a_gshape x) (a_type x)) by (split; assumption).
  unfold write_one. change ty_unicode with 0. apply Nat.eqb_neq in H4. rewrite H4.
  assert (G : forall g, Distributes (a_gshape x) ax (a_size x) (a_locs x) g ->
     exists d', NioModel.to_file (w_h5mpi o) (w_format o) (file_arg (w_format o)) (w_tn o) (w_td o) x el_zero (a_comp x) order (Some d) = Ok d'
       /\ Holds d' (a_gshape x) (a_type x) g).
  { intros g' Hg'. unfold NioModel.to_file.
    replace (match a_comp x with Some c => Some c | None => a_comp x end) with (a_comp x) by (now destruct (a_comp x)).
    destruct (w_format o) eqn:Ef; [| |easy]; cbn [file_arg]; cbv zeta.
    - destruct (w_h5mpi o) eqn:Em.
      + destruct (Hs eq_refl eq_refl) as (S1 & S2). subst size.
        destruct (to_hdf5_holds el FName (w_tn o) (w_td o) x ax g' el_zero (a_comp x) order (Some d)) as (d' & E & Hd & _); auto.
        * destruct S2 as [S2|S2]; [left; exact S2|right; split; [reflexivity|exact S2]].
        * exists d'. auto.
      + unfold to_hdf5. cbn [negb]. subst size. apply (serial_holds el x ax g' el_zero (Some d)); auto.
    - subst size. destruct (to_zarr_holds el (FZarr true) x ax g' el_zero (a_comp x) order (Some d)) as (d' & E & Hd & _); auto.
      exists d'. auto. }
  destruct (G g) as (d' & E & Hd); [now subst size|]. exists d'. split; [exact E|].
  intros ax' g' Ha' Hg'. assert (ax' = ax) by lia. subst ax'. destruct (G g' Hg') as (d2 & E2 & Hd2).
  rewrite E in E2. now injection E2 as <-.
Qed.

(** The children, one after the other. *)
Lemma second_kids : forall o t order a (l : list (str * (fnode * list (list str)))) (g : str -> gnode) (fin : list (str * fnode)) pre,
  NoDup (map fst pre ++ map fst l) ->
  (forall k loc, In k (map fst l) -> look t (k :: loc) = look (g k) loc) ->
  Forall2 (fun p q => fst p = fst q /\ second_step o (fun loc => order (fst p :: loc)) (g (fst p)) (snd (snd p)) (fst (snd p)) = Ok (snd q)) l fin ->
  second_step o order t (flat_map (fun '(k, (_, ns)) => map (cons k) ns) l) (FGrp a (pre ++ map (fun '(k, (f, _)) => (k, f)) l))
  = Ok (FGrp a (pre ++ fin)).
Proof.
  intros o t order a. induction l as [|[k [f ns]] l IH]; intros g fin pre N Hl H.
  - inversion H; subst. reflexivity.
  - inversion H as [|? [k' f'] ? fin' (Hk & Hf) H']; subst. cbn [fst snd] in *. subst k'.
    cbn [flat_map map]. rewrite second_app.
    rewrite (second_kid o k t (g k)) with (f := f).
    + rewrite Hf. cbn [rbind]. rewrite dput_mid.
      * change (pre ++ (k, f') :: map (fun '(k, (f, _)) => (k, f)) l)
          with (pre ++ [(k, f')] ++ map (fun '(k, (f, _)) => (k, f)) l).
        rewrite app_assoc. rewrite (IH g fin' (pre ++ [(k, f')])); auto.
        -- now rewrite <- app_assoc.
        -- rewrite map_app. cbn [map fst]. rewrite <- app_assoc. exact N.
        -- intros; apply Hl; now right.
      * intro Hi. apply NoDup_remove_2 in N. apply N. apply in_or_app. now left.
    + intro loc. apply Hl. now left.
    + apply dget_mid. intro Hi. apply NoDup_remove_2 in N. apply N. apply in_or_app. now left.
Qed.

Lemma look_kid : forall a kids k m loc, dget k kids = Some m -> look (GGrp a kids) (k :: loc) = look m loc.
Proof. intros a kids k m loc H. cbn [look]. now rewrite H. Qed.

Lemma writes : forall o size, w_format o <> OtherFormat -> w_convert_attrs o = true -> w_hints o = true ->
  (0 < w_tn o)%Z -> (0 < w_td o)%Z ->
  forall n, Writable o size n -> forall root,
  exists f names, first_step o root n = Ok (f, names)
   /\ forall order, (forall loc, Permutation (order loc) (seq 0 size)) ->
      exists f', second_step o order n names f = Ok f' /\ Filed o root n f'.
Proof.
  intros o size Hf Hc Hh Htn Htd. induction n as [d a|a kids IH] using gnode_ind'; intros W root.
  - inversion W as [v a' Ha Hv|x a' Ha Hx|]; subst; cbn [first_step].
    + destruct (prepare_common o v Hv) as (d & E & D1 & D2 & D3). rewrite E. cbn [rbind].
      destruct (attrs_out (w_format o) (a 0) Hf Ha) as (b & Eb & B1 & B2). rewrite Hc, Eb. cbn [rbind].
      eexists _, _. split; [reflexivity|]. intros order Ho. cbn [second_step]. eexists. split; [reflexivity|].
      unfold dset_hints. rewrite Hh. constructor; auto.
      * apply file_put; auto using res2.
      * apply read_put; auto using bool_reads.
      * apply dget_dput_same.
    + assert (E : exists d, prepare o (Distr x) = Ok (d, true) /\ d_shape d = a_gshape x /\ d_type d = a_type x).
      { unfold prepare. destruct Hx as (_ & _ & _ & _ & H4). change ty_unicode with 0. apply Nat.eqb_neq in H4. rewrite H4.
        destruct (w_format o); eexists; (split; [reflexivity|split; reflexivity]). }
      destruct E as (d & E & D1 & D2). rewrite E. cbn [rbind].
      destruct (attrs_out (w_format o) (a 0) Hf Ha) as (b & Eb & B1 & B2). rewrite Hc, Eb. cbn [rbind].
      eexists _, _. split; [reflexivity|]. intros order Ho. cbn [second_step]. unfold second_at. cbn [look rbind alter].
      destruct (write_one_holds o size x (order []) d) as (d' & E' & Hd'); auto. rewrite E'. cbn [rbind].
      eexists. split; [reflexivity|]. unfold dset_hints. rewrite Hh. constructor; auto.
      * apply file_put; auto using res3. apply file_put; auto using res2.
      * apply read_put; auto using int_reads. apply read_put; auto using bool_reads.
      * rewrite dget_dput_other by discriminate. apply dget_dput_same.
      * apply dget_dput_same.
  - inversion W as [| |a' kids' Ha N Hk]; subst. cbn [first_step].
    destruct (attrs_out (w_format o) (a 0) Hf Ha) as (b & Eb & B1 & B2). rewrite Hc, Eb. cbn [rbind].
    destruct (by_key_map gnode _ (fun _ m => first_step o false m) kids) as (ks & Pk & Ek). cbv beta in Ek.
    rewrite Ek.
    assert (Nk : NoDup (map fst ks)) by (eapply Permutation_NoDup; [apply Permutation_map, Pk|exact N]).
    destruct (sequence_all gnode _ (fun _ m => first_step o false m) ks) as (l & El & Fl).
    { intros k m Hin. apply (Permutation_in _ (Permutation_sym Pk)) in Hin.
      destruct (IH k m Hin (Hk k m Hin) false) as (f & ns & E & _). eauto. }
    cbv beta in El. rewrite El. cbn [rbind].
    eexists _, _. split; [reflexivity|]. intros order Ho.
    assert (Kl : map fst ks = map fst l) by (eapply forall2_keys; [|exact Fl]; now intros p q (H & _)).
    (* the function from keys to children *)
    pose (g := fun k => match dget k kids with Some m => m | None => GGrp a [] end).
    assert (Hg : forall k m, In (k, m) ks -> g k = m).
    { intros k m Hin. unfold g. rewrite (dget_In _ k m kids N); auto.
      apply (Permutation_in _ (Permutation_sym Pk)). exact Hin. }
    assert (Fin : exists fin, Forall2 (fun p q => fst p = fst q /\ second_step o (fun loc => order (fst p :: loc)) (g (fst p)) (snd (snd p)) (fst (snd p)) = Ok (snd q) /\ Filed o false (g (fst p)) (snd q)) l fin).
    { clear El Kl Ek. assert (Hin : forall k m, In (k, m) ks -> In (k, m) kids).
      { intros k m H. now apply (Permutation_in _ (Permutation_sym Pk)). }
      clear Pk Nk. induction Fl as [|[k m] [k' [f ns]] ks' l' (F1 & F2) Fl IHl]; [exists []; constructor|].
      cbn [fst snd] in *. subst k'.
      destruct IHl as (fin & Hfin); [intros; apply Hg; now right|intros; apply Hin; now right|].
      destruct (IH k m (Hin k m (or_introl eq_refl)) (Hk k m (Hin k m (or_introl eq_refl))) false) as (f2 & ns2 & E & H2).
      rewrite F2 in E. injection E as <- <-.
      destruct (H2 (fun loc => order (k :: loc))) as (f' & Ef & Hf'); [intro; apply Ho|].
      exists ((k, f') :: fin). constructor; [|assumption]. cbn [fst snd]. rewrite (Hg k m) by (now left). auto. }
    destruct Fin as (fin & Hfin).
    assert (Kf : map fst l = map fst fin) by (eapply forall2_keys; [|exact Hfin]; now intros p q (H & _)).
    exists (FGrp (group_hints o root b) fin). split.
    + apply (second_kids o (GGrp a kids) order (group_hints o root b) l g fin []).
      * cbn [map app]. now rewrite <- Kl.
      * intros k loc Hin. rewrite <- Kl in Hin. apply in_map_iff in Hin as ([k' m] & E & Hin). cbn in E. subst k'.
        rewrite (Hg k m Hin). apply look_kid. apply dget_In; auto. now apply (Permutation_in _ (Permutation_sym Pk)).
      * clear - Hfin. induction Hfin as [|p q l fin (H1 & H2 & _) H IHf]; constructor; auto.
    + constructor.
      * unfold group_hints. rewrite Hh. cbn [andb]. destruct root; auto. apply file_put; auto using res1.
      * unfold group_hints. rewrite Hh. cbn [andb]. destruct root; auto. apply read_put; auto using bool_reads.
      * intros ->. unfold group_hints. rewrite Hh. cbn [andb]. apply dget_dput_same.
      * rewrite <- Kf, <- Kl. now apply Permutation_map.
      * intros k m m' Hin Hin'. destruct (forall2_in _ _ _ _ _ _ Hfin Hin') as ([k0 p] & _ & (Hk0 & _ & Fd)). cbn [fst snd] in *.
        subst k0. unfold g in Fd. now rewrite (dget_In _ k m kids N Hin) in Fd.
Qed.
