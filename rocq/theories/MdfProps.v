(** Properties of making, closing, saving and reading groups that may be on
    disk (C211-C223). *)
From Coq Require Import String.
From Coq Require Import List Ascii Bool Arith ZArith Lia.
From Verif Require Import PyBase PyStr MemModel MemProofs2 JsonModel AttrModel AttrSpec LoadModel GlobModel MdfModel.
From Verif Require AttrProofs AttrProps LoadProofs GlobProofs.
Import ListNotations.
Open Scope list_scope.
Open Scope nat_scope.

(** C211.  [close] closes a file that the constructor opened by a name that
    stands for HDF5, and never a group that was given ... *)
Theorem C211_closed : forall w src distributed comm f m opened,
  init w src distributed comm f = (opened, Ok m) ->
  (opened = false -> closes m = false)
  /\ (forall name, src = FileName name -> f = None -> s_guess w name = FHdf5 -> opened = true /\ closes m = true).
Proof.
  intros w src distributed comm f m opened H. split.
  - intros ->. unfold init in H. destruct src as [|g|g|name].
    + injection H as H. unfold closes. cbn [rbind] in H.
      destruct (match or_world w comm with None => false | Some _ => distributed end).
      * destruct (negb (eq_comm (or_world w comm) (or_world w comm))); [discriminate|]. now injection H as <-.
      * now injection H as <-.
    + injection H as H. cbn [rbind] in H. destruct (match or_world w comm with None => false | Some _ => distributed end).
      * destruct g as [d c|fl|]; try discriminate. destruct d; [|discriminate].
        destruct (negb (eq_comm (or_world w comm) c)); [discriminate|]. now injection H as <-.
      * injection H as <-. unfold closes. cbn [toclose]. apply andb_false_r.
    + injection H as H. cbn [rbind] in H. destruct (match or_world w comm with None => false | Some _ => distributed end).
      * destruct g as [d c|fl|]; try discriminate. destruct d; [|discriminate].
        destruct (negb (eq_comm (or_world w comm) c)); [discriminate|]. now injection H as <-.
      * injection H as <-. unfold closes. cbn [toclose]. apply andb_false_r.
    + destruct (get_file w name f) as [(g, tc)|e]; discriminate.
  - intros name -> -> G. unfold init, get_file in H. rewrite G in H. injection H as <- H.
    split; [reflexivity|]. cbn [rbind is_hdf5] in H.
    destruct (match or_world w comm with None => false | Some _ => distributed end); [discriminate|]. now injection H as <-.
Qed.
Print Assumptions C211_closed.
(** Of the files it opened by a name, exactly those whose format was not given as HDF5 (zarr
    groups, which have no [close], among them). *)
Theorem C211_opened : forall w name distributed comm f m opened,
  init w (FileName name) distributed comm f = (opened, Ok m) ->
  opened = true /\ (closes m = true <-> f <> Some FHdf5).
Proof.
  intros w name distributed comm f m opened H. unfold init in H.
  destruct (get_file w name f) as [(g, tc)|e] eqn:G; [|discriminate]. injection H as <- H. split; [reflexivity|]. cbn [rbind] in H.
  assert (K : m = mkmdg g (if is_hdf5 f then false else tc) /\ tc = true /\ (g = H5Group true \/ g = ZarrGroup)).
  { assert (K : tc = true /\ (g = H5Group true \/ g = ZarrGroup)).
    { unfold get_file in G. destruct (match f with Some f => f | None => s_guess w name end); [injection G as <- <-; auto|]. destruct (s_zarr w); [injection G as <- <-; auto|discriminate]. }
    split; [|exact K]. destruct (match or_world w comm with None => false | Some _ => distributed end); [|now injection H as <-].
    destruct K as [_ [-> | ->]]; discriminate. }
  destruct K as [-> [-> K]]. unfold closes, ondisk. cbn [storage toclose].
  destruct K as [-> | ->]; destruct f as [[|]|]; cbn; split; intros; congruence.
Qed.
Print Assumptions C211_opened.
(** Whether the data are on disk, and in memory whether they are distributed. *)
Theorem C211_ondisk : forall m, ondisk m = true <-> storage m = H5Group true \/ storage m = ZarrGroup.
Proof. intros [[d c|[|]|] t]; unfold ondisk; cbn; intuition congruence. Qed.
Theorem C211_in_memory : forall f given distributed comm, let m := read_storage false f given distributed comm in
  ondisk m = false /\ comm_of m = comm /\ (is_distributed m = true <-> distributed = true /\ comm <> None).
Proof. intros f given d [c|]; cbn; repeat split; try congruence; intuition congruence. Qed.
Print Assumptions C211_ondisk.
Print Assumptions C211_in_memory.
(** ... and after reading on disk, exactly the HDF5 files it opened. *)
Theorem C211_read : forall disk f given distributed comm,
  closes (read_storage disk f given distributed comm) = true <-> disk = true /\ given = None /\ f = FHdf5.
Proof.
  intros disk f given distributed comm. unfold read_storage, closes.
  destruct disk; [destruct given; [|destruct f]|]; cbn; rewrite ?andb_false_r; intuition congruence.
Qed.
Print Assumptions C211_read.

Definition here : setting := mksetting (Some 0) true (fun n => if endswith (s_ ".zarr") n then FZarr else FHdf5).
Example C211_example :
  init here (FileName (s_ "a.h5")) false None None = (true, Ok (mkmdg (H5Group true) true))
  /\ init here (Group (H5Group true)) false None None = (false, Ok (mkmdg (H5Group true) false)).
Proof. split; reflexivity. Qed.

(** C212.  False: it closes every HDF5 file that the constructor opened.  If the
    format is given it does not. *)
Theorem C212_refuted : exists w name m,
  init w (FileName name) false None (Some FHdf5) = (true, Ok m)
  /\ storage m = H5Group true /\ closes m = false.
Proof. exists here, (s_ "a.h5"). eexists. split; [reflexivity|]. split; reflexivity. Qed.
Print Assumptions C212_refuted.

(** C213.  A distributed group wraps a distributed group in memory with the same
    communicator, or raises; wrapping never changes the setting. *)
Theorem C213_distributed : forall w src comm f m opened, s_world w <> None ->
  init w src true comm f = (opened, Ok m) ->
  is_distributed m = true /\ comm_of m = or_world w comm
  /\ match src with Wrapped g | Group g => storage m = g | Nothing => True | FileName _ => False end.
Proof.
  intros w src comm f m opened Hw H.
  destruct (or_world w comm) as [c|] eqn:EW; [|unfold or_world in EW; destruct comm; congruence].
  unfold init in H. rewrite EW in H.
  assert (K : forall g tc, (opened, rbind (Ok (g, tc)) (fun '(g, toclose) =>
       match g with
       | H5Group _ | ZarrGroup => Err ValueError
       | Memory d c0 => if negb d then Err ValueError
                       else if negb (eq_comm (Some c) c0) then Err ValueError
                       else Ok (mkmdg g toclose)
       end)) = (opened, Ok m) -> storage m = g /\ is_distributed m = true /\ comm_of m = Some c).
  { intros g tc E. injection E as E. cbn [rbind] in E. destruct g as [d c0|fl|]; try discriminate. destruct d; [|discriminate].
    destruct c0 as [c0|]; cbn [eq_comm negb] in E; [|discriminate].
    destruct (c =? c0) eqn:EC; [|discriminate]. apply Nat.eqb_eq in EC. subst c0. injection E as <-. auto. }
  destruct src as [|g|g|name].
  - injection H as <- H. change (false, Ok m) with (false, @Ok mdg m) in K. destruct (K (Memory true (Some c)) false) as (_ & A & B); [now rewrite <- H|auto].
  - injection H as <- H. destruct (K g false) as (A & B & C); [now rewrite <- H|auto].
  - injection H as <- H. destruct (K g false) as (A & B & C); [now rewrite <- H|auto].
  - exfalso. unfold get_file in H.
    destruct (match f with Some f0 => f0 | None => s_guess w name end); [discriminate|]. destruct (s_zarr w); discriminate.
Qed.
Print Assumptions C213_distributed.
Theorem C213_refused : forall w g comm f opened x, s_world w <> None ->
  (is_distributed (mkmdg g false) = false \/ comm_of (mkmdg g false) <> or_world w comm) ->
  init w (Group g) true comm f = (opened, x) -> x = Err ValueError.
Proof.
  intros w g comm f opened x Hw D H. destruct x as [m|e].
  - apply (C213_distributed _ _ _ _ _ _ Hw) in H as (A & B & C). exfalso.
    destruct m as [g' tc]. cbn [storage] in C. subst g'. destruct D as [D|D]; [exact (eq_true_false_abs _ A D)|exact (D B)].
  - unfold init in H. destruct (or_world w comm) as [c|] eqn:EW; [|unfold or_world in EW; destruct comm; congruence].
    injection H as <- H. cbn [rbind] in H. destruct g as [d c0|fl|]; try congruence. destruct (negb d); [congruence|].
    destruct (if negb (eq_comm (Some c) c0) then true else false) eqn:EQ; destruct (eq_comm (Some c) c0) eqn:E2; cbn in *; rewrite ?E2 in *; try discriminate; cbn in *; congruence.
Qed.
Print Assumptions C213_refused.
Theorem C213_kept : forall w g comm f m opened,
  init w (Group g) false comm f = (opened, Ok m) -> storage m = g.
Proof.
  intros w g comm f m opened H. unfold init in H. injection H as _ H.
  cbn [rbind] in H. destruct (or_world w comm); now injection H as <-.
Qed.
Print Assumptions C213_kept.
Example C213_example :
  init here (Group (Memory true (Some 0))) true None None = (false, Ok (mkmdg (Memory true (Some 0)) false))
  /\ init here (Group (Memory true (Some 1))) true None None = (false, Err ValueError)
  /\ init here (Group (Memory false (Some 0))) true None None = (false, Err ValueError)
  /\ init here Nothing true (Some 3) None = (false, Ok (mkmdg (Memory true (Some 3)) false)).
Proof. repeat split. Qed.

(** C214.  False: a constructor that raises leaves no file open. *)
Theorem C214_refuted : exists w name e, init w (FileName name) true None None = (true, Err e).
Proof. exists here, (s_ "a.h5"). eexists. reflexivity. Qed.
Print Assumptions C214_refuted.

(** C215.  The class of an object without a recorded class is found again after
    saving and reading, by HDF5 or zarr, whichever class reads. *)
Lemma copy_keep : forall c t a1 k v w, dget k a1 = Some v -> copy_value c t v = Ok w ->
  forall ks a2 b, fold_left (fun acc key => rbind acc (fun a2 =>
     match dget key a1 with
     | Some v => rbind (copy_value c t v) (fun w => Ok (dput key w a2))
     | None => Err KeyError
     end)) ks (Ok a2) = Ok b -> In k ks \/ dget k a2 = Some w -> dget k b = Some w.
Proof.
  intros c t a1 k v w Hv Hw. induction ks as [|k0 ks IH]; intros a2 b H K; cbn [fold_left] in H.
  - injection H as <-. destruct K; easy.
  - cbn [rbind] in H. destruct (dget k0 a1) as [v0|] eqn:E0; cbn [rbind] in H;
      [destruct (copy_value c t v0) as [w0|e] eqn:E1; cbn [rbind] in H|];
      [|rewrite AttrProofs.copy_loop_err in H; discriminate|rewrite AttrProofs.copy_loop_err in H; discriminate].
    apply (IH _ _ H). destruct (str_eq_dec k k0) as [<-|N].
    + right. rewrite dget_dput_same. congruence.
    + destruct K as [[K|K]|K]; [congruence|now left|right]. now rewrite dget_dput_other.
Qed.
Lemma copied_attr : forall c t a b k v w, copyattrs a t c [] = Ok b -> dget k a = Some v -> copy_value c t v = Ok w ->
  dget k b = Some w.
Proof.
  intros c t a b k v w H Hv Hw. unfold copyattrs in H. apply (copy_keep c t a k v w Hv Hw _ _ _ H). left.
  apply (Permutation.Permutation_in k (py_sorted_perm sleb (map fst a))). apply AttrProofs.dget_in. eauto.
Qed.
Definition Importable (c : classes) (module name : str) (k : cls) : Prop :=
  exists md, w_module (c_world c) module = Some md /\ m_attr md name = Some k
  /\ module <> [] /\ (forall r, module <> dot :: r) /\ ~ In dot name.
Lemma import_ok : forall c module name k, Importable c module name k ->
  import_class (c_world c) (module ++ dot :: name) = Good k.
Proof.
  intros c module name k (md & M & A & NE & ND & N). rewrite LoadProofs.import_class_dotted by assumption.
  unfold import_module. replace (startswith [dot] module) with false.
  - rewrite M. cbn [lbind]. now rewrite A.
  - destruct module as [|x m]; [reflexivity|]. cbn. destruct (ceqb dot x) eqn:E; [|reflexivity].
    apply ceqb_eq in E. subst. now destruct (ND m).
Qed.
Theorem C215_class : forall c cl k module name attrs t b b',
  Importable c module name k -> c_mdg c k = true ->
  ~ tagged (module ++ dot :: name) -> (t = H5 -> h5_text (module ++ dot :: name)) ->
  dget class_key attrs = None ->
  copyattrs (with_class module name attrs) t true [] = Ok b -> copyattrs b Mem true [] = Ok b' ->
  new_class c cl true b' = Ok k.
Proof.
  intros c cl k module name attrs t b b' I M T X E C1 C2.
  assert (D : dget class_key b' = Some (AStr (module ++ dot :: name))).
  { apply (copied_attr true Mem b b' class_key (AStr (module ++ dot :: name))); [exact C2| |].
    - apply (copied_attr true t _ b class_key (AStr (module ++ dot :: name)) _ C1).
      + unfold with_class. rewrite E. apply dget_dput_same.
      + now apply AttrProps.C31_untagged_partial.
    - now apply AttrProps.C31_untagged_partial. }
  unfold new_class. rewrite D. cbn [resolve_subclass]. rewrite (import_ok _ _ _ _ I). now rewrite M.
Qed.
Print Assumptions C215_class.
(** Without detection, and for files without a class, it is the class that
    reads; a class that is no [MemDiskGroup] is refused. *)
Theorem C215_caller : forall c cl attrs, new_class c cl false attrs = Ok cl
  /\ (dget class_key attrs = None -> new_class c cl true attrs = Ok cl).
Proof. intros c cl attrs. split; [reflexivity|]. intro H. unfold new_class. now rewrite H. Qed.
Print Assumptions C215_caller.
Theorem C215_other : forall c cl k module name attrs, Importable c module name k -> c_mdg c k = false ->
  dget class_key attrs = Some (AStr (module ++ dot :: name)) ->
  new_class c cl true attrs = Err RuntimeError.
Proof.
  intros c cl k module name attrs I M E. unfold new_class. rewrite E. cbn [resolve_subclass].
  rewrite (import_ok _ _ _ _ I). now rewrite M.
Qed.
Print Assumptions C215_other.

(** An attribute that is no string has no [split]. *)
Theorem C215_not_a_string : forall c cl attrs v, dget class_key attrs = Some v -> (forall p, v <> AStr p) ->
  new_class c cl true attrs = Err AttributeError.
Proof. intros c cl attrs v E N. unfold new_class. rewrite E. destruct v; try reflexivity. now contradiction (N s). Qed.
Print Assumptions C215_not_a_string.

(** The class 0 is [MemDiskGroup], 1 a container "m.C", 2 a container "m.E", 3
    something else, "m.X". *)
Definition ex_module : pymodule := mkmodule (fun n =>
  if seqb n (s_ "C") then Some 1 else if seqb n (s_ "E") then Some 2 else if seqb n (s_ "X") then Some 3 else None) None.
Definition ex_classes : classes := mkclasses
  (mkworld (fun m => if seqb m (s_ "m") then Some ex_module else None) (fun _ => None) (fun _ => None)
           (fun _ _ => Bad (plain OtherErr)) (fun _ _ => Bad (plain OtherErr)))
  (fun k => k <? 3) 0 (fun k sel => if k =? 0 then None else Some sel).
Example C215_example :
  exists b b', copyattrs (with_class (s_ "m") (s_ "C") [(s_ "z", AInt 3)]) H5 true [] = Ok b /\ copyattrs b Mem true [] = Ok b'
  /\ new_class ex_classes 0 true b' = Ok 1 /\ new_class ex_classes 2 true b' = Ok 1 /\ new_class ex_classes 2 false b' = Ok 2.
Proof. eexists. eexists. split; [reflexivity|]. split; [reflexivity|]. repeat split. Qed.

(** C216.  False: an object is read with the class that it had when it was
    saved.  A class recorded before is kept: what was read as "m.C" and wrapped
    in "m.E" comes back as "m.C". *)
Theorem C216_refuted : exists c k module name attrs,
  Importable c module name k /\ c_mdg c k = true
  /\ new_class c k false attrs = Ok k
  /\ exists k', new_class c k true (with_class module name attrs) = Ok k' /\ k' <> k.
Proof.
  exists ex_classes, 2, (s_ "m"), (s_ "E"), (with_class (s_ "m") (s_ "C") []).
  split.
  - exists ex_module. split; [reflexivity|]. split; [reflexivity|]. split; [discriminate|]. split; [intros r; discriminate|].
    intros [E|[]]. discriminate.
  - split; [reflexivity|]. split; [reflexivity|]. exists 1. split; [reflexivity|discriminate].
Qed.
Print Assumptions C216_refuted.

(** C217.  False: a class that cannot be found gives a warning, and the data are
    read with the class that reads. *)
Theorem C217_refuted : exists c cl attrs p, dget class_key attrs = Some (AStr p)
  /\ import_class (c_world c) p = Bad (plain ModuleMissing) /\ new_class c cl true attrs = Err UnboundLocalError.
Proof.
  exists ex_classes, 0, [(class_key, AStr (s_ "gone.C"))], (s_ "gone.C"). repeat split.
Qed.
Print Assumptions C217_refuted.

(** C218.  The arguments that end in "_sel" are the selections, under the names
    of the axes; all others are passed on. *)
Lemma strip_suffix : forall a, firstn (length (a ++ sel_suffix) - 4) (a ++ sel_suffix) = a.
Proof.
  intro a. rewrite app_length. change (length sel_suffix) with 4. replace (length a + 4 - 4) with (length a) by lia.
  rewrite firstn_app, Nat.sub_diag, firstn_all. apply app_nil_r.
Qed.
Lemma take_sel_spec : forall A (kw : list (str * A)) sel rest, NoDup (map fst kw) ->
  (forall a, In (a ++ sel_suffix) (map fst kw) -> dget a sel = None) ->
  snd (take_sel kw sel rest) = rest ++ filter (fun kv => negb (endswith sel_suffix (fst kv))) kw
  /\ forall a v, dget a (fst (take_sel kw sel rest)) = Some v <-> In (a ++ sel_suffix, v) kw \/ dget a sel = Some v.
Proof.
  intros A kw. induction kw as [|(k, v) kw IH]; intros sel rest N H; cbn [take_sel].
  - split; [cbn; now rewrite app_nil_r|]. intros a v. cbn. intuition.
  - cbn [map fst] in N. inversion N as [|? ? N1 N2]; subst. cbn [filter fst].
    destruct (endswith sel_suffix k) eqn:E; cbn [negb].
    + apply GlobProofs.endswith_iff in E as (x & ->). rewrite strip_suffix.
      destruct (IH (dput x v sel) rest N2) as (I1 & I2).
      { intros a Ha. rewrite dget_dput_other; [apply H; now right|]. intros ->. contradiction. }
      split; [exact I1|]. intros a v'. rewrite I2. cbn [In]. destruct (str_eq_dec a x) as [ -> |Ne].
      * rewrite dget_dput_same, (H x (or_introl eq_refl)). split.
        -- intros [I|I]; [left; now right|]. left; left. injection I as <-. reflexivity.
        -- intros [[I|I]|I]; [right; injection I as <-; reflexivity|now left|discriminate].
      * rewrite dget_dput_other by exact Ne. split; [intros [I|I]; auto|].
        intros [[I|I]|I]; auto. exfalso. apply Ne. injection I as I _. symmetry. exact (app_inv_tail _ _ _ I).
    + destruct (IH sel (rest ++ [(k, v)]) N2) as (I1 & I2); [intros a Ha; apply H; now right|].
      split; [rewrite I1, <- app_assoc; reflexivity|]. intros a v'. rewrite I2. cbn [In]. split; [intros [I|I]; auto|].
      intros [[I|I]|I]; auto. exfalso. injection I as -> _.
      assert (endswith sel_suffix (a ++ sel_suffix) = true) by (apply GlobProofs.endswith_iff; eauto). congruence.
Qed.
Theorem C218_arguments : forall A (kwargs : list (str * A)), NoDup (map fst kwargs) ->
  exists sel rest, take_sel kwargs [] [] = (sel, rest)
  /\ (forall axis v, dget axis sel = Some v <-> In (axis ++ s_ "_sel", v) kwargs)
  /\ forall k v, In (k, v) rest <-> In (k, v) kwargs /\ ~ exists axis, k = axis ++ s_ "_sel".
Proof.
  intros A kwargs N. destruct (take_sel_spec A kwargs [] [] N) as (H1 & H2); [reflexivity|].
  destruct (take_sel kwargs [] []) as (sel, rest). cbn [fst snd app] in *. exists sel, rest. split; [reflexivity|]. split.
  - intros axis v. rewrite H2. cbn. intuition discriminate.
  - intros k v. rewrite H1, filter_In. cbn [fst]. rewrite negb_true_iff. rewrite <- not_true_iff_false, GlobProofs.endswith_iff. reflexivity.
Qed.
Print Assumptions C218_arguments.
Example C218_example : take_sel [(s_ "freq_sel", 1); (s_ "comm", 2); (s_ "time_sel", 3); (s_ "_sel", 4)] [] []
  = ([(s_ "freq", 1); (s_ "time", 3); (s_ "", 4)], [(s_ "comm", 2)]).
Proof. reflexivity. Qed.

(** C219.  False: selections are applied by the class that the data are read
    as, or there is a warning.  Read by [MemDiskGroup] they are dropped. *)
Theorem C219_refuted : exists c attrs kwargs k,
  new_class c (c_base c) true attrs = Ok k /\ kwargs <> []
  /\ c_select c k (fst (take_sel kwargs [] [])) <> None
  /\ selections_of c (c_base c) true kwargs = (None, false).
Proof.
  exists ex_classes, [(class_key, AStr (s_ "m.C"))], [(s_ "freq_sel", 1)], 1.
  split; [reflexivity|]. split; [discriminate|]. split; [discriminate|reflexivity].
Qed.
Print Assumptions C219_refuted.

(** C220.  Saving data in memory writes a new file, with the conversions asked
    for, or else those of the class, or else the defaults ... *)
Theorem C220_memory : forall w d c wr h ca cd a ds f m ex, (f = FZarr -> s_zarr w = true) -> (h = false -> wr = true) ->
  m <> Some ModeR ->
  save w (Memory d c) wr h ca cd a ds f m ex
  = Ok (mkcopying (match a, ca with Some x, _ => x | None, Some x => x | None, None => true end)
                  (match ds, cd with Some x, _ => x | None, Some x => x | None, None => false end) f).
Proof.
  intros w d c wr h ca cd a ds f m ex Z W M. unfold save.
  assert (E : negb h && negb wr = false) by (destruct h; [reflexivity|]; rewrite (W eq_refl); reflexivity).
  rewrite E.
  assert (O : open_to_write ex (match m with Some m0 => m0 | None => ModeW end) = Ok tt) by (destruct m as [[]|]; congruence || reflexivity).
  rewrite O. cbn [rbind]. destruct f; [|rewrite (Z eq_refl)]; destruct a, ca, ds, cd; reflexivity.
Qed.
Print Assumptions C220_memory.
Example C220_example :
  save here (Memory false None) true false None (Some true) (Some false) None FZarr None true = Ok (mkcopying false true FZarr).
Proof. reflexivity. Qed.

(** C221.  False: data on disk are saved likewise.  Without a mode the new file
    is opened for reading ... *)
Theorem C221_mode_refuted : exists w, save w (H5Group true) true true None None None None FHdf5 None false = Err FileNotFoundError.
Proof. exists here. reflexivity. Qed.
Print Assumptions C221_mode_refuted.
(** ... the conversions and the format are not passed on ... *)
Theorem C221_conversion_refuted : exists w k,
  save w (H5Group true) true true None None (Some false) (Some true) FZarr (Some ModeW) false = Ok k
  /\ k_attrs k = true /\ k_datasets k = false /\ k_format k = FHdf5.
Proof. exists here. eexists. split; [reflexivity|]. repeat split. Qed.
Print Assumptions C221_conversion_refuted.
(** ... and the class is written into the file that is read. *)
Theorem C221_readonly_refuted : exists w e,
  save w (H5Group true) false false None None None None FHdf5 (Some ModeW) false = Err e.
Proof. exists here. eexists. reflexivity. Qed.
Print Assumptions C221_readonly_refuted.

(** C222.  False: the lock of a zarr store is removed by one rank. *)
Theorem C222_refuted : exists m, m = read_storage true FZarr None true (Some 0)
  /\ forall rank, removes_lock m true rank = true.
Proof. eexists. split; [reflexivity|]. reflexivity. Qed.
Print Assumptions C222_refuted.

(** Only with a communicator would it be kept. *)
Theorem C222_kept : forall m lock rank, removes_lock m lock rank = true <-> lock = true /\ comm_of m = None.
Proof. intros m lock rank. unfold removes_lock. destruct lock, (comm_of m); cbn; intuition congruence. Qed.
Print Assumptions C222_kept.

(** C223.  False: [MemGroup.from_group] copies groups of HDF5 files and zarr
    stores, as its documentation says. *)
Theorem C223_refuted : exists g, (exists file, g = H5Group file) /\ from_group (Group g) = Refused.
Proof. exists (H5Group true). split; [eexists; reflexivity|reflexivity]. Qed.
Print Assumptions C223_refuted.
