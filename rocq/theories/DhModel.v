(** Handles on in-memory datasets: what a looked-up dataset shares with the one in
    the group.
    /repo/caput/memdata/_memh5.py: [MemDataset.copy], [.view], [.attrs] (1031-1089),
    [MemDatasetCommon] (1156-1358), [MemDatasetDistributed] (1361-1607),
    [_MemObjMixin.__eq__] (225-231), [_BaseGroup.__getitem__] (278-301), the parts
    of [MemGroup.create_dataset] (725-908) and [__delitem__] (303-312) which put
    datasets into the storage and take them out, [deep_copy_dataset] (2685-2729);
    /repo/caput/mpiarray.py: [MPIArray.redistribute] (745-776, the rest only as a
    copy into a new array);
    /repo/caput/containers/_core.py: [_ensure_chunked] (545-573);
    /repo/caput/pipeline/tasklib/base.py: [_save_output] (445-492, the part before
    the file is written).

    Python references are numbers: of buffers (the memory of an array), of attribute
    dictionaries, of storage roots and of handles (datasets a caller holds).  The
    contents of a buffer are those of the whole array, however it is distributed; one
    position is read or written at a time.  Full paths are opaque names here; the
    hierarchy of groups is in MemModel.  Array elements and attribute values are
    integers, so a copy of them is deep.  Negative axes are left out. *)
From Coq Require Import String.
From Coq Require Import List Ascii Bool Arith ZArith.
From Verif Require Import PyBase PyStr PartModel MemModel FmtModel.
Import ListNotations.
Open Scope list_scope.
Open Scope nat_scope.

Record buffer := Buf { b_shape : list nat; b_vals : list Z }.
(** A numpy array ([None]) or an MPIArray with its distributed axis. *)
Record array := Arr { a_buf : nat; a_axis : option nat }.
Record settings := Sets { s_chunks : option (list nat); s_comp : carg; s_opts : copts }.
Definition no_settings : settings := Sets None ANone ONone.
Record dset := Ds { d_name : str; d_root : option nat; d_data : array; d_attrs : nat; d_set : settings }.
Notation root := (list (str * dset)).
Record state := St { bufs : list buffer; atts : list (list (str * Z)); roots : list root; hands : list dset }.

(** A dataset in a storage root, [group._storage_root[name]], or a handle. *)
Inductive dref := Base (r : nat) (n : str) | Hand (i : nat).

(** Replacing an element of a list. *)
Fixpoint lset {A} (i : nat) (x : A) (l : list A) : list A :=
  match l, i with
  | [], _ => []
  | _ :: r, 0 => x :: r
  | y :: r, S i => y :: lset i x r
  end.

Definition deref (st : state) (x : dref) : res dset :=
  match x with
  | Base r n => match nth_error (roots st) r with
                | Some l => match dget n l with Some d => Ok d | None => Err KeyError end
                | None => Err AttributeError
                end
  | Hand i => match nth_error (hands st) i with Some d => Ok d | None => Err UnboundLocalError end
  end.
(** The object [x] refers to changes. *)
Definition assign (st : state) (x : dref) (d : dset) : state :=
  match x with
  | Base r n => match nth_error (roots st) r with
                | Some l => St (bufs st) (atts st) (lset r (dput n d l) (roots st)) (hands st)
                | None => st
                end
  | Hand i => St (bufs st) (atts st) (roots st) (lset i d (hands st))
  end.
Definition add_hand (st : state) (d : dset) : state := St (bufs st) (atts st) (roots st) (hands st ++ [d]).

(** [copy(shallow=True)], which is [view], lines 1031-1089: everything but the
    object itself is the same. *)
Definition view (d : dset) : dset := Ds (d_name d) (d_root d) (d_data d) (d_attrs d) (d_set d).
(** [copy()]: new memory and new attributes; the name and the storage root are
    those of the original. *)
Definition deep_copy (st : state) (d : dset) : res (state * dset) :=
  match nth_error (bufs st) (a_buf (d_data d)), nth_error (atts st) (d_attrs d) with
  | Some b, Some a =>
      Ok (St (bufs st ++ [b]) (atts st ++ [a]) (roots st) (hands st),
          Ds (d_name d) (d_root d) (Arr (length (bufs st)) (a_axis (d_data d))) (length (atts st)) (d_set d))
  | _, _ => Err OtherException
  end.

(** [MPIArray.redistribute], lines 767-790 *)
Definition arr_redist (csize : nat) (bs : list buffer) (a : array) (axis : nat) : res (list buffer * array) :=
  match a_axis a, nth_error bs (a_buf a) with
  | None, _ => Err AttributeError
  | _, None => Err OtherException
  | Some x, Some b =>
      if x =? axis then Ok (bs, a)
      else if csize =? 1 then
        if axis <? length (b_shape b) then Ok (bs, Arr (a_buf a) (Some axis)) else Err AxisException
      else if axis <? length (b_shape b) then Ok (bs ++ [b], Arr (length bs) (Some axis)) else Err IndexError
  end.
(** [MemDatasetDistributed.redistribute], lines 1549-1570; a common dataset has no
    such method.  The dataset in the storage has no storage root. *)
Definition set_data (d : dset) (a : array) : dset := Ds (d_name d) (d_root d) a (d_attrs d) (d_set d).
Definition redistribute (csize : nat) (st : state) (x : dref) (axis : nat) : res state :=
  rbind (deref st x) (fun d =>
    match a_axis (d_data d) with
    | None => Err AttributeError
    | Some _ =>
        match d_root d with
        | Some r =>
            rbind (deref st (Base r (d_name d))) (fun base =>
            rbind (arr_redist csize (bufs st) (d_data base) axis) (fun '(bs, a) =>
              let st := St bs (atts st) (roots st) (hands st) in
              let st := assign st (Base r (d_name d)) (set_data base a) in
              Ok (assign st x (set_data d a))))
        | None =>
            rbind (arr_redist csize (bufs st) (d_data d) axis) (fun '(bs, a) =>
              let st := St bs (atts st) (roots st) (hands st) in
              Ok (assign st x (set_data d a)))
        end
    end).

(** The setter of [chunks], lines 1285-1307 (common) and 1499-1511 (distributed). *)
Definition chunks_common (val : option (list nat)) (shape : list nat) : res (option (list nat)) :=
  match val with
  | None => Ok None
  | Some v =>
      if negb (length v =? length shape) then Err ValueError
      else Ok (Some (map (fun '(i, l) => Nat.min (nth i v 0) l) (combine (seq 0 (length shape)) shape)))
  end.
Definition chunks_distributed (val : option (list nat)) (shape : list nat) : res (option (list nat)) :=
  match val with
  | None => Ok None
  | Some v =>
      if negb (length v =? length shape) then Err ValueError
      else Ok (Some (map (fun '(a, b) => Nat.min a b) (combine v shape)))
  end.
Definition set_settings (d : dset) (s : settings) : dset := Ds (d_name d) (d_root d) (d_data d) (d_attrs d) s.
Inductive setting := SChunks (c : option (list nat)) | SComp (c : carg) | SOpts (o : copts) | SOther.
(** [setattr(dset, key, val)]; another key makes a new attribute of the object. *)
Definition put_setting (shape : list nat) (distributed : bool) (s : settings) (k : setting) : res settings :=
  match k with
  | SChunks c => rbind ((if distributed then chunks_distributed else chunks_common) c shape)
                       (fun c => Ok (Sets c (s_comp s) (s_opts s)))
  | SComp c => Ok (Sets (s_chunks s) c (s_opts s))
  | SOpts o => Ok (Sets (s_chunks s) (s_comp s) o)
  | SOther => Ok s
  end.
Definition is_dist (d : dset) : bool := match a_axis (d_data d) with Some _ => true | None => false end.
Definition shape_of (st : state) (d : dset) : list nat :=
  match nth_error (bufs st) (a_buf (d_data d)) with Some b => b_shape b | None => [] end.
Definition set_on (st : state) (x : dref) (k : setting) : res state :=
  rbind (deref st x) (fun d =>
  rbind (put_setting (shape_of st d) (is_dist d) (d_set d) k) (fun s =>
    Ok (assign st x (set_settings d s)))).

(** * Programs *)
Inductive op :=
| New (r : nat) (n : str) (shape : list nat) (vals : list Z) (axis : option nat) (s : settings)
| Delete (r : nat) (n : str)
| Lookup (r : nat) (n : str)
| View (x : dref)
| Copy (x : dref)
| Write (x : dref) (i : nat) (v : Z)
| Read (x : dref) (i : nat)
| SetAttr (x : dref) (k : str) (v : Z)
| GetAttr (x : dref) (k : str)
| GetAxis (x : dref)
| Redist (x : dref) (axis : nat)
| SetOn (x : dref) (k : setting).
Inductive out := Done | Val (v : Z) | Axis (a : option nat) | Raised (e : exn).

Definition axis_ok (shape : list nat) (axis : option nat) : bool :=
  match axis with Some a => a <? length shape | None => true end.
(** One statement: the new state and its value, or its exception (and then nothing
    has changed). *)
Definition exec (csize : nat) (st : state) (o : op) : res (state * out) :=
  match o with
  | New r n shape vals axis s =>
      match nth_error (roots st) r with
      | None => Err AttributeError
      | Some l =>
          if negb (axis_ok shape axis) then Err IndexError
          else
            let d := Ds n None (Arr (length (bufs st)) axis) (length (atts st)) s in
            Ok (St (bufs st ++ [Buf shape vals]) (atts st ++ [[]]) (lset r (dput n d l) (roots st)) (hands st), Done)
      end
  | Delete r n =>
      rbind (deref st (Base r n)) (fun _ =>
        match nth_error (roots st) r with
        | None => Err AttributeError
        | Some l => Ok (St (bufs st) (atts st) (lset r (ddel n l) (roots st)) (hands st), Done)
        end)
  | Lookup r n =>
      rbind (deref st (Base r n)) (fun d =>
        let v := view d in
        Ok (add_hand st (Ds (d_name v) (Some r) (d_data v) (d_attrs v) (d_set v)), Done))
  | View x => rbind (deref st x) (fun d => Ok (add_hand st (view d), Done))
  | Copy x => rbind (deref st x) (fun d => rbind (deep_copy st d) (fun '(st, d) => Ok (add_hand st d, Done)))
  | Write x i v =>
      rbind (deref st x) (fun d =>
        match nth_error (bufs st) (a_buf (d_data d)) with
        | None => Err OtherException
        | Some b =>
            if i <? length (b_vals b)
            then Ok (St (lset (a_buf (d_data d)) (Buf (b_shape b) (lset i v (b_vals b))) (bufs st)) (atts st) (roots st) (hands st), Done)
            else Err IndexError
        end)
  | Read x i =>
      rbind (deref st x) (fun d =>
        match nth_error (bufs st) (a_buf (d_data d)) with
        | None => Err OtherException
        | Some b => match nth_error (b_vals b) i with Some v => Ok (st, Val v) | None => Err IndexError end
        end)
  | SetAttr x k v =>
      rbind (deref st x) (fun d =>
        match nth_error (atts st) (d_attrs d) with
        | None => Err OtherException
        | Some a => Ok (St (bufs st) (lset (d_attrs d) (dput k v a) (atts st)) (roots st) (hands st), Done)
        end)
  | GetAttr x k =>
      rbind (deref st x) (fun d =>
        match nth_error (atts st) (d_attrs d) with
        | None => Err OtherException
        | Some a => match dget k a with Some v => Ok (st, Val v) | None => Err KeyError end
        end)
  | GetAxis x => rbind (deref st x) (fun d => Ok (st, Axis (a_axis (d_data d))))
  | Redist x axis => rbind (redistribute csize st x axis) (fun st => Ok (st, Done))
  | SetOn x k => rbind (set_on st x k) (fun st => Ok (st, Done))
  end.
Definition step (csize : nat) (st : state) (o : op) : state * out :=
  match exec csize st o with Ok p => p | Err e => (st, Raised e) end.
Fixpoint run (csize : nat) (st : state) (os : list op) : state * list out :=
  match os with
  | [] => (st, [])
  | o :: os => let '(st, x) := step csize st o in let '(st, xs) := run csize st os in (st, x :: xs)
  end.
Definition start (nroots : nat) : state := St [] [] (repeat [] nroots) [].

(** * Equality, lines 225-231, 1146-1151, 1350-1359, 1595-1605 *)
Definition onat_eqb (a b : option nat) : bool :=
  match a, b with Some x, Some y => x =? y | None, None => true | _, _ => false end.
Fixpoint list_eqb {A} (e : A -> A -> bool) (a b : list A) : bool :=
  match a, b with
  | [], [] => true
  | x :: a, y :: b => e x y && list_eqb e a b
  | _, _ => false
  end.
Definition carg_eqb (a b : carg) : bool :=
  match a, b with ANone, ANone => true | AInt x, AInt y => (x =? y)%Z | AStr x, AStr y => seqb x y | _, _ => false end.
Definition copts_eqb (a b : copts) : bool :=
  match a, b with
  | ONone, ONone => true | OSeq x, OSeq y => list_eqb carg_eqb x y | OScalar x, OScalar y => carg_eqb x y | _, _ => false
  end.
Definition ochunks_eqb (a b : option (list nat)) : bool :=
  match a, b with Some x, Some y => list_eqb Nat.eqb x y | None, None => true | _, _ => false end.
Definition settings_eqb (a b : settings) : bool :=
  ochunks_eqb (s_chunks a) (s_chunks b) && carg_eqb (s_comp a) (s_comp b) && copts_eqb (s_opts a) (s_opts b).
(** Dictionaries as in Python: the same keys with the same values. *)
Definition dict_eqb (a b : list (str * Z)) : bool :=
  (length a =? length b) && forallb (fun '(k, v) => match dget k b with Some w => (v =? w)%Z | None => false end) a.
Definition buffer_eqb (a b : buffer) : bool :=
  list_eqb Nat.eqb (b_shape a) (b_shape b) && list_eqb Z.eqb (b_vals a) (b_vals b).
Definition dset_eqb (st : state) (x y : dset) : bool :=
  Bool.eqb (is_dist x) (is_dist y)
  && onat_eqb (d_root x) (d_root y) && seqb (d_name x) (d_name y)
  && match nth_error (atts st) (d_attrs x), nth_error (atts st) (d_attrs y) with Some a, Some b => dict_eqb a b | _, _ => false end
  && match nth_error (bufs st) (a_buf (d_data x)), nth_error (bufs st) (a_buf (d_data y)) with Some a, Some b => buffer_eqb a b | _, _ => false end
  && settings_eqb (d_set x) (d_set y).

(** [len(dset)], lines 1341 and 1583: the length of the array which this process
    holds, of which only the distributed axis is shorter than the whole. *)
Definition dset_len (size rank : nat) (shape : list nat) (axis : option nat) : res nat :=
  match shape with
  | [] => Err TypeError
  | l :: _ => match axis with
              | Some 0 => rbind (split_local l rank size) (fun '(num, _, _) => Ok num)
              | _ => Ok l
              end
  end.

(** * Settings of whole containers *)
(** One dataset in the container: its path below the root, its shape and settings.
    All of it is about the datasets in the storage. *)
Record item := Item { i_shape : list nat; i_dist : bool; i_set : settings }.
Definition items := list (str * item).
Definition put_item (k : setting) (it : item) : res item :=
  rbind (put_setting (i_shape it) (i_dist it) (i_set it) k) (fun s => Ok (Item (i_shape it) (i_dist it) s)).
(** containers/_core.py lines 545-573.  A specification may give chunks (a
    sequence), a compression and options. *)
Record dspec := Dspec { p_chunks : option (list nat); p_comp : option carg; p_opts : option copts }.
(** [for i, l in enumerate(shape): chunks += (min(spec[i], l),)] *)
Fixpoint spec_chunks (i : nat) (spec shape : list nat) : res (list nat) :=
  match shape with
  | [] => Ok []
  | l :: shape =>
      match nth_error spec i with
      | None => Err IndexError
      | Some c => rbind (spec_chunks (S i) spec shape) (fun r => Ok (Nat.min c l :: r))
      end
  end.
Definition ensure_one (p : dspec) (it : item) : res item :=
  rbind (match p_chunks p, s_chunks (i_set it) with
         | Some spec, None => rbind (spec_chunks 0 spec (i_shape it)) (fun c => put_item (SChunks (Some c)) it)
         | _, _ => Ok it
         end) (fun it =>
  rbind (match p_comp p, s_comp (i_set it) with
         | Some c, ANone => put_item (SComp c) it
         | _, _ => Ok it
         end) (fun it =>
  match p_opts p, s_opts (i_set it) with
  | Some o, ONone => put_item (SOpts o) it
  | _, _ => Ok it
  end)).
Fixpoint ensure_chunked (spec : list (str * dspec)) (its : items) : res items :=
  match spec with
  | [] => Ok its
  | (n, p) :: spec =>
      match dget n its with
      | None => ensure_chunked spec its
      | Some it => rbind (ensure_one p it) (fun it => ensure_chunked spec (dput n it its))
      end
  end.

(** tasklib/base.py lines 463-492: [_storage_root[ds]] for a path which is relative
    to the root; only paths without a slash are found, see [root_getitem]. *)
Definition in_root (n : str) (its : items) : res item :=
  if existsb (ceqb slash) n then Err ValueError
  else match dget n its with Some it => Ok it | None => Err KeyError end.
Definition is_shorthand (c : carg) : bool :=
  match c with AStr s => seqb s (s_ "bitshuffle") | AInt z => (z =? H5FILTER)%Z | ANone => false end.
Fixpoint put_all (ks : list setting) (it : item) : res item :=
  match ks with
  | [] => Ok it
  | k :: ks => rbind (put_item k it) (put_all ks)
  end.
(** Line 477 assigns to the view which [output[ds]] makes, and is without effect. *)
Definition override_one (ks : list setting) (it : item) : res item :=
  rbind (put_all ks it) (fun it =>
    if is_shorthand (s_comp (i_set it)) then
      match s_opts (i_set it) with
      | ONone => put_item (SOpts (OSeq [AInt 0%Z; AInt H5_COMPRESS_LZ4])) it
      | _ => Ok it
      end
    else Ok it).
Fixpoint override (conf : list (str * list setting)) (its : items) : res items :=
  match conf with
  | [] => Ok its
  | (n, ks) :: conf =>
      match dget n its with
      | None => override conf its
      | Some _ =>
          match ks, existsb (ceqb slash) n with
          | [], true =>
              (* nothing is looked up in the storage root before line 473 *)
              match dget n its with
              | Some it => if is_shorthand (s_comp (i_set it)) then
                             match s_opts (i_set it) with ONone => Err ValueError | _ => override conf its end
                           else override conf its
              | None => override conf its
              end
          | _, _ => rbind (in_root n its) (fun it => rbind (override_one ks it) (fun it => override conf (dput n it its)))
          end
      end
  end.
(** Lines 486-492, for every dataset found by [walk_dset_tree]. *)
Fixpoint disable_all (names : list str) (its : items) : res items :=
  match names with
  | [] => Ok its
  | n :: names =>
      rbind (in_root n its) (fun it =>
      rbind (put_all [SChunks None; SComp ANone; SOpts ONone] it) (fun it => disable_all names (dput n it its)))
  end.
(** The option [compression] of a task. *)
Inductive compression_option := CDict (c : list (str * list setting)) | COn | COff.
Definition save_settings (c : compression_option) (its : items) : res items :=
  match c with
  | CDict c => override c its
  | COff => disable_all (map fst its) its
  | COn => Ok its
  end.
