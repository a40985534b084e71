(** [copy_datasets_filter], /repo/caput/containers/_util.py lines 43-177, and
    [_apply_sel], /repo/caput/mpiarray.py lines 2242-2258.

    All ranks together: a dataset is its whole array, and when distributed the
    axis; rank [r] of [size] holds the even share of that axis, and
    [redistribute] only changes the axis (C21).  The datasets of the source are
    listed in the order they are taken from the stack.  [make] is what
    [dest.add_dataset] creates.  Arrays are those of [RedModel]; an assignment
    repeats axes of length one ([DistModel.assign_all]).  The attributes copied
    along, and the new distribution of the source, are not part of the result. *)
From Coq Require Import String.
From Coq Require Import List Ascii Bool Arith ZArith.
From Verif Require Import PyBase PyStr MemModel AttrModel ContModel PartModel SliceModel RedModel DistModel.
Import ListNotations.
Open Scope list_scope.
Open Scope nat_scope.

(** A selection: a slice, a list or tuple of integers, or an array of them. *)
Inductive fsel := FSlice (s : pslice) | FList (l : list Z) | FArr (l : list Z).
Definition is_full (s : pslice) : bool :=
  match sl_start s, sl_stop s, sl_step s with None, None, None => true | _, _, _ => false end.
(** [list(range(a, b))] *)
Definition zrange (a b : Z) : list Z := map (fun i => (a + Z.of_nat i)%Z) (seq 0 (Z.to_nat (b - a))).
Definition zlist_eqb (a b : list Z) : bool := if list_eq_dec Z.eq_dec a b then true else false.

(** Lines 94-103: what becomes of one entry ([None]: it is deleted).  The
    comparison of an array with [slice(None)] has a truth value only for one
    element. *)
Definition as_slice (a b : Z) : fsel := FSlice (mkslice (Some a) (Some b) None).
Definition clean_list (mk : list Z -> fsel) (l : list Z) : res (option fsel) :=
  match l with
  | [] => Err IndexError
  | a :: _ => let b := last l a in
              if zlist_eqb l (zrange a b) then Ok (Some (as_slice a b)) else Ok (Some (mk l))
  end.
Definition clean_one (s : fsel) : res (option fsel) :=
  match s with
  | FSlice sl => Ok (if is_full sl then None else Some s)
  | FList l => clean_list FList l
  | FArr l => match l with
              | [] => Err IndexError
              | [_] => clean_list FArr l
              | _ => Err ValueError
              end
  end.
Fixpoint clean (sel : list (str * fsel)) : res (list (str * fsel)) :=
  match sel with
  | [] => Ok []
  | (k, s) :: r => rbind (clean_one s) (fun o => rbind (clean r) (fun r =>
      Ok (match o with Some s => (k, s) :: r | None => r end)))
  end.

(** The positions a selection takes from an axis of length [n].  [np.take]
    counts negative indices from the end. *)
Fixpoint take_positions (n : nat) (l : list Z) : res (list nat) :=
  match l with
  | [] => Ok []
  | z :: l => rbind (pyaxis n z) (fun p => rbind (take_positions n l) (fun ps => Ok (p :: ps)))
  end.
Definition positions (s : fsel) (n : nat) : res (list nat) :=
  match s with
  | FSlice sl => rbind (slice_positions sl (Z.of_nat n)) (fun ps => Ok (map Z.to_nat ps))
  | FList l => take_positions n l
  | FArr _ => Err ValueError
  end.
Section Arrays.
Context {A : Type}.
Definition take_axis (k : nat) (ps : list nat) (a : nd A) : nd A :=
  mknd (set_nth k (length ps) (shp a)) (fun idx => elt a (set_nth k (nth (nth k idx 0) ps 0) idx)).
(** [_apply_sel] *)
Definition apply_sel (a : nd A) (s : fsel) (k : nat) : res (nd A) :=
  rbind (positions s (nth k (shp a) 0)) (fun ps => Ok (take_axis k ps a)).
(** Lines 163-168 *)
Definition apply_sels (axes : list str) (sel : list (str * fsel)) (a : nd A) : res (nd A) :=
  fold_left (fun acc kv => rbind acc (fun a =>
               match index_name (fst kv) axes with
               | None => Ok a
               | Some k => apply_sel a (snd kv) k
               end)) sel (Ok a).

(** The share of one rank. *)
Definition share (size k r : nat) (G : nd A) : res (nd A) :=
  rbind (split_local (nth k (shp G) 0) r size) (fun '(_, s, e) => Ok (view G (upd full_box k (s, e)))).
(** The whole array of the shares [pieces]. *)
Definition whole (size k : nat) (sh : list nat) (pieces : list (nat * nd A)) (old : nd A) : nd A :=
  mknd sh (fun idx =>
    let x := nth k idx 0 in
    match find (fun '(r, _) => match split_local (nth k sh 0) r size with
                               | Ok (_, s, e) => (s <=? x) && (x <? e)
                               | Err _ => false
                               end) pieces with
    | Some (r, p) => match split_local (nth k sh 0) r size with
                     | Ok (_, s, _) => elt p (set_nth k (x - s) idx)
                     | Err _ => elt old idx
                     end
    | None => elt old idx
    end).
Fixpoint on_ranks {B} (f : nat -> res B) (rs : list nat) : res (list (nat * B)) :=
  match rs with
  | [] => Ok []
  | r :: rs => rbind (f r) (fun x => rbind (on_ranks f rs) (fun l => Ok ((r, x) :: l)))
  end.
(** [dest[:] = arr] where rank [r] assigns [arr r] to its share. *)
Definition assign_shares (size k : nat) (dest : nd A) (arr : nat -> res (nd A)) : res (nd A) :=
  rbind (on_ranks (fun r => rbind (share size k r dest) (fun d => rbind (arr r) (fun a => assign_all d a))) (seq 0 size))
        (fun ps => Ok (whole size k (shp dest) ps dest)).

Record dset := mkdset { d_name : str; d_names : list str; d_dist : option nat; d_val : nd A }.

(** Lines 139-154: the axis to distribute over. *)
Definition dim_leb (a b : nat * str) : bool :=
  (fst a <? fst b) || ((fst a =? fst b) && sleb (snd a) (snd b)).
Definition new_axis (axis : list str) (sel : list (str * fsel)) (item : dset) (o : nat) : res nat :=
  match sel with
  | [] => Ok o
  | _ =>
      match nth_error (d_names item) o with
      | None => Err IndexError
      | Some a =>
          if mem_name a (map fst sel) then
            let priority := filter (fun p => negb (mem_name (snd p) axis)) (py_sorted dim_leb (combine (shp (d_val item)) (d_names item))) in
            match rev priority with
            | [] => Err ValueError
            | (_, x) :: _ => match index_name x (d_names item) with Some k => Ok k | None => Err ValueError end
            end
          else Ok o
      end
  end.

(** Lines 129-177 for one dataset, after it has been found in [dest].  [orig]
    is the variable [original_ax_id]. *)
Definition copy_item (size : nat) (axis : list str) (sel : list (str * fsel)) (orig : option nat) (item dest : dset)
  : res (dset * option nat) :=
  let names := d_names item in
  match d_dist item, d_dist dest with
  | Some _, None => Err ValueError
  | Some o, Some _ =>
      rbind (new_axis axis sel item o) (fun k =>
      rbind (assign_shares size k (d_val dest) (fun r => rbind (share size k r (d_val item)) (apply_sels names sel))) (fun v =>
      Ok (mkdset (d_name dest) (d_names dest) (Some o) v, Some o)))
  | None, None =>
      rbind (apply_sels names sel (d_val item)) (fun a =>
      rbind (assign_all (d_val dest) a) (fun v =>
      Ok (mkdset (d_name dest) (d_names dest) None v, orig)))
  | None, Some k =>
      rbind (assign_shares size k (d_val dest) (fun _ => apply_sels names sel (d_val item))) (fun v =>
      match orig with
      | None => Err UnboundLocalError
      | Some o => Ok (mkdset (d_name dest) (d_names dest) (Some o) v, orig)
      end)
  end.
Definition disjoint (a b : list str) : bool := forallb (fun x => negb (mem_name x b)) a.
Definition skipped (axis exclude : list str) (all : bool) (item : dset) : bool :=
  negb (disjoint exclude (d_names item)) || (negb all && disjoint axis (d_names item)).
(** Lines 105-177 *)
Fixpoint copy_items (size : nat) (axis exclude : list str) (all : bool) (make : str -> res dset) (sel : list (str * fsel))
    (orig : option nat) (items : list dset) (dest : list (str * dset)) : res (list (str * dset)) :=
  match items with
  | [] => Ok dest
  | item :: items =>
      if skipped axis exclude all item then copy_items size axis exclude all make sel orig items dest
      else rbind (match dget (d_name item) dest with Some d => Ok d | None => make (d_name item) end) (fun d =>
           rbind (copy_item size axis sel orig item d) (fun '(d, orig) =>
           copy_items size axis exclude all make sel orig items (dput (d_name item) d dest)))
  end.
(** [selection]: a dictionary, or one selection for all axes. *)
Inductive selarg := SDict (d : list (str * fsel)) | SAll (s : fsel).
(** [copy_datasets_filter]: the destination, and the dictionary [selection]
    refers to, which was changed in place. *)
Definition copy_filter (size : nat) (items : list dset) (dest : list (str * dset)) (make : str -> res dset)
    (axis : list str) (selection : selarg) (exclude : list str) (all : bool) : res (list (str * dset) * list (str * fsel)) :=
  let sel := match selection with SDict d => d | SAll s => map (fun a => (a, s)) (union [] axis) end in
  rbind (match axis with
         | [] => Ok (map fst sel)
         | _ => if forallb (fun a => mem_name a (map fst sel)) axis then Ok axis else Err ValueError
         end) (fun axis =>
  rbind (clean sel) (fun sel =>
  rbind (copy_items size axis exclude all make sel None items dest) (fun d => Ok (d, sel)))).
End Arrays.
