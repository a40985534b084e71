(** Model of the time-ordered data concatenation in
    /repo/caput/containers/tod.py, for one concatenation axis.  Elements along
    the axis stand for whole rows; other axes are carried along.  The dataset
    filter is the identity and distribution over MPI is not modelled. *)
From Coq Require Import List ZArith Bool.
From Verif Require Import PyBase.
Import ListNotations.
Open Scope Z_scope.

(** Lines 719-732, [_start_stop_inds]. *)
Definition start_stop_inds (start stop : option Z) (ntime : Z) : Z * Z :=
  (match start with
   | None => 0
   | Some s => if s <? 0 then ntime + s else s
   end,
   match stop with
   | None => ntime
   | Some s => if s <? 0 then ntime + s else if ntime <? s then ntime else s
   end).

(** Lines 735-742, [_get_in_out_slice]: ((in start, in stop), (out start, out
    stop)). *)
Definition get_in_out_slice (start stop current ntime : Z) : (Z * Z) * (Z * Z) :=
  ((Z.max 0 (start - current), Z.min ntime (stop - current)),
   (Z.max 0 (current - start), Z.min (stop - start) (current - start + ntime))).

(** numpy [a[lo:hi]] and [a[lo:hi] = v] for non-negative bounds.  A cell that
    was never written (np.empty) is None. *)
Definition np_get {A} (a : list A) (lo hi : Z) : list A :=
  lslice (Z.to_nat lo) (Z.to_nat hi) a.
Definition np_set {A} (a : list (option A)) (lo hi : Z) (v : list A) : res (list (option A)) :=
  let l := Nat.min (Z.to_nat lo) (length a) in
  let h := Nat.max l (Nat.min (Z.to_nat hi) (length a)) in
  if (h - l =? length v)%nat
  then Ok (firstn l a ++ map Some v ++ skipn h a)
  else Err ValueError.
(** np.empty((n,)) *)
Definition np_empty {A} (n : Z) : res (list (option A)) :=
  if n <? 0 then Err ValueError else Ok (repeat None (Z.to_nat n)).

(** One input: its index map along the axis and one dataset. *)
Record todfile (A B : Type) := mkfile { f_index : list A; f_data : list B }.
Arguments mkfile {A B} _ _. Arguments f_index {A B} _. Arguments f_data {A B} _.

(** Lines 451-590, the loop over [data_list].  The dataset is created when the
    first input contributes to it. *)
Definition concat_step {A B} (start stop cur : Z) (f : todfile A B)
  (imap : list (option A)) (dset : option (list (option B)))
  : res (list (option A) * option (list (option B))) :=
  let n := Z.of_nat (length (f_index f)) in
  let axis_finished := stop <=? cur in
  let axis_not_started := cur + n <=? start in
  if axis_finished || axis_not_started then Ok (imap, dset)
  else
    let '((ilo, ihi), (olo, ohi)) := get_in_out_slice start stop cur n in
    rbind (np_set imap olo ohi (np_get (f_index f) ilo ihi)) (fun imap' =>
    let piece := np_get (f_data f) ilo ihi in
    rbind (match dset with Some d => Ok d | None => np_empty (stop - start) end) (fun d =>
    rbind (np_set d olo ohi piece) (fun d' => Ok (imap', Some d')))).

Fixpoint concat_loop {A B} (start stop cur : Z) (files : list (todfile A B))
  (imap : list (option A)) (dset : option (list (option B)))
  : res (list (option A) * option (list (option B))) :=
  match files with
  | [] => Ok (imap, dset)
  | f :: rest =>
      rbind (concat_step start stop cur f imap dset) (fun '(imap', dset') =>
      concat_loop start stop (cur + Z.of_nat (length (f_index f))) rest imap' dset')
  end.

(** Lines 312-592, [concatenate]. *)
Definition concatenate {A B} (files : list (todfile A B)) (start stop : option Z)
  : res (list (option A) * option (list (option B))) :=
  match files with
  | [] => Err IndexError
  | _ =>
      let ntime := fold_left (fun t f => t + Z.of_nat (length (f_index f))) files 0 in
      let '(start, stop) := start_stop_inds start stop ntime in
      rbind (np_empty (stop - start)) (fun imap =>
      concat_loop start stop 0 files imap None)
  end.

(** Lines 254-286, [select_time_range]: the new [time_sel].
    [np.where(cond)[0][0]] and [[-1]]. *)
Definition where_ {A} (P : A -> bool) (l : list A) : list nat :=
  map fst (filter (fun p => P (snd p)) (enumerate l)).
Definition first_of (l : list nat) : res nat :=
  match l with [] => Err IndexError | x :: _ => Ok x end.
Definition last_of (l : list nat) : res nat := first_of (rev l).

Definition select_time_range (time : list Z) (time_sel : Z * Z) (start_time stop_time : option Z)
  : res (Z * Z) :=
  rbind (match start_time with
         | Some t0 => rbind (first_of (where_ (fun t => t0 <=? t) time)) (fun i => Ok (Z.of_nat i))
         | None => Ok (fst time_sel)
         end) (fun start =>
  rbind (match stop_time with
         | Some t1 => rbind (last_of (where_ (fun t => t <? t1) time)) (fun i => Ok (Z.of_nat i + 1))
         | None => Ok (snd time_sel)
         end) (fun stop => Ok (start, stop))).

(** Lines 169-200 and 288-309: a fresh reader selects everything; [read]. *)
Definition reader_time {A B} (files : list (todfile A B)) : list A := concat (map f_index files).
Definition reader_read {A B} (files : list (todfile A B)) (time_sel : Z * Z) :=
  concatenate files (Some (fst time_sel)) (Some (snd time_sel)).
