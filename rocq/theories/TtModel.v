(** The task which truncates the datasets of a container.
    /repo/caput/pipeline/tasklib/io.py: [Truncate._get_params] (672-712), [_get_weights] (714-762),
    [process] (764-840).

    Real numbers instead of floating point numbers.  An array is its shape and a function giving
    the number at each index.  The functions of truncate.pyx are modelled by the tolerance they
    are called with: [trunc v e] is the value [v] truncated with the tolerance [e] (their bounds are
    C12 and C13).  Left out: dtypes, weights which are attributes of the container other than
    datasets, distributed arrays, the chunks. *)
From Coq Require Import List Bool Reals Arith.
From Verif Require Import PyBase PyStr.
Import ListNotations.
Open Scope R_scope.

(** Values of the setting [dataset] and of the entry [truncate] of a specification.  A dictionary
    has entries for [weight_dataset], [fixed_precision] and [variance_increase]. *)
Inductive given :=
| GBool (b : bool)
| GNone
| GInt (zero : bool)
| GFloat (r : R)
| GStr (s : str)
| GDict (wd : option (option str)) (fp : option R) (vi : option (option R)).
Record params := { weight_dataset : option str; fixed_precision : R; variance_increase : option R }.
(** Lines 666-670 *)
Definition default_params : params :=
  {| weight_dataset := None; fixed_precision := 1 / 10000; variance_increase := Some (1 / 1000) |}.

(** [bool(given)]; [iszero] decides whether a number is zero. *)
Definition iszero (r : R) : bool := if Req_EM_T r 0 then true else false.
Definition truthy (g : given) : bool :=
  match g with
  | GBool b => b
  | GNone => false
  | GInt z => negb z
  | GFloat r => negb (iszero r)
  | GStr s => match s with [] => false | _ => true end
  | GDict None None None => false
  | GDict _ _ _ => true
  end.
Definition or_default {A} (o : option A) (d : A) : A := match o with Some a => a | None => d end.
(** Lines 697-704 *)
Definition parse (g : given) : option params :=
  match g with
  | GDict wd fp vi => Some {| weight_dataset := or_default wd (weight_dataset default_params);
                              fixed_precision := or_default fp (fixed_precision default_params);
                              variance_increase := or_default vi (variance_increase default_params) |}
  | GFloat r => Some {| weight_dataset := weight_dataset default_params; fixed_precision := r;
                        variance_increase := variance_increase default_params |}
  | _ => if truthy g then Some default_params else None
  end.
(** Lines 706-708 *)
Definition times3 (p : params) : params :=
  {| weight_dataset := weight_dataset p; fixed_precision := fixed_precision p;
     variance_increase := match variance_increase p with Some v => Some (v * 3) | None => None end |}.
(** Lines 687-712.  [conf] is the setting [dataset], [spec] the entry [truncate] of the dataset in
    the specification of the class ([None]: no such dataset or entry). *)
Definition get_params (conf : option (list (str * given))) (spec : option given) (dset : str) : option params :=
  let lookup := match conf with
                | Some d => match find (fun e => seqb (fst e) dset) d with Some e => Some (snd e) | None => None end
                | None => None
                end in
  let g := match lookup with
           | Some g => Some g
           | None => match spec with Some g => if truthy g then Some g else None | None => None end
           end in
  match g with
  | None => None
  | Some g => match parse g with Some p => Some (times3 p) | None => None end
  end.

(** A dataset: the names of its axes (the attribute [axis]), the shape and the numbers *)
Record dataset (A : Type) := { daxes : list str; dshape : list nat; dval : list nat -> A }.
Arguments daxes {A}. Arguments dshape {A}. Arguments dval {A}.
Definition mem (a : str) (l : list str) : bool := existsb (seqb a) l.

(** Lines 750-755: [weight[:][slobj]]; a new axis for each axis of the data which the weights do
    not have.  Result: the shape, and which axes are new; too many indices are an [IndexError]. *)
Fixpoint expand (das : list str) (was : list str) (wsh : list nat) : res (list (nat * bool)) :=
  match das with
  | [] => Ok (map (fun n => (n, false)) wsh)
  | a :: das =>
      if mem a was then
        match wsh with
        | [] => Err IndexError
        | n :: wsh => rbind (expand das was wsh) (fun l => Ok ((n, false) :: l))
        end
      else rbind (expand das was wsh) (fun l => Ok ((1%nat, true) :: l))
  end.
(** [np.broadcast_to]: axes are aligned at the end; axes of length one are repeated. *)
Fixpoint fits (l : list nat) (sh : list nat) : bool :=
  match l, sh with
  | [], [] => true
  | n :: l, m :: sh => ((n =? m) || (n =? 1))%nat && fits l sh
  | _, _ => false
  end.
Definition broadcasts (l sh : list nat) : bool :=
  (length l <=? length sh)%nat && fits l (skipn (length sh - length l) sh).
(** The index of the weights for an index of the data *)
Fixpoint pick (l : list (nat * bool)) (k : list nat) : list nat :=
  match l, k with
  | (n, new) :: l, i :: k =>
      if new then pick l k else (if (n =? 1)%nat then 0%nat else i) :: pick l k
  | _, _ => []
  end.
(** Lines 743-762; [cplx]: the data are complex *)
Definition get_weights (das : list str) (dsh : list nat) (cplx : bool) (w : dataset R) : res (list nat -> R) :=
  rbind (expand das (daxes w) (dshape w)) (fun l =>
    if broadcasts (map fst l) dsh then
      Ok (fun k => let v := dval w (pick l (skipn (length dsh - length l) k)) in if cplx then v * 2 else v)
    else Err ValueError).

Section Process.
Variable trunc : R -> R -> R.
(** [bit_truncate_relative], one number *)
Definition relative (fp v : R) : R := trunc v (Rabs (fp * v)).
(** [bit_truncate_weights], one number *)
Definition weighted (fp w v : R) : R :=
  if iszero w then trunc v (fp * v) else trunc v (1 / sqrt w).
(** Lines 806-838: the function applied to each number, real and imaginary parts alike.
    A division by [None] is a [TypeError]. *)
Definition truncated (p : params) (das : list str) (dsh : list nat) (cplx : bool) (w : dataset R)
  : res (list nat -> R -> R) :=
  match weight_dataset p with
  | None => Ok (fun _ v => relative (fixed_precision p) v)
  | Some _ =>
      rbind (get_weights das dsh cplx w) (fun wt =>
        match variance_increase p with
        | None => Err TypeError
        | Some vi => Ok (fun k v => weighted (fixed_precision p) (wt k / vi) v)
        end)
  end.
End Process.

(** Lines 783-792: the datasets which are truncated, and how.  [cls] and [inst] are the
    specifications of the class and of the container itself (names in order, with the entry
    [truncate] if there is one), [present] the names of the datasets which exist. *)
Definition entry (l : list (str * option given)) (d : str) : option given :=
  match find (fun e => seqb (fst e) d) l with Some e => snd e | None => None end.
Definition chosen (conf : option (list (str * given))) (cls : list (str * option given))
  (names present : list str) : list (str * params) :=
  flat_map (fun d => match get_params conf (entry cls d) d with
                     | Some p => if mem d present then [(d, p)] else []
                     | None => []
                     end) names.
