(** Decorators for scalars, lists and arrays.
    /repo/caput/util/arraytools.py: [vectorize] (183-221), [scalarize] (224-291), [listize] (294-327).
    /repo/caput/astro/time.py: [era_to_unix] (119-154), [leap_seconds_between] (255-293) for arrays.

    Arrays of one dimension are lists; [Zero] is an array without dimension. *)
From Coq Require Import List Bool Arith Reals ZArith.
From Verif Require Import PyBase SolveModel LsdModel.
Import ListNotations.
Open Scope list_scope.

Inductive arg (A : Type) := Scalar (x : A) | Zero (x : A) | Array (l : list A) | Sequence (l : list A).
Arguments Scalar {A}. Arguments Zero {A}. Arguments Array {A}. Arguments Sequence {A}.
(** The results: an element or an array *)
Inductive out (A : Type) := Elem (x : A) | Arr (l : list A).
Arguments Elem {A}. Arguments Arr {A}.
Fixpoint mapM {A B} (f : A -> res B) (l : list A) : res (list B) :=
  match l with [] => Ok [] | x :: l => rbind (f x) (fun y => rbind (mapM f l) (fun ys => Ok (y :: ys))) end.
Definition is_empty {A} (l : list A) : bool := match l with [] => true | _ => false end.
(** [_make_array], lines 254-279, without Skyfield's times *)
Definition make_array {A} (x : arg A) : res (list A * bool * bool) :=
  match x with
  | Scalar x => Ok ([x], true, false)
  | Zero _ => Err TypeError
  | Array l | Sequence l => Ok (l, false, is_empty l)
  end.
(** [__call__], lines 239-252.  The arguments given by keyword go to the function as they are. *)
Definition scalarize {A B} (func : list (list A) -> res (list B)) (args : list (arg A)) : res (out B) :=
  rbind (mapM make_array args) (fun l =>
  match l with
  | [] => Err ValueError
  | _ =>
      if forallb snd l then Ok (Arr [])
      else rbind (func (map (fun x => fst (fst x)) l)) (fun ret =>
           if forallb (fun x => snd (fst x)) l then match ret with x :: _ => Ok (Elem x) | [] => Err IndexError end
           else Ok (Arr ret))
  end).
(** Lines 306-315: what the function gets *)
Definition listize_arg {A} (x : arg A) : arg A := match x with Sequence l => Array l | _ => x end.
Definition listize {A K V} (func : list (arg A) -> K -> V) (args : list (arg A)) (kwargs : K) : V := func (map listize_arg args) kwargs.
(** Lines 202-209, for functions of one argument.  [np.vectorize] needs [otypes] for nothing at all. *)
Definition vectorize {A B} (otypes : bool) (f : A -> res B) (x : arg A) : res (out B) :=
  match x with
  | Scalar x | Zero x => rbind (f x) (fun y => Ok (Elem y))
  | Array l | Sequence l => if is_empty l && negb otypes then Err ValueError else rbind (mapM f l) (fun r => Ok (Arr r))
  end.

(** * Arrays of times *)
Definition bcast {A B C} (f : A -> B -> C) (a : list A) (b : list B) : res (list C) :=
  if length a =? length b then Ok (map (fun p => f (fst p) (snd p)) (combine a b))
  else match a, b with
       | [x], _ => Ok (map (f x) b)
       | _, [y] => Ok (map (fun x => f x y) a)
       | _, _ => Err ValueError
       end.
Open Scope R_scope.
(** [unix_to_skyfield_time(a).tt]: for an empty array [unix_to_skyfield_time] gives an empty array, which has no [tt] *)
Definition sky_tt (tt : R -> R) (a : list R) : res (list R) := if is_empty a then Err AttributeError else Ok (map tt a).
Definition unix_to_era_array (turns : R -> R) (a : list R) : list R := map (unix_to_era turns) a.
Definition leap_seconds_array (tt : R -> R) (a b : list R) : res (list Z) :=
  if is_empty a && is_empty b then Ok []
  else rbind (bcast (fun x y => y - x) a b) (fun delta_unix =>
       rbind (sky_tt tt a) (fun tt_a => rbind (sky_tt tt b) (fun tt_b =>
       rbind (bcast (fun x y => (y - x) * 24 * 3600) tt_a tt_b) (fun delta_tt =>
       rbind (bcast Rminus delta_tt delta_unix) (fun time_shift =>
       if existsb (fun x => rltb (1 / 100) (Rabs (x - IZR (rint x)))) time_shift then Err RuntimeError
       else Ok (map rint time_shift)))))).
Definition era_to_unix_array (turns tt : R -> R) (era time0 : list R) : res (list R) :=
  rbind (bcast (fun e e0 => rmod (e - e0) 360) era (unix_to_era_array turns time0)) (fun diff_era_deg =>
  let diff_time := map (fun d => d * 240 * stellar_second) diff_era_deg in
  rbind (bcast Rplus time0 diff_time) (fun t1 =>
  rbind (leap_seconds_array tt time0 t1) (fun leap =>
  bcast Rminus t1 (map IZR leap)))).
Definition era_to_unix_any (turns tt : R -> R) (era time0 : arg R) : res (out R) :=
  scalarize (fun l => match l with [e; t] => era_to_unix_array turns tt e t | _ => Err TypeError end) [era; time0].
