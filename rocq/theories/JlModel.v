(** Spherical Bessel functions.
    /repo/caput/astro/coordinates/bessel.py: [jl] (15-58), [jl_d] (61-78), [jl_d2]
    (81-100), [_jl_approx_lowz] (103-122), [_jl_approx_highz] (125-138).

    Real numbers instead of floating point numbers; [None] stands for NaN.  SciPy's
    [spherical_jn] is a parameter.  Arrays are the list of their elements after
    broadcasting. *)
From Coq Require Import List Bool Reals ZArith.
From Verif Require Import PyBase SolveModel SphModel.
Import ListNotations.
Open Scope R_scope.

(** [x ** 0.5] is [root x]; [np.arccosh] *)
Definition arccosh (x : R) : option R := if rleb 1 x then Some (ln (x + sqrt (x ^ 2 - 1))) else None.
(** Lines 103-122 *)
Definition jl_approx_lowz (l z : R) : option R :=
  let nu := l + 1 / 2 in
  bind (root (nu * nu - z * z)) (fun nutanha =>
  bind (quot nu z) (fun q => bind (arccosh q) (fun ac =>
  let arg := nutanha - nu * ac in
  bind (quot 1 (8 * nutanha)) (fun a =>
  bind (quot (5 * nu ^ 2) (24 * nutanha ^ 3)) (fun b =>
  bind (quot 9 (128 * nutanha ^ 2)) (fun c =>
  bind (quot (231 * nu ^ 2) (576 * nutanha ^ 4)) (fun d =>
  bind (root (z * nutanha)) (fun e => quot (exp arg * (1 + a - b + c - d)) (2 * e))))))))).
(** Lines 125-138 *)
Definition jl_approx_highz (l z : R) : option R :=
  let nu := l + 1 / 2 in
  bind (quot (nu * nu) (z * z)) (fun q =>
  bind (root (1 - q)) (fun sinb =>
  bind (quot nu (z * sinb)) (fun cotb =>
  bind (quot nu z) (fun q => bind (arcsin q) (fun asn =>
  let arg := z * sinb - nu * (PI / 2 - asn) - PI / 4 in
  bind (quot (9 * cotb ^ 2) (128 * nu ^ 2)) (fun a =>
  bind (quot cotb (8 * nu)) (fun b =>
  bind (root sinb) (fun e => quot (cos arg * (1 - a) + sin arg * b) (z * e))))))))).

(** The masks of lines 37-44 *)
Definition zca (l z : R) : bool := req z 0 && rltb 0 l.
Definition lca (l z : R) : bool := ((rltb 20 l && rltb z (l / 5)) || rltb z (l * / 1000000)) && rltb 0 z.
Definition hca (l z : R) : bool := rltb 20 l && rltb (10 * l) z.
Definition gca (l z : R) : bool := negb ((lca l z || hca l z) || zca l z).

Section Scipy.
Variable spherical_jn : R -> R -> option R.
(** Lines 47-52: assignments one after the other; the outer [None] is an element
    of [np.empty_like] that nothing was assigned to. *)
Definition assign (mask : bool) (v : option R) (old : option (option R)) : option (option R) := if mask then Some v else old.
Definition jl_elem (l z : R) : option (option R) :=
  let e := assign (zca l z) (Some 0) None in
  let e := assign (lca l z) (jl_approx_lowz l z) e in
  let e := assign (hca l z) (jl_approx_highz l z) e in
  assign (gca l z) (spherical_jn l z) e.
End Scipy.

(** What the arguments are, and what is returned. *)
Inductive kind := Number | Sequence | NdArray.
Inductive jl_result := Elems (l : list (option (option R))) | Single (x : option (option R)).
(** Lines 54-58 *)
Definition jl (spherical_jn : R -> R -> option R) (kl kz : kind) (lz : list (R * R)) : res jl_result :=
  let jla := map (fun p => jl_elem spherical_jn (fst p) (snd p)) lz in
  match kl, kz with
  | NdArray, _ | _, NdArray => Ok (Elems jla)
  | _, _ => match jla with x :: _ => Ok (Single x) | [] => Err IndexError end
  end.

(** The derivatives, for one element, with [j] in the place of [jl] *)
Section Derivatives.
Variable j : nat -> R -> R.
Definition jl_d (l : nat) (z : R) : option R :=
  let jl0 := j l z in
  let jl1 := j (l + 1)%nat z in
  bind (quot (INR l) z) (fun q => Some (- jl1 + q * jl0)).
Definition jl_d2 (l : nat) (z : R) : option R :=
  let jl0 := j l z in
  let jl1 := j (l + 1)%nat z in
  let jl2 := j (l + 2)%nat z in
  bind (quot (2 * INR l) z) (fun p => bind (quot (INR l ^ 2 - 1) (z ^ 2)) (fun q => Some (jl2 - p * jl1 + q * jl0))).
End Derivatives.
