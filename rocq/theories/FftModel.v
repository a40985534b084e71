(** Fourier transforms.
    /repo/caput/algorithms/fft/fftw.py: [FFTW.__init__] (77-115), [fft] (130-153), [ifft] (155-181),
    [fftconvolve] (183-211), [fftwindow] (213-245), the functions of the module (248-353).

    Real numbers instead of floating point numbers.  An array is its shape and a function
    giving the number at each index.  [pyfftw.FFTW] is modelled by what it computes: the sums
    of the discrete Fourier transform over each of its axes, divided by the number of summands
    for the backward direction (its default); negative axes count from the end, repeated axes
    are transformed once, an axis which is not there is an [IndexError], an input of another
    shape a [ValueError].  Left out: numbers of threads, alignment, flags, dtypes other than
    whether the first is complex. *)
From Coq Require Import List Bool Reals ZArith Arith.
From Verif Require Import PyBase.
Import ListNotations.
Open Scope R_scope.

(** Complex numbers *)
Definition Cx := (R * R)%type.
Definition C0 : Cx := (0, 0).
Definition C1 : Cx := (1, 0).
Definition cadd (a b : Cx) : Cx := (fst a + fst b, snd a + snd b).
Definition cmul (a b : Cx) : Cx := (fst a * fst b - snd a * snd b, fst a * snd b + snd a * fst b).
Definition copp (a : Cx) : Cx := (- fst a, - snd a).
Definition csub (a b : Cx) : Cx := cadd a (copp b).
Definition rc (r : R) : Cx := (r, 0).
(** [f 0 + ... + f (n - 1)] *)
Fixpoint csum (n : nat) (f : nat -> Cx) : Cx :=
  match n with O => C0 | S m => cadd (csum m f) (f m) end.
(** exp(2 pi i t / n) *)
Definition root (n : nat) (t : Z) : Cx :=
  (cos (2 * PI * IZR t / INR n), sin (2 * PI * IZR t / INR n)).

(** Arrays *)
Definition fn := list nat -> Cx.
Record arr := { ashape : list nat; aval : fn }.
(** What is passed as an array: something without a shape (a list, a number) is possible. *)
Inductive arg := Arr (a : arr) | NoShape.

(** The index [i] with [v] on the axis [a] *)
Fixpoint upd (i : list nat) (a v : nat) : list nat :=
  match i, a with
  | [], _ => []
  | _ :: r, O => v :: r
  | x :: r, S b => x :: upd r b v
  end.

(** The sums of the transform over one axis of length [n] *)
Definition dft1 (s : Z) (n a : nat) (x : fn) : fn :=
  fun k => csum n (fun j => cmul (x (upd k a j)) (root n (s * Z.of_nat j * Z.of_nat (nth a k 0%nat)))).
Fixpoint dft (s : Z) (sh : list nat) (axes : list nat) (x : fn) : fn :=
  match axes with [] => x | a :: r => dft1 s (nth a sh 0%nat) a (dft s sh r x) end.
Fixpoint count (sh axes : list nat) : R :=
  match axes with [] => 1 | a :: r => INR (nth a sh 0%nat) * count sh r end.
Definition forward_dft sh axes (x : fn) : fn := dft (-1) sh axes x.
Definition backward_dft sh axes (x : fn) : fn := fun k => cmul (rc (/ count sh axes)) (dft 1 sh axes x k).

(** The argument [axes] *)
Inductive axarg := AxNone | AxInt (z : Z) | AxSeq (l : list Z).
(** Lines 89-92 *)
Definition axes_of (sh : list nat) (ax : axarg) : list Z :=
  match ax with
  | AxNone => map Z.of_nat (seq 0 (length sh))
  | AxInt z => [z]
  | AxSeq l => l
  end.
(** [pyfftw]: the axes counted from the start *)
Definition axis_of (n : nat) (z : Z) : option nat :=
  let y := (if z <? 0 then z + Z.of_nat n else z)%Z in
  if ((0 <=? y) && (y <? Z.of_nat n))%Z then Some (Z.to_nat y) else None.
Fixpoint resolve (n : nat) (l : list Z) : option (list nat) :=
  match l with
  | [] => Some []
  | z :: r => match axis_of n z, resolve n r with
              | Some a, Some t => Some (a :: t)
              | _, _ => None
              end
  end.

(** An [FFTW] object *)
Record plan := { pshape : list nat; paxes : list nat; has_fft : bool; has_ifft : bool }.
(** Lines 77-115 *)
Definition make (sh : list nat) (is_complex : bool) (ax : axarg) (fw bw : bool) : res plan :=
  if negb is_complex then Err TypeError
  else match resolve (length sh) (axes_of sh ax) with
       | Some l => Ok {| pshape := sh; paxes := nodup Nat.eq_dec l; has_fft := fw; has_ifft := bw |}
       | None => if fw || bw then Err IndexError
                 else Ok {| pshape := sh; paxes := []; has_fft := fw; has_ifft := bw |}
       end.

Definition shape_eqb (a b : list nat) : bool := if list_eq_dec Nat.eq_dec a b then true else false.
(** A call of a [pyfftw.FFTW] object with the array [x]; the output array has the shape of [x]. *)
Definition call (o : plan) (t : fn -> fn) (x : arg) : res arr :=
  match x with
  | NoShape => Err AttributeError
  | Arr a => if shape_eqb (ashape a) (pshape o) then Ok {| ashape := ashape a; aval := t (aval a) |}
             else Err ValueError
  end.
(** [try: ... except AttributeError: raise RuntimeError] *)
Definition guard {A} (r : res A) : res A :=
  match r with Err AttributeError => Err RuntimeError | _ => r end.
(** Lines 130-153 *)
Definition fft (o : plan) (x : arg) : res arr :=
  guard (if has_fft o then call o (forward_dft (pshape o) (paxes o)) x else Err AttributeError).
(** Lines 155-181 *)
Definition ifft (o : plan) (x : arg) : res arr :=
  guard (if has_ifft o then call o (backward_dft (pshape o) (paxes o)) x else Err AttributeError).
(** Lines 183-211: [X1 *= X2] for arrays of the same shape *)
Definition times (x y : arr) : arr := {| ashape := ashape x; aval := fun k => cmul (aval x k) (aval y k) |}.
Definition fftconvolve (o : plan) (x y : arg) : res arr :=
  rbind (fft o x) (fun X => rbind (fft o y) (fun Y => ifft o (Arr (times X Y)))).

(** [X *= window]: NumPy's broadcasting of [window] to the shape of [X]; axes are aligned at the
    end, an axis of length one is repeated. *)
Fixpoint bc_ok (sh w : list nat) : bool :=
  match sh, w with
  | n :: s, m :: t => ((m =? n) || (m =? 1))%nat && bc_ok s t
  | [], [] => true
  | _, _ => false
  end.
Definition bc_fits (sh w : list nat) : bool :=
  (length w <=? length sh)%nat && bc_ok (skipn (length sh - length w) sh) w.
Fixpoint bc_at (w k : list nat) : list nat :=
  match w, k with
  | m :: t, i :: r => (if (m =? 1)%nat then 0%nat else i) :: bc_at t r
  | _, _ => []
  end.
Definition bc_index (sh w k : list nat) : list nat := bc_at w (skipn (length sh - length w) k).
Definition windowed (x w : arr) : arr :=
  {| ashape := ashape x; aval := fun k => cmul (aval x k) (aval w (bc_index (ashape x) (ashape w) k)) |}.
(** Lines 213-245 *)
Definition fftwindow (o : plan) (x : arg) (w : arr) : res arr :=
  rbind (fft o x) (fun X =>
    if bc_fits (ashape X) (ashape w) then ifft o (Arr (windowed X w)) else Err ValueError).

(** Lines 248-353: [x] is an array with a dtype *)
Definition fft_ (x : arr) (cplx : bool) (ax : axarg) : res arr :=
  rbind (make (ashape x) cplx ax true false) (fun o => fft o (Arr x)).
Definition ifft_ (x : arr) (cplx : bool) (ax : axarg) : res arr :=
  rbind (make (ashape x) cplx ax false true) (fun o => ifft o (Arr x)).
Definition fftconvolve_ (x y : arr) (cplx : bool) (ax : axarg) : res arr :=
  rbind (make (ashape x) cplx ax true true) (fun o => fftconvolve o (Arr x) (Arr y)).
Definition fftwindow_ (x w : arr) (cplx : bool) (ax : axarg) : res arr :=
  rbind (make (ashape x) cplx ax true true) (fun o => fftwindow o (Arr x) w).
