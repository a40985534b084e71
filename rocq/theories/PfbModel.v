(** The polyphase filter bank.
    /repo/caput/util/pfb.py: [PFB.apply] (120-153), [compute_channel_profile] (155-199),
    [evaluate_channel_profile] (201-236), [decorrelation_ratio] (240-284).

    Real numbers instead of floating point numbers; NumPy's transforms are their sums.  The window
    is a function giving [ntap * lblock] numbers.  Splines are a parameter; linear interpolation is
    exact at its nodes, and only used there. *)
From Coq Require Import List Bool Reals ZArith Arith.
From Verif Require Import PyBase FftModel.
Import ListNotations.
Open Scope R_scope.

Section PFB.
Variables (ntap lblock oversample : nat).
Variable window : nat -> R.
Let N : nat := (ntap * lblock)%nat.

(** [np.fft.rfft], the number [k], of [n] real numbers *)
Definition rfft (n : nat) (x : nat -> R) (k : nat) : Cx :=
  csum n (fun t => cmul (rc (x t)) (root n (- Z.of_nat (t * k)))).
(** Lines 137-151: [size] numbers *)
Definition nblock (size : nat) : Z := (Z.of_nat (size / lblock) - (Z.of_nat ntap - 1))%Z.
Definition section_ (ts : nat -> R) (b : nat) : nat -> R := fun t => ts (b * lblock + t)%nat * window t.
Definition apply (size : nat) (ts : nat -> R) : res (list (list Cx)) :=
  if (lblock =? 0)%nat then Err ZeroDivisionError
  else if (nblock size <? 0)%Z then Err ValueError
  else Ok (map (fun b => map (fun f => rfft N (section_ ts b) (f * ntap)) (seq 0 (lblock / 2)))
               (seq 0 (Z.to_nat (nblock size)))).

(** [np.fft.fftshift]: the number [i] of an array of [n] *)
Definition fftshift {A} (n : nat) (x : nat -> A) (i : nat) : A := x ((i + (n - n / 2)) mod n)%nat.
(** [np.fft.fftfreq(n, d)] *)
Definition fftfreq (n : nat) (d : R) (k : nat) : R :=
  (if (k <? (n - 1) / 2 + 1)%nat then INR k else INR k - INR n) / (INR n * d).
(** Lines 188-199 *)
Definition nfft : nat := (N * oversample)%nat.
(** [np.fft.fft(window, n=Nfft)]: zeros are appended *)
Definition padded (t : nat) : R := if (t <? N)%nat then window t else 0.
Definition profile_raw (i : nat) : Cx :=
  fftshift nfft (fun k => csum nfft (fun t => cmul (rc (padded t)) (root nfft (- Z.of_nat (t * k))))) i.
Definition rel_freq (i : nat) : R := fftshift nfft (fftfreq nfft (1 / INR lblock)) i.
(** [w.real.max()] *)
Fixpoint rmax (n : nat) (f : nat -> R) : R :=
  match n with
  | O => f 0%nat
  | S m => Rmax (rmax m f) (f m)
  end.
Definition profile (norm : bool) (i : nat) : Cx :=
  if norm then cmul (rc (/ rmax nfft (fun j => fst (profile_raw j)))) (profile_raw i) else profile_raw i.
(** Lines 232-236: the state is [_profile_interp] *)
Section Evaluate.
Variable I : Type.
Variable spline : (nat -> R) -> (nat -> Cx) -> I.
Variable value : I -> R -> option Cx.
Definition evaluate (st : option I) (norm : bool) (x : R) : option I * option Cx :=
  match st with
  | None => let i := spline rel_freq (profile norm) in (Some i, value i x)
  | Some i => (st, value i x)
  end.
Fixpoint evaluates (st : option I) (calls : list (bool * R)) : list (option Cx) :=
  match calls with
  | [] => []
  | (n, x) :: r => let (s, v) := evaluate st n x in v :: evaluates s r
  end.
End Evaluate.

(** Lines 255-275 *)
(** [window_extended] is [padded]; [wfpad], of length [nwf] *)
Definition npad : nat := (N * oversample ^ 2)%nat.
Definition nwf : nat := (npad / 2 + 1)%nat.
Definition cabs2 (z : Cx) : R := fst z * fst z + snd z * snd z.
Definition wfpad (k : nat) : R :=
  if (k <? nfft / 2 + 1)%nat then cabs2 (rfft nfft padded k) else 0.
(** [np.fft.irfft] of [m] real numbers: [2 (m - 1)] numbers; the first and the last of the input
    count once, the others twice. *)
Definition irfft (m : nat) (x : nat -> R) (j : nat) : R :=
  let n := (2 * (m - 1))%nat in
  (fst (csum m (fun k => cmul (rc ((if (k =? 0)%nat || (k =? m - 1)%nat then 1 else 2) * x k))
                               (root n (Z.of_nat (j * k)))))) / INR n.
Definition tau (k : nat) : R := fftfreq npad (1 / INR (N * oversample)) k.
(** Lines 277-284 for a delay of [t / oversample] samples, [0 <= t]: the number [t] of the array,
    if it is one with a positive delay and not farther than [N] samples, 0 beyond.  A mask of another length is an [IndexError],
    a transform to no numbers a [ValueError]. *)
Definition decorrelation (t : nat) : res R :=
  if (2 * (nwf - 1) =? 0)%nat then Err ValueError
  else if negb (2 * (nwf - 1) =? npad)%nat then Err IndexError
  else if ((t <=? N * oversample) && (t <? (npad - 1) / 2 + 1))%nat then Ok (irfft nwf wfpad t / irfft nwf wfpad 0)
  else Ok 0.
End PFB.
