(** The windows of the polyphase filter bank.
    /repo/caput/util/pfb.py: [sinc_window] (24-43), [sinc_hann] (46-61), [sinc_hamming] (64-79).

    Real numbers instead of floating point numbers.  The numbers of taps and the length of a block
    are not negative. *)
From Coq Require Import List Reals.
Import ListNotations.
Open Scope R_scope.

(** [np.linspace(start, stop, num, endpoint=False)]: the step is [(stop - start) / num] *)
Definition linspace (start stop : R) (num : nat) : list R :=
  map (fun i => start + INR i * ((stop - start) / INR num)) (seq 0 num).
(** [np.sinc]: NumPy divides at 0 by 1e-20 instead, and gets 1 *)
Definition np_sinc (x : R) : R := if Req_EM_T x 0 then 1 else sin (PI * x) / (PI * x).
(** [np.hanning(M)], [np.hamming(M)]: [n = arange(1 - M, M, 2)], one sample gives 1 *)
Definition cosines (a b : R) (M : nat) : list R :=
  if (M =? 1)%nat then [1]
  else map (fun i => a + b * cos (PI * ((1 - INR M) + 2 * INR i) / (INR M - 1))) (seq 0 M).
Definition hanning (M : nat) : list R := cosines (1 / 2) (1 / 2) M.
Definition hamming (M : nat) : list R := cosines (54 / 100) (46 / 100) M.
(** Products of arrays of the same shape *)
Definition mul (x y : list R) : list R := map (fun p => fst p * snd p) (combine x y).

(** Lines 24-43 *)
Definition sinc_window (ntap lblock : nat) : list R :=
  map np_sinc (linspace (- INR ntap / 2) (INR ntap / 2) (ntap * lblock)).
(** Lines 46-61 *)
Definition sinc_hann (ntap lblock : nat) : list R :=
  mul (sinc_window ntap lblock) (hanning (ntap * lblock)).
(** Lines 64-79 *)
Definition sinc_hamming (ntap lblock : nat) : list R :=
  mul (sinc_window ntap lblock) (hamming (ntap * lblock)).
