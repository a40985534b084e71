(** Loading once, instants, and directions on the sky. *)
From Coq Require Import List ZArith QArith Reals.
From Verif Require Import PyStr TimeSpec.
Import ListNotations.

(** One attempt to load something: first from the official source; only if that fails with an [OSError] the
    files of the mirror are fetched, in order, and the official way is tried once more.  The list has what was asked
    and whether an object came back. *)
Section Tries.
Variables Call Obj Fail : Type.
Variable os_error : Fail.
Variables (official : Call) (files : list Call).
Inductive reply := Got (o : Obj) | Not (f : Fail).
Definition all_got (l : list (Call * reply)) : Prop := Forall (fun x => exists o, snd x = Got o) l.
Inductive tries : list (Call * reply) -> reply -> Prop :=
| t_official o : tries [(official, Got o)] (Got o)
| t_broken f : f <> os_error -> tries [(official, Not f)] (Not f)
| t_mirror xs r : map fst xs = files -> all_got xs -> tries ((official, Not os_error) :: xs ++ [(official, r)]) r
| t_download xs c ys f : map fst xs ++ c :: ys = files -> all_got xs ->
    tries ((official, Not os_error) :: xs ++ [(c, Not f)]) (Not f).
End Tries.

Definition date (y m d : Z) : Prop := exists n, month_length y m n /\ (1 <= d <= n)%Z.

(** Horizontal and equatorial directions as vectors (west, towards the equator's highest point, pole):
    at latitude [lat] the direction of azimuth [az] (from north through east) and altitude [alt]. *)
Open Scope R_scope.
Definition east (az alt : R) : R := cos alt * sin az.
Definition north (az alt : R) : R := cos alt * cos az.
Definition up (az alt : R) : R := sin alt.
(** Component along the celestial pole, and along the meridian's point of the equator *)
Definition polar (lat az alt : R) : R := cos lat * north az alt + sin lat * up az alt.
Definition meridian (lat az alt : R) : R := cos lat * up az alt - sin lat * north az alt.
Definition rad (deg : R) : R := deg * PI / 180.
