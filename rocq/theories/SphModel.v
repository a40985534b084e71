(** Coordinates on the sphere.
    /repo/caput/astro/coordinates/spherical.py (all of it) and _spherical.pyx (all of it).

    Real numbers instead of floating point numbers; [None] stands for NaN.  Arrays
    are mapped point by point, so most functions are given for one point.  A
    Cartesian vector is a triple.  Left out: infinities, signed zeros, the units of
    [Angle], the checks of types and lengths (ValueError). *)
From Coq Require Import List Bool Reals ZArith.
From Verif Require Import PyBase ArrModel SolveModel.
Import ListNotations.
Open Scope R_scope.

Definition v3 : Type := R * R * R.
Definition vadd (u v : v3) : v3 := let '(a, b, c) := u in let '(x, y, z) := v in (a + x, b + y, c + z).
Definition vscale (k : R) (v : v3) : v3 := let '(x, y, z) := v in (k * x, k * y, k * z).
Definition vsub (u v : v3) : v3 := vadd u (vscale (-1) v).
(** [np.dot], [np.inner] *)
Definition inner (u v : v3) : R := let '(a, b, c) := u in let '(x, y, z) := v in a * x + b * y + c * z.
Definition req (a b : R) : bool := if Req_EM_T a b then true else false.
Definition rleb (a b : R) : bool := if Rle_dec a b then true else false.

(** [np.arctan2] *)
Definition atan2 (y x : R) : R :=
  if rltb 0 x then atan (y / x)
  else if rltb x 0 then (if rleb 0 y then atan (y / x) + PI else atan (y / x) - PI)
  else if rltb 0 y then PI / 2
  else if rltb y 0 then - (PI / 2)
  else 0.
(** NaN outside of the domain *)
Definition arccos (x : R) : option R := if rleb (-1) x && rleb x 1 then Some (acos x) else None.
Definition arcsin (x : R) : option R := if rleb (-1) x && rleb x 1 then Some (asin x) else None.
Definition root (x : R) : option R := if rleb 0 x then Some (sqrt x) else None.
Definition quot (x y : R) : option R := if req y 0 then None else Some (x / y).
Definition bind {A B} (o : option A) (f : A -> option B) : option B := match o with Some x => f x | None => None end.

(** * spherical.py *)
(** Lines 27-48 *)
Definition sph_to_ground (ha lat dec : R) : v3 :=
  (-1 * cos dec * sin ha,
   cos lat * sin dec - sin lat * cos dec * cos ha,
   sin lat * sin dec + cos lat * cos dec * cos ha).
(** Lines 51-77 *)
Definition ground_to_sph (x y lat : R) : option (R * R) :=
  bind (root (1 - x ^ 2 - y ^ 2)) (fun z =>
  let xe := z * cos lat - y * sin lat in
  let ye := x in
  let ze := y * cos lat + z * sin lat in
  bind (root (xe ^ 2 + ye ^ 2)) (fun h => Some (-1 * atan2 ye xe, atan2 ze h))).
(** Lines 80-109 *)
Definition projected_distance (ha lat dec x y z : R) : R :=
  let dist := x * (-1 * cos dec * sin ha) in
  let dist := dist + y * (cos lat * sin dec - sin lat * cos dec * cos ha) in
  dist + z * (sin lat * sin dec + cos lat * cos dec * cos ha).
(** Shapes: broadcasting, and [+=], which keeps the shape of the array on the
    left; a scalar is replaced. Lengths from the last one on. *)
Fixpoint bcast_rev (a b : list nat) : option (list nat) :=
  match a, b with
  | [], l | l, [] => Some l
  | x :: a, y :: b =>
      match bcast_rev a b with
      | None => None
      | Some r => if Nat.eqb x y then Some (x :: r) else if Nat.eqb x 1 then Some (y :: r) else if Nat.eqb y 1 then Some (x :: r) else None
      end
  end.
Definition bcast (a b : list nat) : option (list nat) := option_map (@rev nat) (bcast_rev (rev a) (rev b)).
Fixpoint bcast_all (l : list (list nat)) : option (list nat) :=
  match l with [] => Some [] | a :: l => bind (bcast_all l) (bcast a) end.
Definition iadd (left right : list nat) : res (list nat) :=
  match bcast left right with
  | None => Err ValueError
  | Some r => match left with [] => Ok r | _ => if list_eq_dec Nat.eq_dec r left then Ok left else Err ValueError end
  end.
Definition of_bcast (o : option (list nat)) : res (list nat) := match o with Some s => Ok s | None => Err ValueError end.
(** The shape of the result, from those of the arguments. *)
Definition projected_shape (ha lat dec x y z : list nat) : res (list nat) :=
  rbind (of_bcast (bcast_all [x; dec; ha])) (fun dist =>
  rbind (of_bcast (bcast_all [y; lat; dec; ha])) (fun t =>
  rbind (iadd dist t) (fun dist =>
  rbind (of_bcast (bcast_all [z; lat; dec; ha])) (fun t => iadd dist t)))).
(** Lines 112-149: combinations of the three vectors *)
Definition rotate_ypr (rot : R * R * R) (xhat yhat zhat : v3) : v3 * v3 * v3 :=
  let '(yaw, pitch, roll) := rot in
  let xhat1 := vsub (vscale (cos yaw) xhat) (vscale (sin yaw) yhat) in
  let yhat1 := vadd (vscale (sin yaw) xhat) (vscale (cos yaw) yhat) in
  let zhat1 := zhat in
  let xhat2 := xhat1 in
  let yhat2 := vadd (vscale (cos pitch) yhat1) (vscale (sin pitch) zhat1) in
  let zhat2 := vadd (vscale (- sin pitch) yhat1) (vscale (cos pitch) zhat1) in
  let xhat3 := vsub (vscale (cos roll) xhat2) (vscale (sin roll) zhat2) in
  let yhat3 := yhat2 in
  let zhat3 := vadd (vscale (sin roll) xhat2) (vscale (cos roll) zhat2) in
  (xhat3, yhat3, zhat3).
(** Lines 152-183 *)
Definition sphdist (long1 lat1 long2 lat2 : R) : option R :=
  let dsinb := sin ((lat1 - lat2) / 2) ^ 2 in
  let dsinl := cos lat1 * cos lat2 * (sin ((long1 - long2) / 2)) ^ 2 in
  bind (root (dsinl + dsinb)) (fun s => bind (arcsin s) (fun d => Some (2 * d))).

(** * _spherical.pyx *)
(** [_s2c], lines 195-203 *)
Definition s2c (theta phi : R) : v3 := (sin theta * cos phi, sin theta * sin phi, cos theta).
(** [sph_to_cart], lines 15-55, for two and for three coordinates *)
Definition sph_to_cart2 (s : R * R) : v3 := s2c (fst s) (snd s).
Definition sph_to_cart3 (s : v3) : v3 := let '(r, theta, phi) := s in let '(a, b, c) := s2c theta phi in (a * r, b * r, c * r).
(** [cart_to_sph], lines 58-67, of an array of floating point numbers *)
Definition cart_to_sph (c : v3) : option v3 :=
  let '(x, y, z) := c in
  bind (root (x ^ 2 + y ^ 2 + z ^ 2)) (fun r =>
  bind (quot z r) (fun q => bind (arccos q) (fun theta => Some (r, theta, atan2 y x)))).
(** .. and of integers: what is put into the array is truncated. *)
Definition trunc (x : R) : Z := if rleb 0 x then Int_part x else (- Int_part (- x))%Z.
Definition cart_to_sph_int (c : Z * Z * Z) : option (Z * Z * Z) :=
  let '(x, y, z) := c in
  bind (root (IZR (x ^ 2 + y ^ 2 + z ^ 2))) (fun r =>
  let r := trunc r in
  bind (quot (IZR z) (IZR r)) (fun q => bind (arccos q) (fun theta => Some (r, trunc theta, trunc (atan2 (IZR y) (IZR x)))))).
(** Lines 70-71 *)
Definition sph_dot (a b : R * R) : R := inner (sph_to_cart2 a) (sph_to_cart2 b).
(** [thetaphi_plane], lines 74-86 *)
Definition thetaphi_plane2 (s : R * R) : (R * R) * (R * R) :=
  let '(theta, phi) := s in ((theta + PI / 2, phi), (PI / 2, phi + PI / 2)).
Definition thetaphi_plane3 (s : v3) : v3 * v3 :=
  let '(r, theta, phi) := s in ((1, theta + PI / 2, phi), (1, PI / 2, phi + PI / 2)).
(** [thetaphi_plane_cart], lines 89-117 *)
Definition thetaphi_plane_cart (s : R * R) : v3 * v3 :=
  let '(theta, phi) := s in (s2c (theta + PI / 2) phi, s2c (PI / 2) (phi + PI / 2)).
(** [great_circle_points], lines 141-168: one point, and all of them *)
Definition great_circle_cart (c1 c2 : v3) (f : R) : option v3 :=
  let dc := vsub c2 c1 in
  bind (root (inner dc dc)) (fun n =>
  bind (quot 1 n) (fun k =>
  let dcn := vscale k dc in
  bind (arccos (inner c1 c2)) (fun thc =>
  bind (arccos (- inner c1 dcn)) (fun alp =>
  bind (quot (sin (f * thc)) (sin (f * thc + alp))) (fun x => Some (vadd (vscale x dcn) c1)))))).
Definition great_circle_points (sph1 sph2 : R * R) (npoints : nat) : res (list (option (R * R))) :=
  let c1 := sph_to_cart2 sph1 in
  let c2 := sph_to_cart2 sph2 in
  let dc := vsub c2 c1 in
  if req (inner dc dc) 4 then Err OtherException
  else Ok (map (fun f => bind (great_circle_cart c1 c2 f) (fun cv => bind (cart_to_sph cv) (fun s => Some (snd (fst s), snd s))))
               (linspace 0 1 npoints)).
(** [cosine_rule], lines 171-192: one element *)
Definition cosine_rule (mu x1 x2 : R) : option R := root ((x1 - x2) ^ 2 + 2 * x1 * x2 * (1 - mu)).

(** * Normalising in place *)
(** [norm_vec2], lines 120-138.  [vec2.reshape(-1, 2)] of an array of shape
    [lead ++ [2]] without copying: the leading axes follow one another. *)
Fixpoint collapse (lead : list (nat * Z)) : option (nat * Z) :=
  match lead with
  | [] => Some (1%nat, 0%Z)
  | [(d, s)] => Some (d, s)
  | (d, s) :: rest =>
      match collapse rest with
      | None => None
      | Some (n, t) => if Nat.eqb d 1 then Some (n, t) else if Nat.eqb n 1 then Some (d, s) else if (s =? Z.of_nat n * t)%Z then Some ((d * n)%nat, t) else None
      end
  end.
Definition reshape2 (v : view) : option view :=
  match collapse (removelast (combine (v_shape v) (v_strides v))) with
  | None => None
  | Some (n, t) => Some (mkview [n; 2%nat] [t; last (v_strides v) 0%Z] (v_off v))
  end.
Definition nan_mem := mem (option R).
(** One pair; the sum of squares of numbers is not negative. *)
Definition hypot (x y : option R) : option R := bind x (fun x => bind y (fun y => Some (sqrt (x ^ 2 + y ^ 2)))).
Definition norm_at (m : nan_mem) (base : Z) (i : nat) : nan_mem :=
  let a := (base + 2 * Z.of_nat i)%Z in
  let n := hypot (m a) (m (a + 1)%Z) in
  let m := update m a (bind (m a) (fun x => bind n (quot x))) in
  update m (a + 1)%Z (bind (m (a + 1)%Z) (fun y => bind n (quot y))).
(** The iterations in any order; [None] from [reshape2] is a copy, whose changes
    are lost. *)
Definition norm_vec2 (m : nan_mem) (v : view) (order : list nat) : res nan_mem :=
  if negb (Nat.eqb (last (v_shape v) 0%nat) 2) then Err ValueError
  else match reshape2 v with
       | None => Ok m
       | Some w => if c_contiguous w then Ok (fold_left (fun m i => norm_at m (v_off w) i) order m) else Err ValueError
       end.
