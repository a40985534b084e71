(** C131, C132: decorators for scalars, lists and arrays. *)
From Coq Require Import List Bool Arith Reals ZArith Lra Lia.
From Verif Require Import PyBase SolveModel SolveProofs LsdModel LsdSpec LsdProofs LsdProps DecoModel.
Import ListNotations.
Open Scope list_scope.
Open Scope nat_scope.

(** The elements of an argument *)
Definition content {A} (x : arg A) : list A := match x with Scalar x | Zero x => [x] | Array l | Sequence l => l end.
Definition is_scalar {A} (x : arg A) : bool := match x with Scalar _ => true | _ => false end.
Definition dimensionless {A} (x : arg A) : bool := match x with Zero _ => true | _ => false end.
Lemma make_ok {A} (args : list (arg A)) : forallb (fun x => negb (dimensionless x)) args = true ->
  mapM make_array args = Ok (map (fun x => (content x, is_scalar x, is_empty (content x))) args).
Proof.
  induction args as [|x args IH]; intros H; [reflexivity|]. cbn in H. apply andb_true_iff in H as [H1 H2]. cbn [mapM map]. rewrite (IH H2). destruct x; try discriminate; reflexivity.
Qed.
Lemma forallb_map {A B} (f : A -> B) g l : forallb g (map f l) = forallb (fun x => g (f x)) l.
Proof. induction l as [|x l IH]; cbn; congruence. Qed.
Lemma scalarize_eq {A B} (func : list (list A) -> res (list B)) args : args <> [] -> (forall x, In x args -> dimensionless x = false) ->
  scalarize func args = if forallb (fun x => is_empty (content x)) args then Ok (Arr [])
    else rbind (func (map content args)) (fun ret => if forallb is_scalar args then match ret with x :: _ => Ok (Elem x) | [] => Err IndexError end else Ok (Arr ret)).
Proof.
  intros N Z. unfold scalarize. rewrite make_ok by (apply forallb_forall; intros y J; now rewrite Z). cbn [rbind]. 
  set (f := fun x : arg A => (content x, is_scalar x, is_empty (content x))). replace (forallb (fun x => is_empty (content x)) args) with (forallb snd (map f args)) by (rewrite forallb_map; reflexivity).
  replace (forallb is_scalar args) with (forallb (fun x => snd (fst x)) (map f args)) by (rewrite forallb_map; reflexivity). replace (map content args) with (map (fun x => fst (fst x)) (map f args)) by (rewrite map_map; reflexivity).
  destruct args as [|a args]; [contradiction|]. reflexivity.
Qed.

(** * C131 *)
(** The function always gets arrays with the elements of the arguments, unless there are none at all; a scalar comes back for scalars only. *)
Theorem C131_call A B (func : list (list A) -> res (list B)) args : args <> [] -> (forall x, In x args -> dimensionless x = false) ->
  (exists x, In x args /\ content x <> []) -> forall ret, func (map content args) = Ok ret ->
  scalarize func args = if forallb is_scalar args then match ret with x :: _ => Ok (Elem x) | [] => Err IndexError end else Ok (Arr ret).
Proof.
  intros N Z (x & I & C) ret F. rewrite scalarize_eq by assumption. replace (forallb (fun x => is_empty (content x)) args) with false.
  - rewrite F. reflexivity.
  - symmetry. apply not_true_is_false. intros T. rewrite forallb_forall in T. apply T in I. destruct (content x); [contradiction|discriminate].
Qed.
Print Assumptions C131_call.
(** An error of the function is the error of the call. *)
Theorem C131_error A B (func : list (list A) -> res (list B)) args e : args <> [] -> (forall x, In x args -> dimensionless x = false) ->
  (exists x, In x args /\ content x <> []) -> func (map content args) = Err e -> scalarize func args = Err e.
Proof.
  intros N Z (x & I & C) F. rewrite scalarize_eq by assumption. replace (forallb (fun x => is_empty (content x)) args) with false.
  - rewrite F. reflexivity.
  - symmetry. apply not_true_is_false. intros T. rewrite forallb_forall in T. apply T in I. destruct (content x); [contradiction|discriminate].
Qed.
Print Assumptions C131_error.
Theorem C131_empty A B (func : list (list A) -> res (list B)) args : args <> [] -> (forall x, In x args -> x = Array [] \/ x = Sequence []) -> scalarize func args = Ok (Arr []).
Proof.
  intros N H. rewrite scalarize_eq by (assumption || (intros y J; destruct (H y J) as [-> | ->]; reflexivity)). replace (forallb (fun x => is_empty (content x)) args) with true; [reflexivity|].
  symmetry. apply forallb_forall. intros x I. destruct (H x I) as [-> | ->]; reflexivity.
Qed.
Print Assumptions C131_empty.
(** So a function that acts on each element acts on numbers, lists and arrays. *)
Theorem C131_pointwise A B (f : A -> B) : let F := scalarize (fun l => match l with [a] => Ok (map f a) | _ => Err TypeError end) in
  (forall x, F [Scalar x] = Ok (Elem (f x))) /\ (forall l, F [Array l] = Ok (Arr (map f l))) /\ (forall l, F [Sequence l] = Ok (Arr (map f l))).
Proof. cbv zeta. split; [reflexivity|]. split; intros [|x l]; reflexivity. Qed.
Print Assumptions C131_pointwise.
(** Arrays without dimension are refused .. *)
Theorem C131_zero_refuted : exists (func : list (list nat) -> res (list nat)) x, func [[x]] = Ok [x] /\ scalarize func [Scalar x] = Ok (Elem x) /\ scalarize func [Zero x] = Err TypeError.
Proof. exists (fun l => match l with [a] => Ok a | _ => Err TypeError end), 7. repeat split. Qed.
Print Assumptions C131_zero_refuted.
(** .. and so are calls with keyword arguments only. *)
Theorem C131_keywords_refuted : exists (func : list (list nat) -> res (list nat)), func [] = Ok [7] /\ scalarize func [] = Err ValueError.
Proof. exists (fun l => Ok [7]). repeat split. Qed.
Print Assumptions C131_keywords_refuted.
(** [listize] turns lists given by position into arrays and changes nothing else .. *)
Theorem C131_listize A K V (func : list (arg A) -> K -> V) args kwargs :
  exists args', listize func args kwargs = func args' kwargs /\ length args' = length args /\ forall i x, nth_error args i = Some x -> exists y, nth_error args' i = Some y /\ content y = content x /\
    match x with Sequence l => y = Array l | _ => y = x end.
Proof.
  exists (map listize_arg args). split; [reflexivity|]. split; [apply map_length|]. intros i x N. exists (listize_arg x). split; [now apply map_nth_error|]. destruct x; auto.
Qed.
Print Assumptions C131_listize.
(** .. not those given by keyword. *)
Theorem C131_listize_refuted : exists (func : list (arg nat) -> list (arg nat) -> res nat), listize func [Sequence [1; 2]] [] = Ok 2 /\ listize func [] [Sequence [1; 2]] = Err TypeError.
Proof. exists (fun args kw => match args ++ kw with [Array l] => Ok (length l) | _ => Err TypeError end). split; reflexivity. Qed.
Print Assumptions C131_listize_refuted.
(** [vectorize]: each element; scalars and arrays without dimension give scalars; nothing only with [otypes] *)
Theorem C131_vectorize A B (f : A -> B) o : (forall x, vectorize o (fun x => Ok (f x)) (Scalar x) = Ok (Elem (f x)) /\ vectorize o (fun x => Ok (f x)) (Zero x) = Ok (Elem (f x))) /\
  (forall l, l <> [] \/ o = true -> vectorize o (fun x => Ok (f x)) (Array l) = Ok (Arr (map f l)) /\ vectorize o (fun x => Ok (f x)) (Sequence l) = Ok (Arr (map f l))) /\
  vectorize false (fun x => Ok (f x)) (Array []) = Err ValueError.
Proof.
  split; [split; reflexivity|]. split; [|reflexivity]. assert (M : forall l, mapM (fun x => Ok (f x)) l = Ok (map f l)) by (induction l as [|x l IH]; [reflexivity|]; cbn [mapM rbind map]; rewrite IH; reflexivity).
  intros l H. unfold vectorize. replace (is_empty l && negb o) with false; [rewrite M; split; reflexivity|]. destruct l, o; try reflexivity. destruct H; [contradiction|discriminate].
Qed.
Print Assumptions C131_vectorize.
Example C131_ex : scalarize (fun l => match l with [a; b] => bcast Nat.add a b | _ => Err TypeError end) [Sequence [1; 2; 3]; Scalar 10] = Ok (Arr [11; 12; 13]) /\
  scalarize (fun l => match l with [a; b] => bcast Nat.add a b | _ => Err TypeError end) [Scalar 1; Scalar 10] = Ok (Elem 11).
Proof. split; reflexivity. Qed.

(** * C132 *)
Lemma bcast_left {A B C} (f : A -> B -> C) x b : bcast f [x] b = Ok (map (f x) b).
Proof. unfold bcast. destruct b as [|y [|z b]]; reflexivity. Qed.
Lemma bcast_right {A B C} (f : A -> B -> C) a y : bcast f a [y] = Ok (map (fun x => f x y) a).
Proof. unfold bcast. destruct a as [|x [|z a]]; reflexivity. Qed.
Lemma combine_map {A B C} (f : A -> B) (g : A -> C) l : combine (map f l) (map g l) = map (fun x => (f x, g x)) l.
Proof. induction l as [|x l IH]; cbn; congruence. Qed.
Lemma bcast_same {A B C D} (f : A -> B -> C) (g : D -> A) (h : D -> B) l : bcast f (map g l) (map h l) = Ok (map (fun x => f (g x) (h x)) l).
Proof. unfold bcast. rewrite !map_length, Nat.eqb_refl, combine_map, map_map. reflexivity. Qed.
Lemma mapM_check {A B} (bad : A -> bool) (g : A -> B) e l : (if existsb bad l then Err e else Ok (map g l)) = mapM (fun x => if bad x then Err e else Ok (g x)) l.
Proof.
  induction l as [|x l IH]; [reflexivity|]. cbn [existsb map mapM]. rewrite <- IH. destruct (bad x); [reflexivity|]. cbn [orb rbind]. destruct (existsb bad l); reflexivity.
Qed.
Lemma mapM_map {A B C} (f : B -> res C) (g : A -> B) l : mapM f (map g l) = mapM (fun x => f (g x)) l.
Proof. induction l as [|x l IH]; [reflexivity|]. cbn [map mapM]. now rewrite IH. Qed.
Lemma mapM_bind {A B C} (f : A -> res B) (g : A -> B -> C) l : rbind (mapM f l) (fun ys => Ok (map (fun p => g (fst p) (snd p)) (combine l ys))) = mapM (fun x => rbind (f x) (fun y => Ok (g x y))) l.
Proof.
  induction l as [|x l IH]; [reflexivity|]. cbn [mapM]. rewrite <- IH. destruct (f x) as [y|]; [|reflexivity]. cbn [rbind]. destruct (mapM f l) as [ys|]; reflexivity.
Qed.
Lemma mapM_length {A B} (f : A -> res B) l ys : mapM f l = Ok ys -> length ys = length l.
Proof.
  revert ys. induction l as [|x l IH]; intros ys; cbn [mapM]; [intros H; injection H as <-; reflexivity|]. destruct (f x); [|discriminate]. cbn [rbind]. destruct (mapM f l) as [zs|]; [|discriminate]. cbn [rbind].
  intros H. injection H as <-. cbn. now rewrite (IH zs).
Qed.
Lemma mapM_ext {A B} (f g : A -> res B) l : (forall x, f x = g x) -> mapM f l = mapM g l.
Proof. intros H. induction l as [|x l IH]; [reflexivity|]. cbn [mapM]. now rewrite H, IH. Qed.
Open Scope R_scope.
Lemma leap_array_left tt t0 {A} (g : A -> R) l : l <> [] -> leap_seconds_array tt [t0] (map g l) = mapM (fun x => leap_seconds_between tt t0 (g x)) l.
Proof.
  intros N. unfold leap_seconds_array. cbn [is_empty andb]. rewrite bcast_left. cbn [rbind]. unfold sky_tt at 1. cbn [is_empty map rbind]. unfold sky_tt. replace (is_empty (map g l)) with false by (destruct l; [contradiction|reflexivity]). cbn [rbind].
  rewrite bcast_left. cbn [rbind]. rewrite !map_map. rewrite bcast_same. cbn [rbind]. rewrite mapM_check, mapM_map. reflexivity.
Qed.
Lemma leap_array_same tt {A} (f g : A -> R) l : l <> [] -> leap_seconds_array tt (map f l) (map g l) = mapM (fun x => leap_seconds_between tt (f x) (g x)) l.
Proof.
  intros N. unfold leap_seconds_array. replace (is_empty (map f l)) with false by (destruct l; [contradiction|reflexivity]). cbn [andb]. rewrite bcast_same. cbn [rbind]. unfold sky_tt.
  replace (is_empty (map f l)) with false by (destruct l; [contradiction|reflexivity]). replace (is_empty (map g l)) with false by (destruct l; [contradiction|reflexivity]). cbn [rbind].
  rewrite !map_map, bcast_same. cbn [rbind]. rewrite bcast_same. cbn [rbind]. rewrite mapM_check, mapM_map. reflexivity.
Qed.
Lemma finish_array {A} (g : A -> R) (f : A -> res Z) l : rbind (mapM f l) (fun leap => bcast Rminus (map g l) (map IZR leap)) = mapM (fun x => rbind (f x) (fun n => Ok (g x - IZR n))) l.
Proof.
  rewrite <- (mapM_bind f (fun x n => g x - IZR n)). destruct (mapM f l) as [ns|] eqn:E; [|reflexivity]. cbn [rbind]. apply mapM_length in E. unfold bcast. rewrite !map_length, E, Nat.eqb_refl. f_equal. clear E.
  revert ns. induction l as [|x l IH]; intros [|n ns]; try reflexivity. cbn. now rewrite IH.
Qed.
(** The search for a rotation angle acts on each element: several angles after one time .. *)
Theorem C132_angles turns tt eras t0 (era : arg R) : eras <> [] -> era = Array eras \/ era = Sequence eras -> 
  era_to_unix_any turns tt era (Scalar t0) = rbind (mapM (fun e => era_to_unix turns tt e t0) eras) (fun r => Ok (Arr r)).
Proof.
  intros N H. assert (E : era_to_unix_array turns tt eras [t0] = mapM (fun e => era_to_unix turns tt e t0) eras).
  { unfold era_to_unix_array, unix_to_era_array. cbn [map]. rewrite bcast_right. cbn [rbind]. rewrite map_map, bcast_left. cbn [rbind]. rewrite map_map, leap_array_left by assumption. rewrite finish_array. apply mapM_ext. reflexivity. }
  unfold era_to_unix_any. rewrite <- E. clear E. destruct eras as [|e eras]; [contradiction|]. destruct H as [-> | ->]; unfold scalarize; cbn [mapM make_array rbind is_empty forallb fst snd andb map]; destruct (era_to_unix_array _ _ _ _); reflexivity.
Qed.
Print Assumptions C132_angles.
(** .. several angles, each after its own time .. *)
Theorem C132_pairs turns tt (l : list (R * R)) : l <> [] -> era_to_unix_any turns tt (Array (map fst l)) (Array (map snd l)) =
  rbind (mapM (fun p => era_to_unix turns tt (fst p) (snd p)) l) (fun r => Ok (Arr r)).
Proof.
  intros N. assert (E : era_to_unix_array turns tt (map fst l) (map snd l) = mapM (fun p => era_to_unix turns tt (fst p) (snd p)) l).
  { unfold era_to_unix_array, unix_to_era_array. rewrite map_map, bcast_same. cbn [rbind]. rewrite map_map, bcast_same. cbn [rbind]. rewrite leap_array_same by assumption. rewrite finish_array. apply mapM_ext. reflexivity. }
  rewrite <- E. clear E. unfold era_to_unix_any, scalarize. cbn [mapM make_array rbind forallb fst snd map]. destruct l as [|p l]; [contradiction|]. cbn [map is_empty andb]. destruct (era_to_unix_array _ _ _ _); reflexivity.
Qed.
Print Assumptions C132_pairs.
(** .. or one. *)
Theorem C132_single turns tt e t0 : era_to_unix_any turns tt (Scalar e) (Scalar t0) = rbind (era_to_unix turns tt e t0) (fun r => Ok (Elem r)).
Proof.
  assert (E : era_to_unix_array turns tt [e] [t0] = mapM (fun e => era_to_unix turns tt e t0) [e]).
  { unfold era_to_unix_array, unix_to_era_array. cbn [map]. rewrite bcast_right. cbn [rbind]. rewrite map_map, bcast_left. cbn [rbind]. rewrite map_map, leap_array_left by discriminate. rewrite finish_array. apply mapM_ext. reflexivity. }
  unfold era_to_unix_any, scalarize. cbn [mapM make_array rbind forallb fst snd map andb]. rewrite E. cbn [mapM]. destruct (era_to_unix _ _ _ _); reflexivity.
Qed.
Print Assumptions C132_single.
(** But no angles after one time is an error, instead of no times. *)
Theorem C132_empty_refuted : exists turns tt t0, era_to_unix_any turns tt (Array []) (Scalar t0) = Err AttributeError /\ era_to_unix_any turns tt (Sequence []) (Array [t0]) = Err AttributeError /\
  era_to_unix_any turns tt (Array []) (Array []) = Ok (Arr []).
Proof. exists (fun t => t), (fun t => t), 0. repeat split. Qed.
Print Assumptions C132_empty_refuted.
Example C132_ex : era_to_unix_any ex_turns ex_tt (Sequence [360 * (2001 / day); 0]) (Scalar 0) = Ok (Arr [2000; 0]).
Proof.
  rewrite (C132_angles _ _ [360 * (2001 / day); 0]) by (discriminate || now right). cbn [mapM]. rewrite (proj1 C124_ex). cbn [rbind].
  rewrite (C124_found _ _ ex_leap 0 0 0 ex_clock ex_uniform ex_leaps); [reflexivity| |].
  - exists 0%Z. unfold ex_turns. rewrite ex_before by lra. pose proof day_pos. field. lra.
  - unfold elapsed. pose proof day_pos. lra.
Qed.
