(** C122: constants with prefixes. *)
From Coq Require Import String.
From Coq Require Import List Ascii Bool Arith QArith Lia.
From Verif Require Import PyBase PyStr MemModel ConstModel ConstProofs.
Import ListNotations.
Open Scope list_scope.
Open Scope nat_scope.

(** The value of a name of the module or of an alias, the module coming first. *)
Definition known (globals aliases : list (str * cval)) (w : str) (v : cval) : Prop :=
  dget w globals = Some v \/ (dget w globals = None /\ dget w aliases = Some v).
(** Two words with underscores between them, and possibly around them. *)
Definition TwoWords (name p u : str) : Prop := exists a b c, name = repeat "_"%char a ++ p ++ repeat "_"%char (S b) ++ u ++ repeat "_"%char c /\
  ~ In "_"%char p /\ ~ In "_"%char u /\ p <> [] /\ u <> [].

(** What is found: known names, and products of two known numbers; the depth of the calls does not matter. *)
Theorem C122_exact : forall n g al name v, cgetattr (S (S n)) g al name = Ok v <->
  known g al name v \/
  ((forall w, ~ known g al name w) /\ exists p u x y, TwoWords name p u /\ known g al p (CNum x) /\ known g al u (CNum y) /\ v = CNum (x * y)).
Proof.
  assert (W : forall n g al w v, ~ In underscore w -> cgetattr (S n) g al w = Ok v <-> known g al w v).
  { intros n g al w v H. rewrite getattr_word by assumption. unfold known. destruct (dget w g) as [x|]; [split; [intros E; left; congruence|intros [E|[E _]]; congruence]|].
    destruct (dget w al) as [x|]; [split; [intros E; right; split; congruence|intros [E|[_ E]]; congruence]|]. split; [discriminate|intros [E|[_ E]]; discriminate]. }
  intros n g al name v. destruct (dget name g) as [x|] eqn:A.
  { cbn [cgetattr]. rewrite A. unfold known. rewrite A. split; [intros E; left; left; congruence|]. intros [[E|[E _]]|[E _]]; [congruence|congruence|]. exfalso. apply (E x). now left. }
  destruct (dget name al) as [x|] eqn:B.
  { cbn [cgetattr]. rewrite A, B. unfold known. rewrite A, B. split; [intros E; left; right; split; congruence|]. intros [[E|[_ E]]|[E _]]; [congruence|congruence|]. exfalso. apply (E x). now right. }
  assert (NK : forall w, ~ known g al name w) by (unfold known; rewrite A, B; intros w [E|[_ E]]; discriminate).
  rewrite getattr_step by assumption. split.
  - intros H. right. split; [exact NK|]. destruct (parts name) as [|p [|u [|]]] eqn:P; try discriminate.
    assert (Gp : ~ In underscore p) by (apply (parts_good name); rewrite P; now left). assert (Gu : ~ In underscore u) by (apply (parts_good name); rewrite P; right; now left).
    destruct (cgetattr (S n) g al p) as [x|] eqn:X; [|discriminate]. cbn [rbind] in H. destruct (cgetattr (S n) g al u) as [y|] eqn:Y; [|discriminate]. cbn [rbind] in H.
    apply W in X; [|assumption]. apply W in Y; [|assumption]. destruct x as [x|], y as [y|]; try discriminate. injection H as <-. exists p, u, x, y.
    split; [now apply parts_two|]. auto.
  - intros [H|[_ (p & u & x & y & T & X & Y & ->)]]; [exfalso; exact (NK _ H)|]. apply parts_two in T as P. rewrite P. destruct T as (a & b & c & _ & Gp & Gu & _).
    apply (W n) in X; [|assumption]. apply (W n) in Y; [|assumption]. rewrite X, Y. reflexivity.
Qed.
Print Assumptions C122_exact.
(** A prefix and a unit with an underscore between them. *)
Theorem C122_prefix : forall n g al p u x y, ~ In "_"%char p -> ~ In "_"%char u -> p <> [] -> u <> [] ->
  (forall w, ~ known g al (p ++ "_"%char :: u) w) -> known g al p (CNum x) -> known g al u (CNum y) ->
  cgetattr (S (S n)) g al (p ++ "_"%char :: u) = Ok (CNum (x * y)).
Proof.
  intros n g al p u x y A B C D K X Y. apply C122_exact. right. split; [assumption|]. exists p, u, x, y. split; [|auto].
  exists 0, 0, 0. cbn [repeat app]. rewrite app_nil_r. auto.
Qed.
Print Assumptions C122_prefix.
(** Every other name is an error, of one of two kinds. *)
Theorem C122_errors : forall n g al name e, cgetattr (S (S n)) g al name = Err e -> e = AttributeError \/
  (e = TypeError /\ exists p u x y, TwoWords name p u /\ known g al p x /\ known g al u y /\ (x = CObj \/ y = CObj)).
Proof.
  intros n g al name e. destruct (dget name g) as [v|] eqn:A; [cbn [cgetattr]; rewrite A; discriminate|]. destruct (dget name al) as [v|] eqn:B; [cbn [cgetattr]; rewrite A, B; discriminate|].
  rewrite getattr_step by assumption. destruct (parts name) as [|p [|u [|]]] eqn:P; try (intros H; left; congruence).
  assert (Gp : ~ In underscore p) by (apply (parts_good name); rewrite P; now left). assert (Gu : ~ In underscore u) by (apply (parts_good name); rewrite P; right; now left).
  rewrite !getattr_word by assumption. assert (K : forall w, (exists v, known g al w v /\ match dget w g with Some v => Ok v | None => match dget w al with Some v => Ok v | None => Err AttributeError end end = Ok v) \/
    match dget w g with Some v => Ok v | None => match dget w al with Some v => Ok v | None => Err AttributeError end end = Err AttributeError).
  { intros w. unfold known. destruct (dget w g) as [v|]; [left; exists v; auto|]. destruct (dget w al) as [v|]; [left; exists v; auto|auto]. }
  destruct (K p) as [(x & X & ->)| ->]; cbn [rbind]; [|intros H; left; congruence]. destruct (K u) as [(y & Y & ->)| ->]; cbn [rbind]; [|intros H; left; congruence].
  apply parts_two in P. destruct x as [x|], y as [y|]; cbn [cmul]; intros H; try discriminate; right; (split; [congruence|]); do 4 eexists; (split; [exact P|]); eauto.
Qed.
Print Assumptions C122_errors.

Definition ex_globals : list (str * cval) :=
  [(s_ "kilo", CNum 1000); (s_ "gram", CNum (1 # 1000)); (s_ "hour", CNum 3600); (s_ "solar_mass", CNum 198892); (s_ "value", CObj); (s_ "arcminute", CNum (1 # 3438))].
Definition ex_aliases : list (str * cval) := [(s_ "arc_minute", CNum (1 # 3438))].
(** Units whose own name has an underscore cannot have a prefix. *)
Theorem C122_unit_refuted : exists g al p u x y, known g al p (CNum x) /\ known g al u (CNum y) /\ (forall w, ~ known g al (p ++ "_"%char :: u) w) /\
  forall n, cgetattr (S (S n)) g al (p ++ "_"%char :: u) = Err AttributeError.
Proof.
  exists ex_globals, ex_aliases, (s_ "kilo"), (s_ "solar_mass"), 1000%Q, 198892%Q. split; [now left|]. split; [now left|].
  split; [intros w [H|[_ H]]; discriminate|]. intros n. reflexivity.
Qed.
Print Assumptions C122_unit_refuted.
(** Anything is accepted as a prefix. *)
Theorem C122_any_refuted : exists g al name x, name = s_ "hour_gram" /\ forall n, cgetattr (S (S n)) g al name = Ok (CNum x).
Proof. exists ex_globals, ex_aliases, (s_ "hour_gram"), (3600 * (1 # 1000))%Q. split; [reflexivity|]. intros n. reflexivity. Qed.
Print Assumptions C122_any_refuted.
Example C122_ex : cgetattr 2 ex_globals ex_aliases (s_ "kilo_gram") = Ok (CNum (1000 * (1 # 1000))) /\
  cgetattr 2 ex_globals ex_aliases (s_ "arc_minute") = Ok (CNum (1 # 3438)) /\ cgetattr 2 ex_globals ex_aliases (s_ "__kilo__gram_") = Ok (CNum (1000 * (1 # 1000))) /\
  cgetattr 2 ex_globals ex_aliases (s_ "kilo_value") = Err TypeError /\ cgetattr 2 ex_globals ex_aliases (s_ "kilo_ounce") = Err AttributeError.
Proof. repeat split. Qed.
