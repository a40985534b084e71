(** Patterns (C65, C66): what the glob module matches. *)
From Coq Require Import String.
From Coq Require Import List Ascii Bool Arith.
From Verif Require Import PyStr.
Import ListNotations.
Open Scope list_scope.
Open Scope char_scope.

(** The contents of a pair of brackets: characters and ranges. *)
Inductive InSet : str -> ascii -> Prop :=
  | IS_range : forall a b r c, nat_of_ascii a <= nat_of_ascii c <= nat_of_ascii b -> InSet (a :: "-" :: b :: r) c
  | IS_range_skip : forall a b r c, InSet r c -> InSet (a :: "-" :: b :: r) c
  | IS_one : forall a r, (forall b t, r <> "-" :: b :: t) -> InSet (a :: r) a
  | IS_skip : forall a r c, (forall b t, r <> "-" :: b :: t) -> InSet r c -> InSet (a :: r) c.
(** What follows an opening bracket: perhaps an exclamation mark, one or more characters of which
    only the first may be a closing bracket, a closing bracket, and the rest. *)
Inductive Bracket : str -> bool -> str -> str -> Prop :=
  | B_pos : forall a body rest, a <> "!" -> ~ In "]" body -> Bracket (a :: body ++ "]" :: rest) false (a :: body) rest
  | B_neg : forall a body rest, ~ In "]" body -> Bracket ("!" :: a :: body ++ "]" :: rest) true (a :: body) rest.
Inductive Matches : str -> str -> Prop :=
  | M_nil : Matches [] []
  | M_star : forall p s t, Matches p t -> Matches ("*" :: p) (s ++ t)
  | M_any : forall p c s, Matches p s -> Matches ("?" :: p) (c :: s)
  | M_in : forall r body rest c s, Bracket r false body rest -> InSet body c -> Matches rest s -> Matches ("[" :: r) (c :: s)
  | M_not_in : forall r body rest c s, Bracket r true body rest -> ~ InSet body c -> Matches rest s -> Matches ("[" :: r) (c :: s)
  | M_char : forall a p s, a <> "*" -> a <> "?" -> (a = "[" -> forall neg body rest, ~ Bracket p neg body rest) ->
      Matches p s -> Matches (a :: p) (a :: s).
