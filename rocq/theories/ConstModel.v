(** Constants with prefixes.
    /repo/caput/astro/constants.py: [__aliases] (59-67), [__split_prefix] (70-76),
    [__getattr__] (79-90).

    The names of the module and of the aliases are parameters; numbers are rational,
    everything else in the module is [CObj]. *)
From Coq Require Import List Ascii Bool Arith QArith.
From Verif Require Import PyBase PyStr MemModel.
Import ListNotations.
Open Scope list_scope.
Open Scope nat_scope.

Inductive cval := CNum (q : Q) | CObj.
Definition underscore : ascii := "_"%char.
(** Lines 70-76 *)
Definition split_prefix (name : str) : res (list str) :=
  let names := filter (fun w => match w with [] => false | _ => true end) (split underscore name) in
  if 2 <? length names then Err AttributeError else Ok names.
(** [*] *)
Definition cmul (a b : cval) : res cval := match a, b with CNum x, CNum y => Ok (CNum (x * y)) | _, _ => Err TypeError end.
(** Lines 79-90.  Each call of itself is for a part of the name; [fuel] bounds their depth. *)
Fixpoint cgetattr (fuel : nat) (globals aliases : list (str * cval)) (name : str) : res cval :=
  match fuel with
  | O => Err RuntimeError
  | S fuel =>
      match dget name globals with
      | Some v => Ok v
      | None =>
          match dget name aliases with
          | Some v => Ok v
          | None =>
              rbind (split_prefix name) (fun names =>
              match names with
              | [a; b] => rbind (cgetattr fuel globals aliases a) (fun x => rbind (cgetattr fuel globals aliases b) (fun y => cmul x y))
              | _ => Err AttributeError
              end)
          end
      end
  end.
