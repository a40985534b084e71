(** caput/containers/_core.py: the history of a container, lines 46-88 and
    169-197.

    Text is a list of code points.  Modelled: [repr] of strings and lists of
    strings, and the part of [ast.literal_eval] that reads lists of string
    literals (no prefixes, no named characters, no concatenation of literals:
    an error).  Which characters outside ASCII are printable is a parameter.
    The history group is its attributes and, in old files, its subgroups. *)
From Coq Require Import List Bool Arith.
From Verif Require Import PyBase.
Import ListNotations.
Open Scope list_scope.
Open Scope nat_scope.

Definition text := list nat.
Fixpoint teqb (a b : text) : bool :=
  match a, b with
  | [], [] => true
  | x :: a, y :: b => (x =? y) && teqb a b
  | _, _ => false
  end.

(** * [repr] *)
Definition hexdigit (n : nat) : nat := if n <? 10 then 48 + n else 87 + n.
(** [width] hexadecimal digits. *)
Fixpoint hex (width n : nat) : text :=
  match width with
  | O => []
  | S w => hex w (n / 16) ++ [hexdigit (n mod 16)]
  end.

Section Repr.
Variable printable : nat -> bool.

Definition repr_char (quote c : nat) : text :=
  if (c =? quote) || (c =? 92) then [92; c]
  else if c =? 9 then [92; 116]
  else if c =? 10 then [92; 110]
  else if c =? 13 then [92; 114]
  else if (c <? 32) || (c =? 127) then 92 :: 120 :: hex 2 c
  else if c <? 127 then [c]
  else if printable c then [c]
  else if c <? 256 then 92 :: 120 :: hex 2 c
  else if c <? 256 * 256 then 92 :: 117 :: hex 4 c
  else 92 :: 85 :: hex 8 c.
Definition quote_for (s : text) : nat :=
  if existsb (Nat.eqb 39) s && negb (existsb (Nat.eqb 34) s) then 34 else 39.
Definition repr (s : text) : text :=
  let q := quote_for s in q :: flat_map (repr_char q) s ++ [q].
(** [str] of a list of strings. *)
Fixpoint join_items (l : list text) : text :=
  match l with
  | [] => []
  | [x] => x
  | x :: r => x ++ [44; 32] ++ join_items r
  end.
Definition str_list (l : list text) : text := 91 :: join_items (map repr l) ++ [93].

(** * [literal_eval] *)
Definition unhex (c : nat) : option nat :=
  if (48 <=? c) && (c <=? 57) then Some (c - 48)
  else if (97 <=? c) && (c <=? 102) then Some (c - 87)
  else if (65 <=? c) && (c <=? 70) then Some (c - 55)
  else None.
Fixpoint read_hex (width : nat) (acc : nat) (s : text) : option (nat * text) :=
  match width with
  | O => Some (acc, s)
  | S w => match s with
           | [] => None
           | c :: r => match unhex c with Some d => read_hex w (16 * acc + d) r | None => None end
           end
  end.
Definition octal (c : nat) : bool := (48 <=? c) && (c <=? 55).
(** Up to [n] more octal digits. *)
Fixpoint read_octal (n acc : nat) (s : text) : nat * text :=
  match n, s with
  | S n, c :: r => if octal c then read_octal n (8 * acc + (c - 48)) r else (acc, s)
  | _, _ => (acc, s)
  end.
Definition max_char := 17 * (256 * 256).
(** After a backslash: the characters it stands for, and the rest. *)
Definition escape (s : text) : option (text * text) :=
  match s with
  | [] => None
  | c :: r =>
      if c =? 10 then Some ([], r)
      else if (c =? 92) || (c =? 39) || (c =? 34) then Some ([c], r)
      else if c =? 97 then Some ([7], r)
      else if c =? 98 then Some ([8], r)
      else if c =? 102 then Some ([12], r)
      else if c =? 110 then Some ([10], r)
      else if c =? 114 then Some ([13], r)
      else if c =? 116 then Some ([9], r)
      else if c =? 118 then Some ([11], r)
      else if c =? 120 then option_map (fun p => ([fst p], snd p)) (read_hex 2 0 r)
      else if c =? 117 then option_map (fun p => ([fst p], snd p)) (read_hex 4 0 r)
      else if c =? 85 then
        match read_hex 8 0 r with
        | Some (n, r) => if n <? max_char then Some ([n], r) else None
        | None => None
        end
      else if c =? 78 then None
      else if octal c then let '(n, r) := read_octal 2 (c - 48) r in Some ([n], r)
      else Some ([92; c], r)
  end.
(** The rest of a literal, after its opening quote. *)
Fixpoint literal (fuel quote : nat) (s : text) : option (text * text) :=
  match fuel with
  | O => None
  | S f =>
      match s with
      | [] => None
      | c :: r =>
          if c =? quote then Some ([], r)
          else if c =? 92 then
            match escape r with
            | Some (e, r) => option_map (fun p => (e ++ fst p, snd p)) (literal f quote r)
            | None => None
            end
          else if (c =? 10) || (c =? 13) then None
          else option_map (fun p => (c :: fst p, snd p)) (literal f quote r)
      end
  end.
Fixpoint skip_space (s : text) : text :=
  match s with c :: r => if (c =? 32) || (c =? 9) || (c =? 10) || (c =? 13) then skip_space r else s | [] => [] end.
(** The items of a list, after the bracket or a comma. *)
Fixpoint items (fuel : nat) (s : text) : option (list text * text) :=
  match fuel with
  | O => None
  | S f =>
      match skip_space s with
      | [] => None
      | c :: r =>
          if c =? 93 then Some ([], r)
          else if (c =? 39) || (c =? 34) then
            match literal (length r) c r with
            | None => None
            | Some (x, r) =>
                match skip_space r with
                | [] => None
                | d :: r =>
                    if d =? 93 then Some ([x], r)
                    else if d =? 44 then option_map (fun p => (x :: fst p, snd p)) (items f r)
                    else None
                end
            end
          else None
      end
  end.
(** Null characters are refused everywhere. *)
Definition literal_eval (s : text) : res (list text) :=
  if existsb (Nat.eqb 0) s then Err ValueError else
  match skip_space s with
  | c :: r => if c =? 91 then
                match items (length r) r with
                | Some (l, rest) => match skip_space rest with [] => Ok l | _ => Err ValueError end
                | None => Err ValueError
                end
              else Err ValueError
  | [] => Err ValueError
  end.

(** * The history *)
Section Hist.
Context {R : Type}.
Variable empty : R.                       (* [{}] *)
Inductive hval := HText (s : text) | HRec (r : R) | HOrder (l : list text).
Definition order_key : text := [111; 114; 100; 101; 114].

Fixpoint tget (k : text) (d : list (text * hval)) : option hval :=
  match d with
  | [] => None
  | (k', v) :: r => if teqb k k' then Some v else tget k r
  end.
Fixpoint tput (k : text) (v : hval) (d : list (text * hval)) : list (text * hval) :=
  match d with
  | [] => [(k, v)]
  | (k', v') :: r => if teqb k k' then (k', v) :: r else (k', v') :: tput k v r
  end.

(** The history group: its subgroups (old format) and its attributes. *)
Record hgroup := mkhist { h_groups : list (text * R); h_attrs : list (text * hval) }.

(** Lines 46-55, of a new container. *)
Definition new_history : hgroup := mkhist [] [(order_key, HText [91; 93])].

(** [history], lines 57-88. *)
Definition history (g : hgroup) : res (list (text * hval)) :=
  let out := fold_left (fun d kv => tput (fst kv) (HRec (snd kv)) d) (h_groups g) [] in
  let out := fold_left (fun d kv => tput (fst kv) (snd kv) d) (h_attrs g) out in
  match tget order_key (h_attrs g) with
  | None => Err KeyError
  | Some (HText s) => rbind (literal_eval s) (fun l => Ok (tput order_key (HOrder l) out))
  | Some _ => Err ValueError
  end.

(** [add_history], lines 169-197. *)
Definition add_history (name : text) (rec : option R) (g : hgroup) : res hgroup :=
  if teqb name order_key then Err ValueError
  else
    let rec := match rec with Some r => r | None => empty end in
    rbind (history g) (fun h =>
    match tget order_key h with
    | Some (HOrder order) =>
        Ok (mkhist (h_groups g) (tput name (HRec rec) (tput order_key (HText (str_list (order ++ [name]))) (h_attrs g))))
    | _ => Err TypeError
    end).
(** A program that makes these calls one after the other and goes on after an error. *)
Definition add_all (calls : list (text * option R)) (g : hgroup) : hgroup :=
  fold_left (fun g c => match add_history (fst c) (snd c) g with Ok g' => g' | Err _ => g end) calls g.
End Hist.
End Repr.
