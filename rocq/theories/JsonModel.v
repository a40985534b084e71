(** Python values that occur as attributes, and the parts of the json module
    that /repo/caput/memdata/_memh5.py lines 2380-2421 (in [copyattrs]) relies
    on: json.JSONEncoder with the [default] method of Memh5JSONEncoder, and
    json.loads.

    Simplified: strings are sequences of characters below 256; dictionary keys
    are strings; a float is the text of its repr (json writes exactly that, and
    reads it back to the same float); numpy arrays have one dimension. *)
From Coq Require Import String.
From Coq Require Import List Ascii Bool Arith ZArith NArith Decimal.
From Verif Require Import PyBase PyStr MemModel.
Import ListNotations.
Open Scope list_scope.
Open Scope nat_scope.

Inductive av :=
| ANone
| ABool (b : bool)
| AInt (z : Z)
| AFloat (lit : str)
| AStr (s : str)
| ABytes (s : str)
| ADate (iso : str)
| ANpInt (z : Z)
| AList (l : list av)
| ADict (kv : list (str * av))
| AArr (l : list av).

(** *** Writing *)
Fixpoint uint_str (u : uint) : str :=
  match u with
  | Nil => []
  | D0 u => "0" :: uint_str u | D1 u => "1" :: uint_str u | D2 u => "2" :: uint_str u
  | D3 u => "3" :: uint_str u | D4 u => "4" :: uint_str u | D5 u => "5" :: uint_str u
  | D6 u => "6" :: uint_str u | D7 u => "7" :: uint_str u | D8 u => "8" :: uint_str u
  | D9 u => "9" :: uint_str u
  end%char.
Definition minus : ascii := "-"%char.
(** [int.__repr__] *)
Definition dec (z : Z) : str :=
  match z with
  | Z0 => uint_str (N.to_uint 0)
  | Zpos p => uint_str (N.to_uint (Npos p))
  | Zneg p => minus :: uint_str (N.to_uint (Npos p))
  end.

Definition quot : ascii := """"%char.
Definition bsl : ascii := "\"%char.
Definition hexdigit (n : nat) : ascii :=
  ascii_of_nat (if n <? 10 then 48 + n else 87 + n).
(** json.encoder.py_encode_basestring_ascii for one character. *)
Definition qchar (c : ascii) : str :=
  let n := nat_of_ascii c in
  if n =? 34 then [bsl; quot]
  else if n =? 92 then [bsl; bsl]
  else if n =? 10 then [bsl; "n"%char]
  else if n =? 13 then [bsl; "r"%char]
  else if n =? 9 then [bsl; "t"%char]
  else if n =? 12 then [bsl; "f"%char]
  else if n =? 8 then [bsl; "b"%char]
  else if (32 <=? n) && (n <=? 126) then [c]
  else [bsl; "u"%char; "0"%char; "0"%char; hexdigit (n / 16); hexdigit (n mod 16)].
Definition qbody (s : str) : str := concat (map qchar s).
Definition quoted (s : str) : str := quot :: qbody s ++ [quot].

(** [", ".join(parts)] *)
Fixpoint commas (l : list str) : str :=
  match l with
  | [] => []
  | [w] => w
  | w :: ws => w ++ s_ ", " ++ commas ws
  end.

(** Lines 2393-2405: values the json module does not know go through
    [default].  For a numpy number that returns [o.data], a memoryview, which
    is not serialisable either. *)
Fixpoint enc (v : av) : res str :=
  let fix encs (l : list av) : res (list str) :=
    match l with
    | [] => Ok []
    | x :: r => rbind (enc x) (fun a => rbind (encs r) (fun b => Ok (a :: b)))
    end in
  match v with
  | ANone => Ok (s_ "null")
  | ABool true => Ok (s_ "true")
  | ABool false => Ok (s_ "false")
  | AInt z => Ok (dec z)
  | AFloat lit => Ok lit
  | AStr s => Ok (quoted s)
  | ADate iso => Ok (quoted iso)
  | ABytes s => if forallb (fun c => nat_of_ascii c <? 128) s then Ok (quoted s) else Err ValueError
  | ANpInt _ => Err TypeError
  | AList l => rbind (encs l) (fun parts => Ok ("["%char :: commas parts ++ ["]"%char]))
  | ADict kv =>
      let fix encd (kv : list (str * av)) : res (list str) :=
        match kv with
        | [] => Ok []
        | (k, x) :: r => rbind (enc x) (fun a => rbind (encd r) (fun b =>
                         Ok ((quoted k ++ s_ ": " ++ a) :: b)))
        end in
      rbind (encd kv) (fun parts => Ok ("{"%char :: commas parts ++ ["}"%char]))
  | AArr l =>
      match l with
      | [x] => enc x
      | _ => rbind (encs l) (fun parts => Ok ("["%char :: commas parts ++ ["]"%char]))
      end
  end.

(** *** Reading *)
Definition is_ws (c : ascii) : bool :=
  let n := nat_of_ascii c in (n =? 32) || (n =? 9) || (n =? 10) || (n =? 13).
Fixpoint skip_ws (s : str) : str :=
  match s with
  | [] => []
  | c :: r => if is_ws c then skip_ws r else s
  end.
Definition hexval (c : ascii) : option nat :=
  let n := nat_of_ascii c in
  if (48 <=? n) && (n <=? 57) then Some (n - 48)
  else if (97 <=? n) && (n <=? 102) then Some (n - 87)
  else if (65 <=? n) && (n <=? 70) then Some (n - 55)
  else None.
Definition unescape (c : ascii) : option ascii :=
  let n := nat_of_ascii c in
  if n =? 34 then Some quot
  else if n =? 92 then Some bsl
  else if n =? 47 then Some slash
  else if n =? 98 then Some (ascii_of_nat 8)
  else if n =? 102 then Some (ascii_of_nat 12)
  else if n =? 110 then Some (ascii_of_nat 10)
  else if n =? 114 then Some (ascii_of_nat 13)
  else if n =? 116 then Some (ascii_of_nat 9)
  else None.
Definition addc (c : ascii) (r : res (str * str)) : res (str * str) :=
  rbind r (fun '(s, rest) => Ok (c :: s, rest)).
(** json.decoder.scanstring after the opening quote.  Code points from 256 up
    are outside the model (OtherException). *)
Fixpoint pstr (s : str) : res (str * str) :=
  match s with
  | [] => Err ValueError
  | c :: r =>
      if ceqb c quot then Ok ([], r)
      else if ceqb c bsl then
        match r with
        | [] => Err ValueError
        | e :: r1 =>
            if ceqb e "u"%char then
              match r1 with
              | h1 :: h2 :: h3 :: h4 :: r2 =>
                  match hexval h1, hexval h2, hexval h3, hexval h4 with
                  | Some a, Some b, Some c, Some d =>
                      if (a =? 0) && (b =? 0) then addc (ascii_of_nat (16 * c + d)) (pstr r2)
                      else Err OtherException
                  | _, _, _, _ => Err ValueError
                  end
              | _ => Err ValueError
              end
            else match unescape e with
                 | Some x => addc x (pstr r1)
                 | None => Err ValueError
                 end
        end
      else if nat_of_ascii c <? 32 then Err ValueError
      else addc c (pstr r)
  end.

Definition digit (c : ascii) : option nat :=
  let n := nat_of_ascii c in if (48 <=? n) && (n <=? 57) then Some (n - 48) else None.
Definition is_digit (c : ascii) : bool := match digit c with Some _ => true | None => false end.
Fixpoint span (p : ascii -> bool) (s : str) : str * str :=
  match s with
  | [] => ([], [])
  | c :: r => if p c then let '(a, b) := span p r in (c :: a, b) else ([], s)
  end.
(** [int(text)] *)
Fixpoint str_uint (s : str) : uint :=
  match s with
  | [] => Nil
  | c :: r =>
      match digit c with
      | Some 0 => D0 (str_uint r) | Some 1 => D1 (str_uint r) | Some 2 => D2 (str_uint r)
      | Some 3 => D3 (str_uint r) | Some 4 => D4 (str_uint r) | Some 5 => D5 (str_uint r)
      | Some 6 => D6 (str_uint r) | Some 7 => D7 (str_uint r) | Some 8 => D8 (str_uint r)
      | Some 9 => D9 (str_uint r)
      | _ => Nil
      end
  end.
(** json.scanner.NUMBER_RE: (-?(?:0|[1-9][0-9]* ))(\.[0-9]+)?([eE][-+]?[0-9]+)? *)
Definition pint (s : str) : option (str * str) :=
  match s with
  | [] => None
  | c :: r =>
      if ceqb c "0"%char then Some ([c], r)
      else if is_digit c then let '(a, b) := span is_digit r in Some (c :: a, b) else None
  end.
Definition pfrac (s : str) : str * str :=
  match s with
  | c :: r => if ceqb c dot then
                match span is_digit r with ([], _) => ([], s) | (a, b) => (c :: a, b) end
              else ([], s)
  | [] => ([], [])
  end.
Definition pexp (s : str) : str * str :=
  match s with
  | c :: r =>
      if ceqb c "e"%char || ceqb c "E"%char then
        let '(sg, r1) := match r with
                         | d :: r1 => if ceqb d "+"%char || ceqb d minus then ([d], r1) else ([], r)
                         | [] => ([], r)
                         end in
        match span is_digit r1 with ([], _) => ([], s) | (a, b) => (c :: sg ++ a, b) end
      else ([], s)
  | [] => ([], [])
  end.
Definition psign (s : str) : bool * str :=
  match s with
  | c :: r => if ceqb c minus then (true, r) else (false, s)
  | [] => (false, s)
  end.
Definition pnum (s : str) : res (av * str) :=
  let '(neg, s1) := psign s in
  match pint s1 with
  | None => Err ValueError
  | Some (ip, s2) =>
      let '(fr, s3) := pfrac s2 in
      let '(ex, s4) := pexp s3 in
      match fr, ex with
      | [], [] => let n := Z.of_N (N.of_uint (str_uint ip)) in Ok (AInt (if neg then - n else n)%Z, s4)
      | _, _ => Ok (AFloat ((if neg then [minus] else []) ++ ip ++ fr ++ ex), s4)
      end
  end.

Definition lit_after (l s : str) : option str :=
  if startswith l s then Some (skipn (length l) s) else None.

(** json.scanner.scan_once; [fuel] bounds the nesting. *)
Fixpoint pval (fuel : nat) (s : str) : res (av * str) :=
  match fuel with
  | 0 => Err OtherException
  | S fuel =>
      let fix parr (n : nat) (s : str) : res (list av * str) :=
        match n with
        | 0 => Err OtherException
        | S n =>
            rbind (pval fuel s) (fun '(v, r) =>
            match skip_ws r with
            | c :: r1 => if ceqb c "]"%char then Ok ([v], r1)
                         else if ceqb c ","%char then
                           rbind (parr n (skip_ws r1)) (fun '(vs, r2) => Ok (v :: vs, r2))
                         else Err ValueError
            | [] => Err ValueError
            end)
        end in
      let fix pobj (n : nat) (s : str) : res (list (str * av) * str) :=
        match n, s with
        | 0, _ => Err OtherException
        | S n, q :: s1 =>
            if ceqb q quot then
              rbind (pstr s1) (fun '(k, r) =>
              match skip_ws r with
              | c :: r1 =>
                  if ceqb c ":"%char then
                    rbind (pval fuel (skip_ws r1)) (fun '(v, r2) =>
                    match skip_ws r2 with
                    | c :: r3 => if ceqb c "}"%char then Ok ([(k, v)], r3)
                                 else if ceqb c ","%char then
                                   rbind (pobj n (skip_ws r3)) (fun '(kvs, r4) => Ok ((k, v) :: kvs, r4))
                                 else Err ValueError
                    | [] => Err ValueError
                    end)
                  else Err ValueError
              | [] => Err ValueError
              end)
            else Err ValueError
        | S _, [] => Err ValueError
        end in
      match s with
      | [] => Err ValueError
      | c :: r =>
          if ceqb c quot then rbind (pstr r) (fun '(x, r) => Ok (AStr x, r))
          else if ceqb c "{"%char then
            match skip_ws r with
            | d :: r1 => if ceqb d "}"%char then Ok (ADict [], r1)
                         else rbind (pobj (length r) (skip_ws r)) (fun '(kvs, r2) =>
                              Ok (ADict (fold_left (fun m '(k, v) => dput k v m) kvs []), r2))
            | [] => Err ValueError
            end
          else if ceqb c "["%char then
            match skip_ws r with
            | d :: r1 => if ceqb d "]"%char then Ok (AList [], r1)
                         else rbind (parr (length r) (skip_ws r)) (fun '(vs, r2) => Ok (AList vs, r2))
            | [] => Err ValueError
            end
          else match lit_after (s_ "null") s with
          | Some r => Ok (ANone, r)
          | None => match lit_after (s_ "true") s with
          | Some r => Ok (ABool true, r)
          | None => match lit_after (s_ "false") s with
          | Some r => Ok (ABool false, r)
          | None => match lit_after (s_ "NaN") s with
          | Some r => Ok (AFloat (s_ "NaN"), r)
          | None => match lit_after (s_ "Infinity") s with
          | Some r => Ok (AFloat (s_ "Infinity"), r)
          | None => match lit_after (s_ "-Infinity") s with
          | Some r => Ok (AFloat (s_ "-Infinity"), r)
          | None => pnum s
          end end end end end end
      end
  end.
(** json.loads *)
Definition loads (s : str) : res av :=
  rbind (pval (S (length s)) (skip_ws s)) (fun '(v, r) =>
  match skip_ws r with [] => Ok v | _ => Err ValueError end).
