(** File lists, /repo/caput/pipeline/tasklib/io.py: [list_of_filelists] (49-84),
    [list_or_glob] (87-134), [list_of_filegroups] (137-190).

    The file system is [os.path.isfile], [os.path.isdir] and [glob.glob], which
    are parameters.  At the end of the file there is a directory of plain files
    with the matching of the glob module, as a concrete instance. *)
From Coq Require Import String.
From Coq Require Import List Ascii Bool Arith.
From Verif Require Import PyBase PyStr MemModel AttrModel.
Import ListNotations.
Open Scope list_scope.
Open Scope nat_scope.

(** A configured value: a string, a list, or something else. *)
Inductive farg := FStr (s : str) | FList (l : list farg) | FOther.
Definition ch (s : string) : ascii := hd "000"%char (s_ s).
Definition has_char (c : ascii) (s : str) : bool := existsb (ceqb c) s.
Definition has_magic (s : str) : bool := existsb (fun c => has_char c s) (s_ "*?[").
Definition endswith (p s : str) : bool := startswith (rev p) (rev s).

Section Files.
Variables (isfile isdir : str -> bool) (glob : str -> list str).

(** Lines 119-130 *)
Definition plain_path (s : str) : res (list str) :=
  if endswith (s_ ".zarr") s then (if isdir s then Ok [s] else Err CaputConfigError)
  else if isfile s then Ok [s] else Err CaputConfigError.
(** [None]: the recursion is deeper than [fuel]. *)
Fixpoint list_or_glob (fuel : nat) (files : farg) : option (res (list str)) :=
  match fuel with
  | O => None
  | S fuel =>
      match files with
      | FList l =>
          (fix go (l : list farg) : option (res (list str)) :=
             match l with
             | [] => Some (Ok [])
             | f :: l => match list_or_glob fuel f with
                         | Some (Ok a) => match go l with Some (Ok b) => Some (Ok (a ++ b)) | e => e end
                         | e => e
                         end
             end) l
      | FStr s => if has_magic s then list_or_glob fuel (FList (map FStr (py_sorted sleb (glob s)))) else Some (plain_path s)
      | FOther => Some (Err CaputConfigError)
      end
  end.

(** Lines 77-79: every entry is replaced by the list it stands for. *)
Fixpoint replace_all (fuel : nat) (l : list farg) : option (res (list farg)) :=
  match l with
  | [] => Some (Ok [])
  | f :: l => match list_or_glob fuel f with
              | None => None
              | Some (Err e) => Some (Err e)
              | Some (Ok a) => match replace_all fuel l with Some (Ok b) => Some (Ok (FList (map FStr a) :: b)) | e => e end
              end
  end.
(** A name without "*" has to be a file. *)
Definition missing (s : str) : bool := negb (has_char (ch "*") s) && negb (isfile s).
Fixpoint list_of_filelists (fuel : nat) (files : list farg) : option (res (list farg)) :=
  match files with
  | [] => Some (Ok [])
  | f :: files =>
      match (match f with
             | FStr s => if missing s then Some (Err CaputConfigError) else Some (Ok (map FStr (glob s)))
             | FList l => replace_all fuel l
             | FOther => Some (Err CaputConfigError)
             end) with
      | Some (Ok a) => match list_of_filelists fuel files with Some (Ok b) => Some (Ok (a ++ b)) | e => e end
      | e => e
      end
  end.

(** Groups: the value of "files" if there is one, and the tag. *)
Inductive garg := GDict (files : option farg) (tag : option str) | GOther.
(** Lines 180-183; a name which is not a string is a TypeError (from "in" or
    from isfile). *)
Fixpoint group_files (files : list farg) : res (list str) :=
  match files with
  | [] => Ok []
  | FStr s :: files => if missing s then Err CaputConfigError else rbind (group_files files) (fun r => Ok (glob s ++ r))
  | _ :: _ => Err TypeError
  end.
(** [for fname in files]: a string is a sequence of characters. *)
Definition members (f : farg) : res (list farg) :=
  match f with FStr s => Ok (map (fun c => FStr [c]) s) | FList l => Ok l | FOther => Err TypeError end.
(** [f"group_{gi:d}"] *)
Fixpoint digits (fuel n : nat) (acc : str) : str :=
  match fuel with
  | O => acc
  | S fuel => let acc := ascii_of_nat (48 + n mod 10) :: acc in if n <? 10 then acc else digits fuel (n / 10) acc
  end.
Definition decimal (n : nat) : str := digits (S n) n [].
Fixpoint group_loop (gi : nat) (groups : list garg) : res (list (str * list str)) :=
  match groups with
  | [] => Ok []
  | GDict (Some files) tag :: groups =>
      let t := match tag with Some t => t | None => s_ "group_" ++ decimal gi end in
      rbind (members files) (fun l =>
      rbind (group_files l) (fun flist =>
      match flist with
      | [] => Err CaputConfigError
      | _ => rbind (group_loop (S gi) groups) (fun r => Ok ((t, flist) :: r))
      end))
  | _ :: _ => Err CaputConfigError
  end.
(** The argument is a list of groups or one group. *)
Definition list_of_filegroups (groups : list garg + garg) : res (list (str * list str)) :=
  group_loop 0 (match groups with inl l => l | inr g => [g] end).
End Files.

(** * A directory of plain files *)
(** [fnmatch]: the body of a character class up to the closing bracket, which
    may come first. *)
Fixpoint upto_close (s : str) : option (str * str) :=
  match s with
  | [] => None
  | c :: s => if ceqb c "]" then Some ([], s) else option_map (fun p => (c :: fst p, snd p)) (upto_close s)
  end.
Definition class_of (s : str) : option (bool * str * str) :=
  let '(neg, s) := match s with c :: r => if ceqb c "!" then (true, r) else (false, s) | [] => (false, s) end in
  match s with
  | c :: r => if ceqb c "]" then option_map (fun p => (neg, c :: fst p, snd p)) (upto_close r)
              else option_map (fun p => (neg, fst p, snd p)) (upto_close s)
  | [] => None
  end.
Fixpoint in_class (body : str) (c : ascii) : bool :=
  match body with
  | a :: ((h :: b :: rest) as tl) =>
      if ceqb h "-" then ((nat_of_ascii a <=? nat_of_ascii c) && (nat_of_ascii c <=? nat_of_ascii b)) || in_class rest c
      else ceqb a c || in_class tl c
  | a :: tl => ceqb a c || in_class tl c
  | [] => false
  end.
Fixpoint pmatch (fuel : nat) (p s : str) : bool :=
  match fuel with
  | O => false
  | S fuel =>
      match p with
      | [] => match s with [] => true | _ => false end
      | a :: p' =>
          if ceqb a "*" then pmatch fuel p' s || match s with [] => false | _ :: s' => pmatch fuel p s' end
          else match s with
               | [] => false
               | c :: s' =>
                   if ceqb a "?" then pmatch fuel p' s'
                   else match (if ceqb a "[" then class_of p' else None) with
                        | Some (neg, body, rest) => xorb neg (in_class body c) && pmatch fuel rest s'
                        | None => ceqb a c && pmatch fuel p' s'
                        end
               end
      end
  end.
Definition fnmatch (p s : str) : bool := pmatch (S (length p + length s)) p s.
Definition is_name (names : list str) (s : str) : bool := existsb (seqb s) names.
Definition hidden (s : str) : bool := startswith (s_ ".") s.
Definition dir_glob (names : list str) (p : str) : list str :=
  if has_magic p then filter (fun n => fnmatch p n && (hidden p || negb (hidden n))) names
  else if is_name names p then [p] else [].
