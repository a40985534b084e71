(** The moving weighted median with doubles.
    /repo/caput/algorithms/median/MedianTree.hpp, MedianTreeNode.hpp, MedianTreeNodeData.hpp and the
    loops of weighted.pyx (334-512).

    As [MedModel], but values, weights and sums are doubles (as words), added in the order of the
    code.  Data and weights of other types are converted to double when they are inserted.  A
    null pointer is [Err OtherException].  An answer is the list of values whose mean is returned
    (lines 566-591), in the order they are added; [mean64] is that mean. *)
From Coq Require Import List ZArith Bool.
From Verif Require Import PyBase MedModel BtModel InvModel TfModel GqModel.
Import ListNotations.
Open Scope Z_scope.

(** MedianTreeNodeData.hpp lines 38-51 *)
Definition fdatum := (Z * Z)%type.
Definition fdlt (a b : fdatum) : bool :=
  if eq64 (fst a) (fst b) then lt64 (snd a) (snd b) else lt64 (fst a) (fst b).
Definition fdeq (a b : fdatum) : bool := eq64 (fst a) (fst b) && eq64 (snd a) (snd b).

Inductive ftree :=
| FE
| FN (l : ftree) (d : fdatum) (r : ftree) (lh rh : Z) (lw rw : Z).

(** MedianTreeNode.hpp lines 75-97: [left_weight + right_weight + data->weight] *)
Definition ftotal_height (t : ftree) : Z :=
  match t with FE => 0 | FN _ _ _ lh rh _ _ => Z.max lh rh + 1 end.
Definition ftotal_weight (t : ftree) : Z :=
  match t with FE => 0 | FN _ d _ _ _ lw rw => add64 (add64 lw rw) (snd d) end.
Definition fupdate (t : ftree) : ftree :=
  match t with
  | FE => FE
  | FN l d r _ _ _ _ => FN l d r (ftotal_height l) (ftotal_height r) (ftotal_weight l) (ftotal_weight r)
  end.

(** MedianTree.hpp lines 369-415 *)
Definition frotate_R (t : ftree) : ftree :=
  match t with
  | FN (FN ll ld lr lh1 rh1 lw1 rw1) d r lh rh lw rw =>
      fupdate (FN ll ld (fupdate (FN lr d r lh rh lw rw)) lh1 rh1 lw1 rw1)
  | _ => t
  end.
Definition frotate_L (t : ftree) : ftree :=
  match t with
  | FN l d (FN rl rd rr lh1 rh1 lw1 rw1) lh rh lw rw =>
      fupdate (FN (fupdate (FN l d rl lh rh lw rw)) rd rr lh1 rh1 lw1 rw1)
  | _ => t
  end.
Definition fleft_height (t : ftree) := match t with FE => 0 | FN _ _ _ lh _ _ _ => lh end.
Definition fright_height (t : ftree) := match t with FE => 0 | FN _ _ _ _ rh _ _ => rh end.
(** Lines 326-357 *)
Definition fbalance (t : ftree) : ftree :=
  match t with
  | FE => FE
  | FN l d r lh rh lw rw =>
      if lh - rh =? 2 then
        if fright_height l <=? fleft_height l then frotate_R t
        else frotate_R (FN (frotate_L l) d r lh rh lw rw)
      else if lh - rh =? -2 then
        if fleft_height r <=? fright_height r then frotate_L t
        else frotate_L (FN l d (frotate_R r) lh rh lw rw)
      else t
  end.
(** Lines 360-367 *)
Definition fvisit (t : ftree) : ftree := fbalance (fupdate (fbalance (fupdate t))).
(** Lines 199-236 *)
Fixpoint finsert (x : fdatum) (t : ftree) : ftree :=
  match t with
  | FE => FN FE x FE 0 0 0 0
  | FN l d r lh rh lw rw =>
      if fdlt x d then fvisit (FN (finsert x l) d r lh rh lw rw)
      else fvisit (FN l d (finsert x r) lh rh lw rw)
  end.
(** Lines 282-313 *)
Fixpoint fdel_min (t : ftree) : option (fdatum * ftree) :=
  match t with
  | FE => None
  | FN FE d r _ _ _ _ => Some (d, r)
  | FN l d r lh rh lw rw =>
      match fdel_min l with
      | Some (m, l') => Some (m, fvisit (FN l' d r lh rh lw rw))
      | None => None
      end
  end.
Definition fremove_root (t : ftree) : ftree :=
  match t with
  | FE => FE
  | FN FE _ r _ _ _ _ => r
  | FN l _ FE _ _ _ _ => l
  | FN l d r lh rh lw rw =>
      match fdel_min r with
      | Some (m, r') => fvisit (FN l m r' lh rh lw rw)
      | None => t
      end
  end.
(** Lines 249-279 *)
Fixpoint fremove (x : fdatum) (t : ftree) : option ftree :=
  match t with
  | FE => None
  | FN l d r lh rh lw rw =>
      if fdeq d x then Some (fremove_root t)
      else if fdlt x d then
        match fremove x l with
        | Some l' => Some (fvisit (FN l' d r lh rh lw rw)) | None => None end
      else
        match fremove x r with
        | Some r' => Some (fvisit (FN l d r' lh rh lw rw)) | None => None end
  end.

(** *** The weighted median: lines 524-668 *)
Definition fpath := list (bool * ftree).
(** Lines 543-552: [a > midpoint] is [midpoint < a]. *)
Fixpoint fdescend (t : ftree) (p : fpath) (prev next mid : Z) : option (ftree * fpath * Z * Z) :=
  match t with
  | FE => None
  | FN l d r _ _ lw rw =>
      if lt64 mid (add64 lw prev) then fdescend l ((false, t) :: p) prev (add64 next (add64 rw (snd d))) mid
      else if lt64 mid (add64 rw next) then fdescend r ((true, t) :: p) (add64 prev (add64 lw (snd d))) next mid
      else Some (t, p, prev, next)
  end.
(** Lines 628-668 *)
Fixpoint ffind_min (t : ftree) (p : fpath) : ftree * fpath :=
  match t with
  | FE => (FE, p)
  | FN FE _ _ _ _ _ _ => (t, p)
  | FN l _ _ _ _ _ _ => ffind_min l ((false, t) :: p)
  end.
Fixpoint ffind_max (t : ftree) (p : fpath) : ftree * fpath :=
  match t with
  | FE => (FE, p)
  | FN _ _ FE _ _ _ _ => (t, p)
  | FN _ _ r _ _ _ _ => ffind_max r ((true, t) :: p)
  end.
Fixpoint fup_while (side : bool) (p : fpath) : option (ftree * fpath) :=
  match p with
  | [] => None
  | (s, t) :: rest => if Bool.eqb s side then fup_while side rest else Some (t, rest)
  end.
Definition fsuccessor (t : ftree) (p : fpath) : option (ftree * fpath) :=
  match t with
  | FN _ _ r _ _ _ _ => match r with FE => fup_while true p | _ => Some (ffind_min r ((true, t) :: p)) end
  | FE => None
  end.
Definition fpredecessor (t : ftree) (p : fpath) : option (ftree * fpath) :=
  match t with
  | FN l _ _ _ _ _ _ => match l with FE => fup_while false p | _ => Some (ffind_max l ((false, t) :: p)) end
  | FE => None
  end.
Definition fnode_value (t : ftree) : Z := match t with FE => 0 | FN _ d _ _ _ _ _ => fst d end.
Definition fnode_weight (t : ftree) : Z := match t with FE => 0 | FN _ d _ _ _ _ _ => snd d end.
Definition fleft_weight (t : ftree) : Z := match t with FE => 0 | FN _ _ _ _ _ lw _ => lw end.
Definition fright_weight (t : ftree) : Z := match t with FE => 0 | FN _ _ _ _ _ _ rw => rw end.

(** Lines 566-591 *)
Fixpoint fsplit_down (fuel : nat) (t : ftree) (p : fpath) (next mid : Z) (acc : list Z) : list Z :=
  match fuel with
  | O => acc
  | S fuel =>
      if le64 (add64 (add64 (fright_weight t) next) (fnode_weight t)) mid then
        match fpredecessor t p with
        | None => acc
        | Some (t', p') =>
            fsplit_down fuel t' p' (add64 next (add64 (fnode_weight t) (fright_weight t))) mid
                        (acc ++ [fnode_value t'])
        end
      else acc
  end.
Fixpoint fsplit_up (fuel : nat) (t : ftree) (p : fpath) (prev mid : Z) (acc : list Z) : list Z :=
  match fuel with
  | O => acc
  | S fuel =>
      if le64 (add64 (add64 (fleft_weight t) prev) (fnode_weight t)) mid then
        match fsuccessor t p with
        | None => acc
        | Some (t', p') =>
            fsplit_up fuel t' p' (add64 prev (add64 (fnode_weight t) (fleft_weight t))) mid
                      (acc ++ [fnode_value t'])
        end
      else acc
  end.
(** Lines 593-611 *)
Fixpoint fgo_higher (t : ftree) (prev next mid : Z) : Z :=
  match t with
  | FE => 0
  | FN _ d r _ _ lw rw =>
      if le64 (add64 rw next) mid && le64 (add64 (add64 lw prev) (snd d)) mid
      then match r with FE => fst d | _ => fgo_higher r prev next mid end
      else fst d
  end.
Fixpoint fgo_lower (t : ftree) (prev next mid : Z) : Z :=
  match t with
  | FE => 0
  | FN l d _ _ _ lw rw =>
      if le64 (add64 lw prev) mid && le64 (add64 (add64 rw next) (snd d)) mid
      then match l with FE => fst d | _ => fgo_lower l prev next mid end
      else fst d
  end.
Fixpoint ftree_nodes (t : ftree) : nat :=
  match t with FE => 0 | FN l _ r _ _ _ _ => S (ftree_nodes l + ftree_nodes r) end.

Definition two64 : Z := 1024 * 2 ^ 52.
(** Lines 532-563 *)
Definition fweighted_median (t : ftree) (m : method) : res (list Z) :=
  match t with
  | FE => Ok [0]
  | _ =>
      let mid := div64 (ftotal_weight t) two64 in
      match fdescend t [] 0 0 mid with
      | None => Err OtherException
      | Some (node, p, prev, next) =>
          Ok (match m with
              | MSplit =>
                  let acc := fsplit_down (ftree_nodes t) node p next mid [fnode_value node] in
                  fsplit_up (ftree_nodes t) node p prev mid acc
              | MLower => [fgo_lower node prev next mid]
              | MHigher => [fgo_higher node prev next mid]
              end)
      end
  end.
(** Lines 569-590: [median / splt_median_cnt] *)
Definition mean64 (l : list Z) : Z :=
  match l with [] => 0 | x :: r => div64 (fold_left add64 r x) (of_int (Z.of_nat (length l))) end.

(** *** The window: weighted.pyx lines 367-413 and 417-512; [NaN != 0] is true *)
Definition fenter (x : fdatum) (st : ftree * list fdatum) : ftree * list fdatum :=
  let '(t, fifo) := st in
  if eq64 (snd x) 0 then (t, fifo ++ [(0, 0)]) else (finsert x t, fifo ++ [x]).
Definition fleave (st : ftree * list fdatum) : res (ftree * list fdatum) :=
  let '(t, fifo) := st in
  match fifo with
  | [] => Err OtherException
  | x :: rest =>
      if eq64 (snd x) 0 then Ok (t, rest)
      else match fremove x t with
           | Some t' => Ok (t', rest)
           | None => Err RuntimeError
           end
  end.
Fixpoint fleave_n (k : nat) (st : ftree * list fdatum) : res (ftree * list fdatum) :=
  match k with
  | O => Ok st
  | S k => rbind (fleave st) (fleave_n k)
  end.
Definition fenter_all (xs : list fdatum) (st : ftree * list fdatum) : ftree * list fdatum :=
  fold_left (fun st x => fenter x st) xs st.
Definition freport (nan : bool) (t : ftree) (m : method) : res (option (list Z)) :=
  match nan, t with
  | true, FE => Ok None
  | _, _ => rbind (fweighted_median t m) (fun v => Ok (Some v))
  end.
Fixpoint fmwm_loop (rows : list (list fdatum)) (half width : nat) (nan : bool) (m : method)
  (todo : nat) (i : nat) (st : ftree * list fdatum) : res (list (option (list Z))) :=
  match todo with
  | O => Ok []
  | S todo =>
      rbind (if (half + 1 <=? i)%nat then fleave_n width st else Ok st) (fun st =>
      let st := match nth_error rows (i + half) with Some xs => fenter_all xs st | None => st end in
      rbind (freport nan (fst st) m) (fun v =>
      rbind (fmwm_loop rows half width nan m todo (S i) st) (fun vs => Ok (v :: vs))))
  end.
Definition fmwm_rows (rows : list (list fdatum)) (half width : nat) (nan : bool) (m : method)
  : res (list (option (list Z))) :=
  let st := fenter_all (concat (firstn (half + 1) rows)) (FE, []) in
  rbind (freport false (fst st) m) (fun v0 =>
  rbind (fmwm_loop rows half width nan m (length rows - 1) 1 st) (fun vs => Ok (v0 :: vs))).
Definition fmwm_1D (data : list fdatum) (size : nat) (m : method) : res (list (option (list Z))) :=
  match data with
  | [] => Err IndexError
  | _ => fmwm_rows (map (fun x => [x]) data) (Nat.div size 2) 1 true m
  end.
(** Lines 334-351 for one dimension *)
Definition fmoving_1d (data : list fdatum) (size : nat) (m : method) : res (list (option (list Z))) :=
  if (size =? 0)%nat then Err ValueError
  else if (size =? 1)%nat then
    Ok (map (fun x => if eq64 (snd x) 0 then Some [snd x] else Some [fst x]) data)
  else if Nat.even size then Err ValueError
  else fmwm_1D data size m.
(** Lines 417-512 and 353-362 *)
Definition fmwm_2D_col (data : list (list fdatum)) (len_x size_y size_x col : nat) (m : method)
  : res (list (option (list Z))) :=
  let rad_x := Nat.div size_x 2 in
  let upper := (col - rad_x)%nat in
  let lower := Nat.min (col + rad_x + 1) len_x in
  fmwm_rows (map (lslice upper lower) data) (Nat.div size_y 2) (lower - upper) false m.
Definition fmwm_2D (data : list (list fdatum)) (len_x size_y size_x : nat) (m : method)
  : res (list (list (option (list Z)))) :=
  res_map (fun col => fmwm_2D_col data len_x size_y size_x col m) (seq 0 len_x).
Definition fmoving_2d (data : list (list fdatum)) (len_x size_y size_x : nat) (m : method)
  : res (list (list (option (list Z)))) :=
  if Nat.even size_y || Nat.even size_x then Err ValueError
  else if (size_y <? size_x)%nat then
    fmwm_2D (transpose (0, 0) len_x data) (length data) size_x size_y m
  else
    rbind (fmwm_2D data len_x size_y size_x m) (fun cols => Ok (transpose None (length data) cols)).
(** The values that are returned: lines 566-591 divide the sum by the count, the other methods return
    a value of the data. *)
Definition fvalue (m : method) (l : list Z) : Z := match m with MSplit => mean64 l | _ => hd 0 l end.
Definition fmedian_1d (data : list fdatum) (size : nat) (m : method) : res (list (option Z)) :=
  rbind (fmoving_1d data size m) (fun vs => Ok (map (option_map (fvalue m)) vs)).
Definition fmedian_2d (data : list (list fdatum)) (len_x size_y size_x : nat) (m : method)
  : res (list (list (option Z))) :=
  rbind (fmoving_2d data len_x size_y size_x m) (fun rows => Ok (map (map (option_map (fvalue m))) rows)).
