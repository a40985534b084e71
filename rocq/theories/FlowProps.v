(** C62, C96, C97, C98: grouping, loading, selecting and saving. *)
From Coq Require Import String.
From Coq Require Import List Ascii Bool Arith ZArith Lia.
From Verif Require Import PyBase PyStr MemModel AttrModel GlobModel FlowModel FlowSpec FlowProofs.
Import ListNotations.
Open Scope list_scope.
Open Scope nat_scope.

(** * C62 *)
Theorem C62_blocks : forall (A : Type) k (inputs : list A), 1 <= k ->
  let r := acc_run (Some (Z.of_nat k)) [] inputs in
  Blocks k inputs (given (fst r)) (snd r) /\ length (fst r) = length inputs /\ acc_finish (Some (Z.of_nat k)) (snd r) = None /\
  forall i o, nth_error (fst r) i = Some o -> (o <> None <-> (S i) mod k = 0).
Proof.
  intros A k inputs H r. destruct (acc_run_some k inputs []) as (outs & rest & B & G & R); [cbn; lia|].
  subst r. rewrite G, R. split; [exact B|]. split; [apply acc_run_length|]. split; [reflexivity|].
  intros i o N. eapply (acc_run_when k inputs []) in N; [exact N|cbn; lia].
Qed.
Print Assumptions C62_blocks.
(** Blocks are determined by the inputs. *)
Theorem C62_blocks_unique : forall (A : Type) k (l : list A) o1 r1 o2 r2, Blocks k l o1 r1 -> Blocks k l o2 r2 -> o1 = o2 /\ r1 = r2.
Proof. intros A. apply blocks_unique. Qed.
Print Assumptions C62_blocks_unique.
Theorem C62_all : forall (A : Type) (inputs : list A),
  let r := acc_run None [] inputs in given (fst r) = [] /\ acc_finish None (snd r) = Some inputs.
Proof. intros A inputs r. destruct (acc_run_none inputs []) as [G R]. subst r. cbn [acc_finish]. rewrite R. auto. Qed.
Print Assumptions C62_all.
(** A size below one means one. *)
Theorem C62_small : forall (A : Type) k (inputs : list A), (k <= 1)%Z ->
  acc_run (Some k) [] inputs = (map (fun x => Some [x]) inputs, []).
Proof. intros A. apply acc_run_alone. Qed.
Print Assumptions C62_small.
Example C62_example : acc_run (Some 3%Z) [] [1; 2; 3; 4; 5; 6; 7] = ([None; None; Some [1; 2; 3]; None; None; Some [4; 5; 6]; None], [7]) /\
  acc_finish None (snd (acc_run None [] [1; 2; 3])) = Some [1; 2; 3].
Proof. split; reflexivity. Qed.

(** * C96 *)
(** Each file once, in order, then the end; the tag is that of the file, or else
    its name. *)
Theorem C96_in_order : forall (C : Type) load tag_of set_tag files n i,
  (forall f, In f files -> exists c : C, load f = Ok c) -> i < n ->
  nth_error (load_run load tag_of set_tag n files 0) i =
  Some (match nth_error files i with
        | None => Err PipelineStopIteration
        | Some f => match load f with
                    | Ok c => Ok (match tag_of c with Some _ => c | None => set_tag (stem f) c end)
                    | Err e => Err e
                    end
        end).
Proof.
  intros C load tag_of set_tag files n i H Hi. rewrite load_run_at; [|lia| |exact Hi].
  - cbn [Nat.add]. destruct (nth_error files i) as [f|]; [|reflexivity]. destruct (load f) as [c|e]; [|reflexivity]. unfold tagged. destruct (tag_of c); reflexivity.
  - intros j f _ _ N. apply H. eapply nth_error_In; eauto.
Qed.
Print Assumptions C96_in_order.
(** The first file that cannot be read fails, after all files before it. *)
Theorem C96_fails : forall (C : Type) load tag_of set_tag files n i f e,
  nth_error files i = Some f -> load f = Err e -> (forall j g, j < i -> nth_error files j = Some g -> exists c : C, load g = Ok c) -> i < n ->
  nth_error (load_run load tag_of set_tag n files 0) i = Some (Err e).
Proof.
  intros C load tag_of set_tag files n i f e N E H Hi. rewrite load_run_at; [|lia|intros j g _ L; apply H; exact L|exact Hi].
  cbn [Nat.add]. now rewrite N, E.
Qed.
Print Assumptions C96_fails.
(** The name used as tag: the last component without its extension. *)
Theorem C96_stem : forall d name ext, ~ In slash name -> ~ In slash ext -> ~ In dot ext -> (exists x, In x name /\ x <> dot) ->
  stem (d ++ slash :: name ++ dot :: ext) = name /\ stem (name ++ dot :: ext) = name.
Proof.
  intros d name ext N1 N2 N3 (x & Ix & Hx).
  assert (P : ~ In slash (name ++ dot :: ext)).
  { intros I. apply in_app_or in I as [I|[I|I]]; auto. discriminate. }
  assert (K : splitext0 (name ++ dot :: ext) = name).
  { unfold splitext0. rewrite tail_of_app by exact N3. rewrite app_length. cbn [length].
    replace (length name + S (length ext) - length ext) with (length name + 1) by lia. rewrite firstn_app_2. cbn [firstn].
    rewrite rev_app_distr. cbn [rev app]. destruct (forallb (ceqb dot) (rev name)) eqn:F; [|apply rev_involutive].
    rewrite forallb_forall in F. exfalso. apply Hx. symmetry. apply ceqb_eq, F. rewrite <- in_rev. exact Ix. }
  unfold stem, path_split. cbn [snd]. split; [rewrite tail_of_app by exact P|rewrite tail_of_none by exact P]; exact K.
Qed.
Print Assumptions C96_stem.
(** All combinations of paths and tags. *)
Theorem C96_combinations : forall fmt paths tags i j p t, nth_error paths i = Some p -> nth_error tags j = Some t ->
  nth_error (path_tag_files fmt paths tags) (i * length tags + j) = Some (fmt p t) /\
  length (path_tag_files fmt paths tags) = length paths * length tags.
Proof.
  intros fmt paths tags i j p t. unfold path_tag_files. revert i. induction paths as [|q paths IH]; intros i Np Nt; [destruct i; discriminate|].
  cbn [flat_map]. assert (J : j < length tags) by (apply nth_error_Some; congruence).
  assert (L : length (flat_map (fun path => map (fun tag => fmt path tag) tags) paths) = length paths * length tags).
  { clear. induction paths as [|a paths IH]; [reflexivity|]. cbn [flat_map length]. rewrite app_length, map_length, IH. reflexivity. }
  split; [|rewrite app_length, map_length, L; reflexivity]. destruct i as [|i].
  - injection Np as ->. cbn [Nat.mul Nat.add]. rewrite nth_error_app1 by (now rewrite map_length). apply (map_nth_error (fun tag => fmt p tag)). exact Nt.
  - cbn in Np. rewrite nth_error_app2 by (rewrite map_length; cbn; lia). rewrite map_length.
    replace (S i * length tags + j - length tags) with (i * length tags + j) by (cbn; lia). now apply IH.
Qed.
Print Assumptions C96_combinations.
Definition f_load (f : str) : res (option str * str) := if seqb f (s_ "bad") then Err RuntimeError else if seqb f (s_ "t.h5") then Ok (Some (s_ "given"), f) else Ok (None, f).
Definition f_set (t : str) (c : option str * str) : option str * str := (Some t, snd c).
Example C96_example :
  load_run f_load fst f_set 4 [s_ "/d/x.y.h5"; s_ "t.h5"] 0 =
    [Ok (Some (s_ "x.y"), s_ "/d/x.y.h5"); Ok (Some (s_ "given"), s_ "t.h5"); Err PipelineStopIteration; Err PipelineStopIteration] /\
  stem (s_ "/a.b/.profile") = s_ ".profile" /\ stem (s_ "a.b/c") = s_ "c" /\
  path_tag_files (fun p t => p ++ t) [s_ "a"; s_ "b"] [s_ "1"; s_ "2"] = [s_ "a1"; s_ "a2"; s_ "b1"; s_ "b2"].
Proof. repeat split. Qed.

(** * C97 *)
(** Without labels the files are taken in turn. *)
Theorem C97_in_turn_partial : forall (C : Type) load label files (cs : list C) inputs, Forall2 (fun f c => load f = Ok c) files cs -> files <> [] ->
  exists d, collect load label false 0 files [] = Ok d /\
    forall i, i < length inputs -> nth_error (select_run label false d 0 inputs) i = Some (Ok (nth_error cs (i mod length files))) /\ nth_error cs (i mod length files) <> None.
Proof.
  intros C load label files cs inputs F Hf. destruct (collect_index load label files 0 [] cs) as (d & R & L & _ & P); [intros e []|exact F|].
  exists d. split; [exact R|]. cbn [length Nat.add] in *. assert (LC : length files = length cs) by (clear - F; induction F; cbn; congruence).
  assert (NZ : length files <> 0) by (destruct files; [congruence|discriminate]).
  assert (Q : forall n, n < length d -> exists c, nth_error cs n = Some c /\ kget (KIndex n) d = Some c).
  { intros n Hn. destruct (nth_error cs n) as [c|] eqn:N; [|apply nth_error_None in N; lia]. exists c. split; auto. }
  intros i Hi. rewrite select_run_cycle; [|lia|intros n Hn; destruct (Q n Hn) as (c & _ & ?); eauto|exact Hi]. cbn [Nat.add].
  rewrite L. destruct (Q (i mod length files)) as (c & N & K); [rewrite L; now apply Nat.mod_upper_bound|]. rewrite K, N. split; [reflexivity|discriminate].
Qed.
Print Assumptions C97_in_turn_partial.
(** With labels: the last file with the label of the input, or nothing. *)
Theorem C97_by_label : forall (C : Type) load label files (cs : list C), Forall2 (fun f c => load f = Ok c) files cs ->
  exists d, collect load label true 0 files [] = Ok d /\ forall count x,
    (forall c, LastWith (fun c => label c = label x) cs c -> select label true d count x = Ok (Some c)) /\
    ((forall c, In c cs -> label c <> label x) -> select label true d count x = Ok None).
Proof.
  intros C load label files cs F. destruct (collect_label load label files 0 [] cs F) as (d & R & P). exists d. split; [exact R|].
  intros count x. destruct (P (label x)) as [P1 P2]. cbn [select]. split.
  - intros c L. now rewrite (P1 c L).
  - intros N. now rewrite (P2 N).
Qed.
Print Assumptions C97_by_label.
(** No file at all: division by zero. *)
Theorem C97_empty_refuted : exists (load : str -> res str) label d, collect load label false 0 [] [] = Ok d /\ forall x, select label false d 0 x = Err ZeroDivisionError.
Proof. exists Ok, (fun c => c), []. split; reflexivity. Qed.
Print Assumptions C97_empty_refuted.
(** Two files with one label: the first one can never be selected. *)
Theorem C97_same_label_refuted : exists (load : str -> res (str * nat)) files d, collect load fst true 0 files [] = Ok d /\
  length files = 2 /\ length d = 1 /\ forall count x, select fst true d count x <> Ok (Some (s_ "l", 4)).
Proof.
  exists (fun f => Ok (s_ "l", length f)), [s_ "a.h5"; s_ "bc.h5"]. eexists. split; [reflexivity|]. split; [reflexivity|]. split; [reflexivity|].
  intros count [l n]. unfold select, kget. cbn. match goal with |- context [if ?b then _ else _] => destruct b end; cbn; intros K; discriminate.
Qed.
Print Assumptions C97_same_label_refuted.
Definition l_load (f : str) : res (str * str) := Ok (firstn 1 f, f).
Example C97_example : exists d, collect l_load fst false 0 [s_ "a1"; s_ "b1"; s_ "c1"] [] = Ok d /\
  select_run fst false d 0 (repeat (s_ "z", s_ "in") 5) =
    map (fun f => Ok (Some (firstn 1 f, f))) [s_ "a1"; s_ "b1"; s_ "c1"; s_ "a1"; s_ "b1"] /\
  exists d', collect l_load fst true 0 [s_ "a1"; s_ "b1"; s_ "a2"] [] = Ok d' /\
  select_run fst true d' 0 [(s_ "b", s_ "x"); (s_ "a", s_ "y"); (s_ "q", s_ "z")] = [Ok (Some (s_ "b", s_ "b1")); Ok (Some (s_ "a", s_ "a2")); Ok None].
Proof. eexists. split; [reflexivity|]. split; [reflexivity|]. eexists. split; reflexivity. Qed.

(** * C98 *)
(** Names: the tag, or else a running number of the untagged ones. *)
Theorem C98_names : forall (C : Type) (tag_of : C -> option str) root xs i x, nth_error xs i = Some x ->
  nth_error (save_run tag_of root 0 xs) i =
  Some (root ++ s_ "_" ++ (match tag_of x with
                           | Some t => t
                           | None => decimal (length (filter (fun y => match tag_of y with None => true | _ => false end) (firstn i xs)))
                           end) ++ s_ ".h5").
Proof. intros C tag_of root xs i x N. exact (save_run_at tag_of root xs 0 i x N). Qed.
Print Assumptions C98_names.
(** Untagged containers, or containers with distinct tags, get distinct files. *)
Theorem C98_distinct_partial : forall (C : Type) (tag_of : C -> option str) root xs,
  ((forall x, In x xs -> tag_of x = None) \/
   (forall x, In x xs -> tag_of x <> None) /\ (forall i j x y, nth_error xs i = Some x -> nth_error xs j = Some y -> tag_of x = tag_of y -> i = j)) ->
  forall i j n, nth_error (save_run tag_of root 0 xs) i = Some n -> nth_error (save_run tag_of root 0 xs) j = Some n -> i = j.
Proof.
  intros C tag_of root xs H.
  assert (LS : forall c, length (save_run tag_of root c xs) = length xs).
  { clear. induction xs as [|x xs IH]; intros c; [reflexivity|]. cbn [save_run]. destruct (save_next tag_of root c x). cbn [length]. now rewrite IH. }
  intros i j n Ni Nj.
  assert (Li : i < length xs) by (rewrite <- (LS 0); apply nth_error_Some; congruence).
  assert (Lj : j < length xs) by (rewrite <- (LS 0); apply nth_error_Some; congruence).
  destruct (nth_error xs i) as [x|] eqn:X; [|apply nth_error_None in X; lia]. destruct (nth_error xs j) as [y|] eqn:Y; [|apply nth_error_None in Y; lia].
  rewrite (C98_names C tag_of root xs i x X) in Ni. rewrite (C98_names C tag_of root xs j y Y) in Nj.
  rewrite <- Nj in Ni. assert (E := f_equal (fun o => match o with Some s => s | None => [] end) Ni). cbv beta iota in E. apply app_inv_head in E. apply app_inv_head in E. apply app_inv_tail in E.
  apply nth_error_In in X as Ix. apply nth_error_In in Y as Iy. destruct H as [H|[H D]].
  - rewrite (H x Ix), (H y Iy) in E. apply decimal_inj in E.
    assert (Fl : forall k, k <= length xs -> length (filter (fun y => match tag_of y with None => true | _ => false end) (firstn k xs)) = k).
    { clear - H. induction xs as [|a xs IH]; intros k Hk; [destruct k; cbn in *; auto; lia|]. destruct k as [|k]; [reflexivity|].
      cbn [firstn filter]. rewrite (H a (or_introl eq_refl)). cbn [length]. rewrite IH; [reflexivity|intros; apply H; now right|cbn in Hk; lia]. }
    rewrite !Fl in E by lia. exact E.
  - pose proof (H x Ix) as Hx. pose proof (H y Iy) as Hy. destruct (tag_of x) eqn:Tx; [|congruence]. destruct (tag_of y) eqn:Ty; [|congruence].
    apply (D i j x y X Y). rewrite Tx, Ty. now f_equal.
Qed.
Print Assumptions C98_distinct_partial.
(** A tag may coincide with a running number. *)
Theorem C98_overwritten_refuted : exists (x y : option str), x <> y /\ save_run (fun t => t) (s_ "out") 0 [x; y] = [s_ "out_0.h5"; s_ "out_0.h5"].
Proof. exists None, (Some (s_ "0")). split; [discriminate|reflexivity]. Qed.
Print Assumptions C98_overwritten_refuted.
Example C98_example : save_run (fun t => t) (s_ "d/o") 0 [None; Some (s_ "ab"); None] = [s_ "d/o_0.h5"; s_ "d/o_ab.h5"; s_ "d/o_1.h5"].
Proof. reflexivity. Qed.
