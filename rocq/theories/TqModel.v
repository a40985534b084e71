(** Queueing the jobs of a template.
    /repo/caput/pipeline/runner/_scheduler/__init__.py: [template_queue] (68-107), with [queue] (110-277) and
    [_from_template] (_core.py 108-147) of RunModel.v.

    [read] is what linting, loading and resolving the text of a job's configuration give: the directories and the
    outcome of writing the job script, or an error. *)
From Coq Require Import String.
From Coq Require Import List Ascii Bool Arith ZArith.
From Verif Require Import PyBase PyStr MemModel RunModel.
Import ListNotations.
Open Scope list_scope.
Open Scope nat_scope.

Section Template.
Variable show_list : list str -> str.
Variable read : str -> res (job * res unit).
Variable mail : res unit.
(** The loop: the directories, those submitted in order, and how it ended *)
Fixpoint queue_combos (fs : jobs) (template : str) (names : list str) (overwrite : str) (combos : list (list str))
  : jobs * list str * res unit :=
  match combos with
  | [] => (fs, [], Ok tt)
  | vs :: combos =>
      match format show_list template (combine names (map VStr vs)) with
      | Err e => (fs, [], Err e)
      | Ok text =>
          match read text with
          | Err e => (fs, [], Err e)
          | Ok (j, script) =>
              match queue fs j overwrite script mail true with
              | (fs, sub, Err e) => (fs, if sub then [workdir j] else [], Err e)
              | (fs, sub, Ok _) =>
                  let '(fs, l, r) := queue_combos fs template names overwrite combos in
                  (fs, if sub then workdir j :: l else l, r)
              end
          end
      end
  end.
Definition template_queue (fs : jobs) (template : str) (var : list str) (overwrite : str) : jobs * list str * res unit :=
  match vardict var [] with
  | Err e => (fs, [], Err e)
  | Ok d => queue_combos fs template (map fst d) overwrite (product (map snd d))
  end.
End Template.
