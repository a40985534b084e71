(** Python strings as lists of characters, with the str and os.path functions
    that the models need. *)
From Coq Require Import String.
From Coq Require Import List Ascii Bool Arith Lia.
Import ListNotations.
Open Scope list_scope.

Definition str := list ascii.
Definition s_ (s : string) : str := list_ascii_of_string s.
Definition slash : ascii := "/"%char.
Definition dot : ascii := "."%char.

Definition ceqb (a b : ascii) : bool := if ascii_dec a b then true else false.
Lemma ceqb_eq : forall a b, ceqb a b = true <-> a = b.
Proof. intros. unfold ceqb. destruct (ascii_dec a b); split; intros; congruence. Qed.
Lemma ceqb_neq : forall a b, ceqb a b = false <-> a <> b.
Proof. intros. unfold ceqb. destruct (ascii_dec a b); split; intros; congruence. Qed.

Fixpoint seqb (a b : str) : bool :=
  match a, b with
  | [], [] => true
  | x :: a, y :: b => ceqb x y && seqb a b
  | _, _ => false
  end.
Lemma seqb_eq : forall a b, seqb a b = true <-> a = b.
Proof.
  induction a as [|x a IH]; intros [|y b]; cbn [seqb]; try (split; congruence).
  rewrite andb_true_iff, ceqb_eq, IH. split; [intros [-> ->]; reflexivity|intros H; injection H; auto].
Qed.
Lemma seqb_neq : forall a b, seqb a b = false <-> a <> b.
Proof.
  intros a b. rewrite <- seqb_eq. destruct (seqb a b); split; intros; congruence.
Qed.
Lemma seqb_refl : forall a, seqb a a = true.
Proof. intros. apply seqb_eq. reflexivity. Qed.
Definition str_eq_dec : forall a b : str, {a = b} + {a <> b} := list_eq_dec ascii_dec.

(** [s.startswith(p)] *)
Fixpoint startswith (p s : str) : bool :=
  match p, s with
  | [], _ => true
  | x :: p, y :: s => ceqb x y && startswith p s
  | _, _ => false
  end.
Lemma startswith_spec : forall p s, startswith p s = true <-> exists t, s = p ++ t.
Proof.
  induction p as [|x p IH]; intros s; cbn [startswith app].
  - split; [intros _; exists s; reflexivity|reflexivity].
  - destruct s as [|y s]; [split; [discriminate|intros (t & H); discriminate]|].
    rewrite andb_true_iff, ceqb_eq, IH. split.
    + intros (-> & t & ->). exists t. reflexivity.
    + intros (t & H). injection H as -> ->. split; [reflexivity|exists t; reflexivity].
Qed.

(** [s.split(c)]: never empty. *)
Fixpoint split (c : ascii) (s : str) : list str :=
  match s with
  | [] => [[]]
  | x :: s => if ceqb x c then [] :: split c s
              else match split c s with
                   | [] => [[x]]
                   | w :: ws => (x :: w) :: ws
                   end
  end.
(** [c.join(l)] *)
Fixpoint join (c : ascii) (l : list str) : str :=
  match l with
  | [] => []
  | [w] => w
  | w :: ws => w ++ c :: join c ws
  end.

(** [s.lstrip(c)], [s.rstrip(c)] *)
Fixpoint lstrip (c : ascii) (s : str) : str :=
  match s with
  | [] => []
  | x :: t => if ceqb x c then lstrip c t else s
  end.
Definition rstrip (c : ascii) (s : str) : str := rev (lstrip c (rev s)).

(** The part of [s] after the last slash, and the part up to and including
    it. *)
Fixpoint tail_of (c : ascii) (s : str) : str :=
  match s with
  | [] => []
  | x :: t => if existsb (ceqb c) s then tail_of c t else s
  end.
Definition head_of (c : ascii) (s : str) : str := firstn (length s - length (tail_of c s)) s.

(** os.path.split and os.path.join (posixpath). *)
Definition path_split (p : str) : str * str :=
  let head := head_of slash p in
  (if forallb (ceqb slash) head then head else rstrip slash head, tail_of slash p).
Definition path_join (a b : str) : str :=
  if startswith [slash] b then b
  else match rev a with
       | [] => b
       | x :: _ => if ceqb x slash then a ++ b else a ++ slash :: b
       end.

Lemma tail_of_noslash : forall c s, ~ In c (tail_of c s).
Proof.
  induction s as [|x t IH]; [intros []|]. cbn [tail_of].
  destruct (existsb (ceqb c) (x :: t)) eqn:E; [exact IH|].
  intros H. assert (existsb (ceqb c) (x :: t) = true); [|congruence].
  apply existsb_exists. exists c. split; [exact H|apply ceqb_eq; reflexivity].
Qed.
Lemma existsb_ceqb : forall c s, existsb (ceqb c) s = true <-> In c s.
Proof.
  intros c s. rewrite existsb_exists. split.
  - intros (y & H & E). apply ceqb_eq in E. subst. exact H.
  - intros H. exists c. split; [exact H|apply ceqb_eq; reflexivity].
Qed.
Lemma tail_of_none : forall c s, ~ In c s -> tail_of c s = s.
Proof.
  intros c [|x t] H; [reflexivity|]. cbn [tail_of].
  destruct (existsb (ceqb c) (x :: t)) eqn:E; [|reflexivity].
  apply existsb_ceqb in E. contradiction.
Qed.
Lemma tail_of_app : forall c a b, ~ In c b -> tail_of c (a ++ c :: b) = b.
Proof.
  induction a as [|x a IH]; intros b H.
  - cbn [app tail_of]. replace (existsb (ceqb c) (c :: b)) with true
      by (symmetry; apply existsb_ceqb; left; reflexivity). apply tail_of_none, H.
  - cbn [app tail_of]. replace (existsb (ceqb c) (x :: a ++ c :: b)) with true
      by (symmetry; apply existsb_ceqb; right; apply in_or_app; right; left; reflexivity).
    apply IH, H.
Qed.

Lemma split_nonempty : forall c s, split c s <> [].
Proof.
  induction s as [|x s IH]; cbn [split]; [discriminate|].
  destruct (ceqb x c); [discriminate|]. destruct (split c s); discriminate.
Qed.
Lemma join_split : forall c s, join c (split c s) = s.
Proof.
  induction s as [|x s IH]; [reflexivity|]. cbn [split].
  destruct (ceqb x c) eqn:E.
  - apply ceqb_eq in E. subst x. pose proof (split_nonempty c s) as N.
    destruct (split c s) as [|w ws]; [contradiction|]. cbn [join app]. f_equal. exact IH.
  - pose proof (split_nonempty c s) as N. destruct (split c s) as [|w ws]; [contradiction|].
    cbn [join] in *. destruct ws as [|v ws]; cbn [app]; f_equal; exact IH.
Qed.
Lemma split_noslash : forall c s w, In w (split c s) -> ~ In c w.
Proof.
  induction s as [|x s IH]; intros w H.
  - destruct H as [<-|[]]. intros [].
  - cbn [split] in H. destruct (ceqb x c) eqn:E.
    + destruct H as [<-|H]; [intros []|apply IH, H].
    + apply ceqb_neq in E. pose proof (split_nonempty c s) as N.
      destruct (split c s) as [|v ws]; [contradiction|]. destruct H as [<-|H].
      * intros [H|H]; [congruence|]. apply (IH v (or_introl eq_refl) H).
      * apply IH. right. exact H.
Qed.
Lemma split_word : forall c w, ~ In c w -> split c w = [w].
Proof.
  induction w as [|x w IH]; intros H; [reflexivity|]. cbn [split].
  destruct (ceqb x c) eqn:E; [apply ceqb_eq in E; subst; exfalso; apply H; left; reflexivity|].
  rewrite IH by (intros G; apply H; right; exact G). reflexivity.
Qed.
Lemma split_app : forall c w s, ~ In c w -> split c (w ++ c :: s) = w :: split c s.
Proof.
  induction w as [|x w IH]; intros s H.
  - cbn [app split]. replace (ceqb c c) with true by (symmetry; apply ceqb_eq; reflexivity). reflexivity.
  - cbn [app split]. destruct (ceqb x c) eqn:E; [apply ceqb_eq in E; subst; exfalso; apply H; left; reflexivity|].
    rewrite IH by (intros G; apply H; right; exact G). reflexivity.
Qed.
Lemma split_join : forall c l, l <> [] -> (forall w, In w l -> ~ In c w) -> split c (join c l) = l.
Proof.
  induction l as [|w ws IH]; intros N H; [contradiction|].
  destruct ws as [|v ws].
  - cbn [join]. apply split_word, H. left. reflexivity.
  - change (join c (w :: v :: ws)) with (w ++ c :: join c (v :: ws)). rewrite split_app by (apply H; left; reflexivity).
    f_equal. apply IH; [discriminate|]. intros u Hu. apply H. right. exact Hu.
Qed.
