From Coq Require Import String.
From Coq Require Import List Ascii Bool Arith ZArith Lia Permutation.
From Verif Require Import PyBase PyStr MemModel MemProofs2 AttrProofs CopyProofs ContProofs GlobModel RunModel RunSpec.
Import ListNotations.
Open Scope list_scope.
Open Scope nat_scope.

(** * Formatting *)
Lemma cut_some : forall c s a b, cut c s = Some (a, b) <-> s = a ++ c :: b /\ ~ In c a.
Proof.
  intros c s. induction s as [|x s IH]; intros a b; cbn [cut]; [split; [discriminate|intros [H _]; destruct a; discriminate]|].
  destruct (ceqb x c) eqn:E.
  - apply ceqb_eq in E. subst x. split; [intros H; injection H as <- <-; split; [reflexivity|intros []]|].
    intros [H N]. destruct a as [|y a]; [injection H as <-; reflexivity|]. injection H as <- _. elim N. now left.
  - apply ceqb_neq in E. split.
    + destruct (cut c s) as [[a' b']|] eqn:C; [|discriminate]. intros H. injection H as <- <-. destruct (proj1 (IH a' b') eq_refl) as [-> N].
      split; [reflexivity|]. intros [I|I]; auto.
    + intros [H N]. destruct a as [|y a]; [injection H as <- _; now elim E|]. injection H as <- ->.
      replace (cut c (a ++ c :: b)) with (Some (a, b)); [reflexivity|]. symmetry. apply IH. split; [reflexivity|]. intros I. apply N. now right.
Qed.
Lemma cut_none : forall c s, cut c s = None <-> ~ In c s.
Proof.
  intros c s. split.
  - intros H I. apply in_split in I as (a & b & E). revert s H E. induction a as [|y a IH]; intros s H ->; cbn [app cut] in H.
    + destruct (ceqb c c) eqn:E; [discriminate|]. apply ceqb_neq in E. congruence.
    + destruct (ceqb y c); [discriminate|]. destruct (cut c (a ++ c :: b)) as [[? ?]|] eqn:C; [discriminate|]. now apply (IH (a ++ c :: b)).
  - intros N. destruct (cut c s) as [[a b]|] eqn:C; [|reflexivity]. apply cut_some in C as [-> _]. elim N. apply in_or_app. right. now left.
Qed.
Lemma digits_iff : forall n, forallb is_digit n = false <-> exists c, In c n /\ (nat_of_ascii c < 48 \/ 57 < nat_of_ascii c).
Proof.
  intros n. split.
  - induction n as [|c n IH]; [discriminate|]. cbn [forallb]. intros H. destruct (is_digit c) eqn:D; cbn [andb] in H.
    + destruct (IH H) as (d & I & K). exists d. split; [now right|exact K].
    + exists c. split; [now left|]. unfold is_digit in D. apply andb_false_iff in D as [D|D]; apply Nat.leb_gt in D; lia.
  - intros (c & I & K). apply not_true_iff_false. intros F. rewrite forallb_forall in F. specialize (F c I). unfold is_digit in F.
    apply andb_true_iff in F as [F1 F2]. apply Nat.leb_le in F1, F2. lia.
Qed.
Section Show.
Variable show_list : list str -> str.
Lemma format_field_iff : forall v spec t, format_field show_list v spec = Ok t <-> Field show_list v spec t.
Proof.
  intros v spec t. unfold format_field, Field. destruct (seqb spec []) eqn:E0.
  - apply seqb_eq in E0. subst. split; [intros H; injection H as <-; now left|]. intros [[_ ->]|[[H _]|[H _]]]; [reflexivity|discriminate|discriminate].
  - apply seqb_neq in E0. destruct (seqb spec (s_ "s")) eqn:E1.
    + apply seqb_eq in E1. subst. split; [destruct v; try discriminate; intros H; injection H as <-; auto|].
      intros [[H _]|[[_ ->]|[H _]]]; [discriminate|reflexivity|discriminate].
    + apply seqb_neq in E1. destruct (seqb spec (s_ "d")) eqn:E2.
      * apply seqb_eq in E2. subst. split; [destruct v; try discriminate; intros H; injection H as <-; eauto 6|].
        intros [[H _]|[[H _]|[_ (z & -> & ->)]]]; [discriminate|discriminate|reflexivity].
      * apply seqb_neq in E2. split; [discriminate|]. intros [[H _]|[[H _]|[H _]]]; contradiction.
Qed.
Lemma name_iff : forall n, ~ In lbrace n -> ~ In rbrace n -> ~ In colon n ->
  (existsb (fun c => existsb (ceqb c) n) (s_ "[.!") = false /\ forallb is_digit n = false <-> Name n).
Proof.
  intros n N1 N2 N3. unfold Name. rewrite <- digits_iff. split; intros [H1 H2]; (split; [|exact H2]).
  - intros c I J. assert (K : In c (s_ "[.!") -> False).
    { intros I'. assert (X : existsb (fun c => existsb (ceqb c) n) (s_ "[.!") = true); [|congruence]. apply existsb_exists. exists c. split; [exact I'|]. now apply existsb_ceqb. }
    cbn in I. destruct I as [<-|[<-|[<-|[<-|[<-|[<-|[]]]]]]]; try contradiction; apply K; cbn; auto.
  - apply not_true_iff_false. intros E. apply existsb_exists in E as (c & I & E). apply existsb_ceqb in E. revert E. apply H1. cbn in I |- *. tauto.
Qed.
Lemma field_iff : forall look f t, ~ In lbrace f -> ~ In rbrace f ->
  (field_value show_list look f = Ok t <-> exists n v, Name n /\ look n = Some v /\
    ((f = n /\ Field show_list v [] t) \/ exists spec, f = n ++ colon :: spec /\ Field show_list v spec t)).
Proof.
  intros look f t N1 N2. unfold field_value. destruct (cut colon f) as [[n spec]|] eqn:C.
  - apply cut_some in C as [-> Nc]. assert (M1 : ~ In lbrace n) by (intros I; apply N1, in_or_app; auto). assert (M2 : ~ In rbrace n) by (intros I; apply N2, in_or_app; auto).
    pose proof (name_iff n M1 M2 Nc) as NI. split.
    + destruct (existsb (fun c => existsb (ceqb c) n) (s_ "[.!") || existsb (ceqb "!"%char) spec) eqn:E; [discriminate|]. apply orb_false_iff in E as [E _].
      destruct (forallb is_digit n); [discriminate|]. destruct (look n) as [v|] eqn:L; [|discriminate]. intros H. apply format_field_iff in H.
      exists n, v. split; [apply NI; auto|]. split; [exact L|]. right. eauto.
    + intros (m & v & Nm & L & H). assert (m = n /\ Field show_list v spec t) as [-> F].
      { destruct H as [[H F]|(sp & H & F)].
        - exfalso. apply (proj1 Nm colon); [cbn; tauto|]. rewrite <- H. apply in_or_app. right. now left.
        - assert (X : cut colon (m ++ colon :: sp) = Some (m, sp)) by (apply cut_some; split; [reflexivity|apply (proj1 Nm); cbn; tauto]).
          assert (Y : cut colon (n ++ colon :: spec) = Some (n, spec)) by (apply cut_some; split; [reflexivity|exact Nc]).
          rewrite H, X in Y. injection Y as -> ->. auto. }
      apply NI in Nm as [E1 E2]. rewrite E1, E2. cbn [orb]. replace (existsb (ceqb "!"%char) spec) with false.
      * rewrite L. now apply format_field_iff.
      * symmetry. destruct F as [[-> _]|[[-> _]|[-> _]]]; reflexivity.
  - apply cut_none in C. pose proof (name_iff f N1 N2 C) as NI. split.
    + cbn [existsb]. rewrite orb_false_r. destruct (existsb (fun c => existsb (ceqb c) f) (s_ "[.!")) eqn:E; [discriminate|].
      destruct (forallb is_digit f); [discriminate|]. destruct (look f) as [v|] eqn:L; [|discriminate]. intros H. apply format_field_iff in H.
      exists f, v. split; [apply NI; auto|]. split; [exact L|]. left. auto.
    + intros (m & v & Nm & L & [[<- F]|(sp & -> & F)]); [|exfalso; apply C, in_or_app; right; now left].
      apply NI in Nm as [E1 E2]. rewrite E1, E2. cbn [orb existsb]. rewrite L. now apply format_field_iff.
Qed.
Lemma fmt_field : forall look s f, ~ In lbrace f -> ~ In rbrace f -> forall r, fmt show_list look (Some f) s = Ok r <->
  exists g s' t r', s = g ++ rbrace :: s' /\ ~ In lbrace g /\ ~ In rbrace g /\ field_value show_list look (f ++ g) = Ok t /\ fmt show_list look None s' = Ok r' /\ r = t ++ r'.
Proof.
  intros look s. induction s as [|c s IH]; intros f N1 N2 r.
  - cbn [fmt]. split; [discriminate|]. intros (g & s' & t & r' & E & _). destruct g; discriminate.
  - cbn [fmt]. destruct (ceqb c rbrace) eqn:E.
    + apply ceqb_eq in E. subst c. split.
      * destruct (field_value show_list look f) as [t|] eqn:F; [|discriminate]. cbn [rbind]. destruct (fmt show_list look None s) as [r'|] eqn:G; [|discriminate]. cbn [rbind].
        intros H. injection H as <-. exists [], s, t, r'. rewrite app_nil_r. repeat split; auto.
      * intros (g & s' & t & r' & H & _ & Ng & F & G & ->). destruct g as [|x g]; [|injection H as <- _; elim Ng; now left].
        injection H as <-. rewrite app_nil_r in F. rewrite F. cbn [rbind]. now rewrite G.
    + apply ceqb_neq in E. destruct (ceqb c lbrace) eqn:E2.
      * apply ceqb_eq in E2. subst c. split; [discriminate|]. intros (g & s' & t & r' & H & Ng & _). destruct g as [|x g]; [injection H as H _; discriminate|].
        injection H as <- _. elim Ng. now left.
      * apply ceqb_neq in E2. rewrite IH.
        -- split.
           ++ intros (g & s' & t & r' & -> & A & B & F & G & ->). rewrite <- app_assoc in F. exists (c :: g), s', t, r'. repeat split; auto; intros [I|I]; auto.
           ++ intros (g & s' & t & r' & H & A & B & F & G & ->). destruct g as [|x g]; [injection H as H _; contradiction|]. injection H as <- ->.
              exists g, s', t, r'. rewrite <- app_assoc. repeat split; auto; intros I; [apply A|apply B]; now right.
        -- intros I. apply in_app_or in I as [I|[I|[]]]; auto.
        -- intros I. apply in_app_or in I as [I|[I|[]]]; auto.
Qed.
Lemma fmt_iff : forall look s r, fmt show_list look None s = Ok r <-> Formats show_list look s r.
Proof.
  intros look s r. split.
  - remember (length s) as n eqn:Hn. revert s Hn r. induction n as [n IH] using lt_wf_ind. intros s -> r H. destruct s as [|c s]; [injection H as <-; constructor|].
    cbn [fmt] in H. destruct (ceqb c lbrace) eqn:E.
    + apply ceqb_eq in E. subst c. destruct s as [|d s]; [discriminate|]. destruct (ceqb d lbrace) eqn:E.
      * apply ceqb_eq in E. subst d. destruct (fmt show_list look None s) as [r'|] eqn:F; [|discriminate]. injection H as <-. apply F_open. apply (IH (length s)); cbn; auto.
      * apply fmt_field in H; [|intros []|intros []]. destruct H as (g & s' & t & r' & E' & A & B & F & G & ->). rewrite E'. cbn [app] in F.
        apply field_iff in F; auto. assert (G' : Formats show_list look s' r').
        { apply (IH (length s')); auto. rewrite E'. cbn [length]. rewrite app_length. cbn [length]. lia. }
        destruct F as (m & v & Nm & L & [[-> K]|(sp & -> & K)]).
        -- exact (F_field _ _ m v t s' r' Nm L K G').
        -- rewrite <- app_assoc. exact (F_spec _ _ m sp v t s' r' Nm L K G').
    + apply ceqb_neq in E. destruct (ceqb c rbrace) eqn:E2.
      * apply ceqb_eq in E2. subst c. destruct s as [|d s]; [discriminate|]. destruct (ceqb d rbrace) eqn:E2; [|discriminate]. apply ceqb_eq in E2. subst d.
        destruct (fmt show_list look None s) as [r'|] eqn:F; [|discriminate]. injection H as <-. apply F_close. apply (IH (length s)); cbn; auto.
      * apply ceqb_neq in E2. destruct (fmt show_list look None s) as [r'|] eqn:F; [|discriminate]. injection H as <-. apply F_char; auto. apply (IH (length s)); cbn; auto.
  - assert (Enter : forall g s' t r', ~ In lbrace g -> ~ In rbrace g -> field_value show_list look g = Ok t -> fmt show_list look None s' = Ok r' ->
      fmt show_list look None (lbrace :: g ++ rbrace :: s') = Ok (t ++ r')).
    { intros g s' t r' A B F G. assert (X : fmt show_list look (Some []) (g ++ rbrace :: s') = Ok (t ++ r')).
      { apply fmt_field; [intros []|intros []|]. exists g, s', t, r'. repeat split; auto. }
      cbn [fmt]. change (ceqb lbrace lbrace) with true. cbv iota. destruct g as [|d g]; [exact X|]. cbn [app]. destruct (ceqb d lbrace) eqn:E; [|exact X].
      apply ceqb_eq in E. subst d. elim A. now left. }
    induction 1 as [|c s r N1 N2 H IH|s r H IH|s r H IH|n v t s r Nn L K H IH|n sp v t s r Nn L K H IH].
    + reflexivity.
    + cbn [fmt]. apply ceqb_neq in N1, N2. unfold lbrace, rbrace. rewrite N1, N2, IH. reflexivity.
    + cbn [fmt]. change (ceqb "{" lbrace) with true. cbv iota. now rewrite IH.
    + cbn [fmt]. change (ceqb "}" lbrace) with false. change (ceqb "}" rbrace) with true. cbv iota. now rewrite IH.
    + assert (A : ~ In lbrace n) by (apply (proj1 Nn); cbn; tauto). assert (B : ~ In rbrace n) by (apply (proj1 Nn); cbn; tauto).
      apply Enter; auto. apply field_iff; auto. exists n, v. auto.
    + assert (A : ~ In lbrace n) by (apply (proj1 Nn); cbn; tauto). assert (B : ~ In rbrace n) by (apply (proj1 Nn); cbn; tauto).
      assert (C : forall c, c <> "s"%char -> c <> "d"%char -> c <> colon -> ~ In c n -> ~ In c (n ++ colon :: sp)).
      { intros c Hs Hd Hc Hn I. apply in_app_or in I as [I|[I|I]]; auto. destruct K as [[-> _]|[[-> _]|[-> _]]]; [destruct I|destruct I as [I|[]]|destruct I as [I|[]]]; auto. }
      change (("{"%char :: n) ++ (":"%char :: sp) ++ "}"%char :: s) with (lbrace :: n ++ (colon :: sp) ++ rbrace :: s). rewrite app_assoc. apply Enter; auto; try (apply C; auto; discriminate).
      apply field_iff; try (apply C; auto; discriminate). exists n, v. split; [exact Nn|]. split; [exact L|]. right. eauto.
Qed.
End Show.

(** * Products *)
Lemma product_in : forall A (ls : list (list A)) x, In x (product ls) <-> Forall2 (fun v l => In v l) x ls.
Proof.
  induction ls as [|l ls IH]; intros x; cbn [product].
  - split; [intros [<-|[]]; constructor|]. intros H. inversion H. now left.
  - rewrite in_flat_map. split.
    + intros (v & I & J). apply in_map_iff in J as (y & <- & J). constructor; [exact I|now apply IH].
    + intros H. inversion H as [|v l' y ls' I F]; subst. exists v. split; [exact I|]. apply in_map. now apply IH.
Qed.
Lemma product_length : forall A (ls : list (list A)), length (product ls) = fold_right (fun l n => length l * n) 1 ls.
Proof.
  induction ls as [|l ls IH]; [reflexivity|]. cbn [product fold_right]. rewrite <- IH. clear. induction l as [|x l IH]; [reflexivity|].
  cbn [flat_map length]. rewrite app_length, map_length, IH. reflexivity.
Qed.
Lemma nodup_app : forall A (l m : list A), NoDup l -> NoDup m -> (forall x, In x l -> In x m -> False) -> NoDup (l ++ m).
Proof.
  intros A l m N M D. induction N as [|x l I N IH]; [exact M|]. cbn [app]. constructor; [|apply IH; intros y J; apply D; now right].
  intros J. apply in_app_or in J as [J|J]; [contradiction|]. apply (D x); [now left|exact J].
Qed.
Lemma product_nodup : forall A (ls : list (list A)), Forall (@NoDup A) ls -> NoDup (product ls).
Proof.
  intros A ls F. induction F as [|l ls N F IH]; cbn [product]; [constructor; [intros []|constructor]|].
  induction N as [|x l I N IHl]; cbn [flat_map]; [constructor|]. apply nodup_app; auto.
  - clear - IH. induction IH as [|y p I N IHp]; cbn [map]; constructor; auto. intros J. apply in_map_iff in J as (z & E & J). injection E as ->. contradiction.
  - intros y J K. apply in_map_iff in J as (p & <- & J). apply in_flat_map in K as (x' & I' & K). apply in_map_iff in K as (p' & E & K). injection E as -> ->. contradiction.
Qed.

(** * Variables *)
Definition render (d : str * list str) : str := fst d ++ equals :: join comma (snd d).
Lemma vardict_render : forall d d0, NoDup (map fst (d0 ++ d)) -> (forall n vals, In (n, vals) d -> ~ In equals n /\ vals <> [] /\ forall v, In v vals -> ~ In comma v) ->
  vardict (map render d) d0 = Ok (d0 ++ d).
Proof.
  induction d as [|[n vals] d IH]; intros d0 N H; cbn [map vardict]; [now rewrite app_nil_r|].
  destruct (H n vals (or_introl eq_refl)) as (Hn & Hv & Hc).
  assert (C : cut equals (render (n, vals)) = Some (n, join comma vals)) by (apply cut_some; split; [reflexivity|exact Hn]). rewrite C.
  rewrite split_join by auto. assert (P : dput n vals d0 = d0 ++ [(n, vals)]).
  { rewrite map_app in N. cbn [map fst] in N. apply NoDup_remove_2 in N. clear - N. induction d0 as [|[k v] d0 IH]; [reflexivity|]. cbn [dput app].
    destruct (seqb n k) eqn:E; [apply seqb_eq in E; subst; elim N; now left|]. f_equal. apply IH. intros I. apply N. now right. }
  transitivity (vardict (map render d) (d0 ++ [(n, vals)])); [exact (f_equal (vardict (map render d)) P)|].
  rewrite IH; [now rewrite <- app_assoc| |intros; apply H; now right]. now rewrite <- app_assoc.
Qed.
Lemma expand_all_ok : forall show_list template names body combos, (forall vs, In vs combos -> exists t, format show_list template (combine names (map VStr vs)) = Ok t) ->
  (forall t, body t = Ok tt) ->
  exists texts, expand_all show_list template names body combos = (texts, Ok tt) /\ Forall2 (fun vs t => format show_list template (combine names (map VStr vs)) = Ok t) combos texts.
Proof.
  intros show_list template names body combos. induction combos as [|vs combos IH]; intros F B; cbn [expand_all]; [exists []; split; [reflexivity|constructor]|].
  destruct (F vs (or_introl eq_refl)) as (t & T). rewrite T, B. destruct IH as (texts & E & F2); [intros; apply F; now right|exact B|]. rewrite E. exists (t :: texts). split; [reflexivity|now constructor].
Qed.
Lemma expand_all_fails : forall show_list template names body combos texts r, expand_all show_list template names body combos = (texts, r) ->
  exists done rest, combos = done ++ rest /\ Forall2 (fun vs t => format show_list template (combine names (map VStr vs)) = Ok t) done texts /\
  (r = Ok tt -> rest = []) /\ (forall e, r = Err e -> (exists t, last texts [] = t /\ body t = Err e /\ texts <> []) \/ (exists vs rest', rest = vs :: rest' /\ format show_list template (combine names (map VStr vs)) = Err e)).
Proof.
  intros show_list template names body combos. induction combos as [|vs combos IH]; intros texts r H; cbn [expand_all] in H.
  - injection H as <- <-. exists [], []. split; [reflexivity|]. split; [constructor|]. split; [reflexivity|]. intros e He; discriminate He.
  - destruct (format show_list template (combine names (map VStr vs))) as [t|e] eqn:T.
    + destruct (body t) as [[]|e] eqn:B.
      * destruct (expand_all show_list template names body combos) as [ts r'] eqn:E. injection H as <- <-. destruct (IH ts r' eq_refl) as (dn & rest & -> & F2 & A & C).
        exists (vs :: dn), rest. split; [reflexivity|]. split; [now constructor|]. split; [exact A|]. intros e He. destruct (C e He) as [(t' & L & K & N)|K]; [|now right]. left.
        exists t'. split; [|split; [exact K|discriminate]]. destruct ts; [now elim N|exact L].
      * injection H as <- <-. exists [vs], combos. split; [reflexivity|]. split; [repeat constructor; exact T|]. split; [discriminate|].
        intros e' H. injection H as <-. left. exists t. repeat split; auto. discriminate.
    + injection H as <- <-. exists [], (vs :: combos). split; [reflexivity|]. split; [constructor|]. split; [discriminate|]. intros e' H. injection H as <-. right. eauto.
Qed.

(** * Fields of a text *)
Fixpoint fields (mode : option str) (s : str) : option (list str) :=
  match mode with
  | None =>
      match s with
      | [] => Some []
      | c :: s1 =>
          if ceqb c lbrace then match s1 with d :: s2 => if ceqb d lbrace then fields None s2 else fields (Some []) s1 | [] => None end
          else if ceqb c rbrace then match s1 with d :: s2 => if ceqb d rbrace then fields None s2 else None | [] => None end
          else fields None s1
      end
  | Some f =>
      match s with
      | [] => None
      | c :: s => if ceqb c rbrace then match fields None s with Some l => Some (f :: l) | None => None end
                  else if ceqb c lbrace then None else fields (Some (f ++ [c])) s
      end
  end.
Lemma fmt_fields : forall show_list look s mode l, fields mode s = Some l ->
  ((exists r, fmt show_list look mode s = Ok r) <-> forall f, In f l -> exists t, field_value show_list look f = Ok t).
Proof.
  intros show_list look. assert (X : forall n s mode l, length s <= n -> fields mode s = Some l ->
    ((exists r, fmt show_list look mode s = Ok r) <-> forall f, In f l -> exists t, field_value show_list look f = Ok t)).
  { induction n as [|n IH]; intros s mode l L H.
    - destruct s; [|cbn in L; lia]. destruct mode; [discriminate|]. injection H as <-. cbn [fmt]. split; [intros _ f []|eauto].
    - assert (Y : forall s' c, length s' <= n -> fields None s' = Some l ->
        ((exists r, rbind (fmt show_list look None s') (fun r => Ok (c :: r)) = Ok r) <-> forall f, In f l -> exists t, field_value show_list look f = Ok t)).
      { intros s' c L' H'. rewrite <- (IH s' None l L' H'). split; intros [r E]; [destruct (fmt show_list look None s'); [eauto|discriminate]|rewrite E; cbn [rbind]; eauto]. }
      destruct mode as [f|], s as [|c s]; cbn [fields fmt] in *; try discriminate.
      + destruct (ceqb c rbrace).
        * destruct (fields None s) as [l'|] eqn:F; [|discriminate]. injection H as <-. pose proof (IH s None l' ltac:(cbn in L; lia) F) as I. split.
          -- intros [r E]. destruct (field_value show_list look f) as [t|] eqn:FV; [|discriminate]. cbn [rbind] in E. destruct (fmt show_list look None s) as [r'|]; [|discriminate].
             intros g [<-|J]; [eauto|]. apply I; eauto.
          -- intros A. destruct (A f (or_introl eq_refl)) as [t ->]. cbn [rbind]. destruct (proj2 I) as [r E]; [intros; apply A; now right|]. rewrite E. cbn [rbind]. eauto.
        * destruct (ceqb c lbrace); [discriminate|]. apply IH; [cbn in L; lia|exact H].
      + injection H as <-. split; [intros _ f []|eauto].
      + destruct (ceqb c lbrace).
        * destruct s as [|d s]; [discriminate|]. destruct (ceqb d lbrace); [apply Y; [cbn in L; lia|exact H]|apply IH; [cbn in L |- *; lia|exact H]].
        * destruct (ceqb c rbrace); [|apply Y; [cbn in L; lia|exact H]]. destruct s as [|d s]; [discriminate|]. destruct (ceqb d rbrace); [|discriminate]. apply Y; [cbn in L; lia|exact H]. }
  intros s mode l. apply (X (length s)). lia.
Qed.
Definition simple (f : str) : option (str * str) :=
  match cut colon f with
  | Some (name, spec) => if existsb (fun c => existsb (ceqb c) name) (s_ "[.!") || existsb (ceqb "!"%char) spec || forallb is_digit name then None else Some (name, spec)
  | None => None
  end.
Lemma simple_value : forall show_list look f n spec, simple f = Some (n, spec) ->
  field_value show_list look f = match look n with Some v => format_field show_list v spec | None => Err KeyError end.
Proof.
  intros show_list look f n spec. unfold simple, field_value. destruct (cut colon f) as [[a b]|]; [|discriminate].
  destruct (existsb _ (s_ "[.!") || existsb (ceqb "!"%char) b); cbn [orb]; [discriminate|]. destruct (forallb is_digit a); [discriminate|]. intros H. injection H as -> ->. reflexivity.
Qed.

(** * Jobs *)
Lemma infix_iff : forall a s, infix a s = true <-> Inside a s.
Proof.
  intros a s. induction s as [|c s IH]; cbn [infix]; rewrite orb_true_iff, startswith_spec.
  - split.
    + intros [[t E]|E]; [|discriminate]. exists [], t. exact E.
    + intros (x & y & E). left. destruct x; [|discriminate]. exists y. exact E.
  - rewrite IH. split.
    + intros [[t E]|(x & y & ->)]; [exists [], t; exact E|exists (c :: x), y; reflexivity].
    + intros (x & y & E). destruct x as [|d x]; [left; exists y; exact E|]. injection E as <- ->. right. exists x, y. reflexivity.
Qed.
Lemma queue_cases : forall fs j o s m b fs' sub r, queue fs j o s m b = (fs', sub, r) ->
  (dget (workdir j) fs <> None -> fs' = fs) /\ dget (workdir j) fs' <> None /\ (forall w, dget w fs <> None -> dget w fs' = dget w fs) /\
  (sub = true -> b = true /\ r = Ok tt /\ (dget (workdir j) fs <> None -> o <> s_ "never" /\ forall st, dget (workdir j) fs = Some (Some st) -> o = s_ "failed" -> ~ Inside (s_ "FINISHED") st)).
Proof.
  intros fs j o s m b fs' sub r H. unfold queue, create_job_directories in H. destruct (dget (workdir j) fs) as [st|] eqn:G.
  - assert (X : fs' = fs /\ (sub = true -> b = true /\ r = Ok tt /\ o <> s_ "never" /\ (o = s_ "failed" -> forall st', st = Some st' -> ~ Inside (s_ "FINISHED") st'))).
    { destruct (seqb o (s_ "never")) eqn:E; [injection H as <- <- <-; split; [reflexivity|discriminate]|].
      destruct (seqb o (s_ "failed") && match st with Some c => infix (s_ "FINISHED") c | None => false end) eqn:F; [injection H as <- <- <-; split; [reflexivity|discriminate]|].
      apply seqb_neq in E. assert (K : o = s_ "failed" -> forall st', st = Some st' -> ~ Inside (s_ "FINISHED") st').
      { intros -> st' ->. rewrite seqb_refl in F. cbn [andb] in F. intros I. apply infix_iff in I. congruence. }
      destruct s as [u|e]; [destruct m as [v|e]|]; injection H as <- <- <-; split; auto; try discriminate. }
    destruct X as [-> X]. repeat split; auto; try congruence; try (apply X; assumption). intros st' E Eo. injection E as ->. apply (proj2 (proj2 (proj2 (X H0))) Eo). reflexivity.
  - assert (X : fs' = dput (workdir j) None fs /\ (sub = true -> b = true /\ r = Ok tt)).
    { destruct s as [u|e]; [destruct m as [v|e]|]; injection H as <- <- <-; split; auto; discriminate. }
    destruct X as [-> X]. split; [congruence|]. rewrite dget_dput_same. split; [discriminate|]. split.
    + intros w Hw. apply dget_dput_other. intros ->. contradiction.
    + intros Hs. destruct (X Hs) as [-> ->]. repeat split; auto; congruence.
Qed.

(** * Virtual environments *)
Lemma move_new_ok : forall prev items path new,
  let out := fun x => negb (existsb (seqb x) prev) in filter out path = filter out items ->
  move_new items prev path new = new ++ filter out items ++ filter (fun x => existsb (seqb x) prev) path.
Proof.
  intros prev items. induction items as [|x items IH]; intros path new out H; cbn [move_new filter].
  - cbn [app]. f_equal. cbn [filter] in H. clear - H. induction path as [|y path IH]; [reflexivity|]. cbn [filter] in H |- *. unfold out in *.
    destruct (existsb (seqb y) prev); cbn [negb] in H; [f_equal; now apply IH|discriminate].
  - cbn [filter] in H. unfold out in *. destruct (existsb (seqb x) prev) eqn:E; cbn [negb] in *; [now apply IH|].
    assert (R : filter out (remove_first x path) = filter out items /\ filter (fun x => existsb (seqb x) prev) (remove_first x path) = filter (fun x => existsb (seqb x) prev) path).
    { unfold out. clear - E H. induction path as [|y path IH]; [discriminate|]. cbn [filter remove_first] in *. destruct (seqb y x) eqn:S.
      - apply seqb_eq in S. subst y. rewrite E in *. cbn [negb] in H. injection H as H. auto.
      - apply seqb_neq in S. cbn [filter]. destruct (existsb (seqb y) prev); cbn [negb] in *.
        + destruct (IH H) as [A B]. split; [exact A|]. now rewrite B.
        + injection H as H _. contradiction. }
    destruct R as [R1 R2]. rewrite (IH _ (new ++ [x]) R1), R2. now rewrite <- app_assoc.
Qed.
