(** Writing a value as JSON and reading it back. *)
From Coq Require Import String.
From Coq Require Import Decimal DecimalFacts DecimalN.
From Coq Require Import Datatypes List Ascii Bool Arith ZArith NArith Lia.
From Verif Require Import PyBase PyStr MemModel MemProofs MemProofs2 JsonModel JsonSpec.
Import ListNotations.
Open Scope list_scope.
Open Scope nat_scope.

Section AvInd.
Variable P : av -> Prop.
Hypothesis HNone : P ANone.
Hypothesis HBool : forall b, P (ABool b).
Hypothesis HInt : forall z, P (AInt z).
Hypothesis HFloat : forall s, P (AFloat s).
Hypothesis HStr : forall s, P (AStr s).
Hypothesis HBytes : forall s, P (ABytes s).
Hypothesis HDate : forall s, P (ADate s).
Hypothesis HNp : forall z, P (ANpInt z).
Hypothesis HList : forall l, Forall P l -> P (AList l).
Hypothesis HDict : forall kv, Forall (fun x => P (snd x)) kv -> P (ADict kv).
Hypothesis HArr : forall l, Forall P l -> P (AArr l).
Fixpoint av_ind' (v : av) : P v :=
  let fix go (l : list av) : Forall P l :=
    match l with [] => Forall_nil _ | x :: r => Forall_cons x (av_ind' x) (go r) end in
  match v with
  | ANone => HNone | ABool b => HBool b | AInt z => HInt z | AFloat s => HFloat s | AStr s => HStr s
  | ABytes s => HBytes s | ADate s => HDate s | ANpInt z => HNp z
  | AList l => HList l (go l)
  | AArr l => HArr l (go l)
  | ADict kv => HDict kv
      ((fix gd (l : list (str * av)) : Forall (fun x => P (snd x)) l :=
          match l with [] => Forall_nil _ | x :: r => Forall_cons x (av_ind' (snd x)) (gd r) end) kv)
  end.
End AvInd.

(** *** The loops by name *)
Fixpoint enc_list (l : list av) : res (list str) :=
  match l with
  | [] => Ok []
  | x :: r => rbind (enc x) (fun a => rbind (enc_list r) (fun b => Ok (a :: b)))
  end.
Fixpoint enc_dict (kv : list (str * av)) : res (list str) :=
  match kv with
  | [] => Ok []
  | (k, x) :: r => rbind (enc x) (fun a => rbind (enc_dict r) (fun b => Ok ((quoted k ++ s_ ": " ++ a) :: b)))
  end.
Lemma enc_AList : forall l, enc (AList l) = rbind (enc_list l) (fun parts => Ok ("["%char :: commas parts ++ ["]"%char])).
Proof. reflexivity. Qed.
Lemma enc_ADict : forall l, enc (ADict l) = rbind (enc_dict l) (fun parts => Ok ("{"%char :: commas parts ++ ["}"%char])).
Proof. reflexivity. Qed.
Lemma enc_AArr : forall l, enc (AArr l) = match l with [x] => enc x | _ => enc (AList l) end.
Proof. intros [|x [|y l]]; reflexivity. Qed.

Section Loops.
Variable fuel : nat.
Fixpoint parr (n : nat) (s : str) : res (list av * str) :=
  match n with
  | 0 => Err OtherException
  | S n =>
      rbind (pval fuel s) (fun '(v, r) =>
      match skip_ws r with
      | c :: r1 => if ceqb c "]"%char then Ok ([v], r1)
                   else if ceqb c ","%char then
                     rbind (parr n (skip_ws r1)) (fun '(vs, r2) => Ok (v :: vs, r2))
                   else Err ValueError
      | [] => Err ValueError
      end)
  end.
Fixpoint pobj (n : nat) (s : str) : res (list (str * av) * str) :=
  match n, s with
  | 0, _ => Err OtherException
  | S n, q :: s1 =>
      if ceqb q quot then
        rbind (pstr s1) (fun '(k, r) =>
        match skip_ws r with
        | c :: r1 =>
            if ceqb c ":"%char then
              rbind (pval fuel (skip_ws r1)) (fun '(v, r2) =>
              match skip_ws r2 with
              | c :: r3 => if ceqb c "}"%char then Ok ([(k, v)], r3)
                           else if ceqb c ","%char then
                             rbind (pobj n (skip_ws r3)) (fun '(kvs, r4) => Ok ((k, v) :: kvs, r4))
                           else Err ValueError
              | [] => Err ValueError
              end)
            else Err ValueError
        | [] => Err ValueError
        end)
      else Err ValueError
  | S _, [] => Err ValueError
  end.
End Loops.
Lemma pval_eq : forall fuel s, pval (S fuel) s =
  match s with
  | [] => Err ValueError
  | c :: r =>
      if ceqb c quot then rbind (pstr r) (fun '(x, r) => Ok (AStr x, r))
      else if ceqb c "{"%char then
        match skip_ws r with
        | d :: r1 => if ceqb d "}"%char then Ok (ADict [], r1)
                     else rbind (pobj fuel (length r) (skip_ws r)) (fun '(kvs, r2) =>
                          Ok (ADict (fold_left (fun m '(k, v) => dput k v m) kvs []), r2))
        | [] => Err ValueError
        end
      else if ceqb c "["%char then
        match skip_ws r with
        | d :: r1 => if ceqb d "]"%char then Ok (AList [], r1)
                     else rbind (parr fuel (length r) (skip_ws r)) (fun '(vs, r2) => Ok (AList vs, r2))
        | [] => Err ValueError
        end
      else match lit_after (s_ "null") s with
      | Some r => Ok (ANone, r)
      | None => match lit_after (s_ "true") s with
      | Some r => Ok (ABool true, r)
      | None => match lit_after (s_ "false") s with
      | Some r => Ok (ABool false, r)
      | None => match lit_after (s_ "NaN") s with
      | Some r => Ok (AFloat (s_ "NaN"), r)
      | None => match lit_after (s_ "Infinity") s with
      | Some r => Ok (AFloat (s_ "Infinity"), r)
      | None => match lit_after (s_ "-Infinity") s with
      | Some r => Ok (AFloat (s_ "-Infinity"), r)
      | None => pnum s
      end end end end end end
  end.
Proof. reflexivity. Qed.

(** *** Strings *)
Lemma pstr_char : forall c rest, pstr (qchar c ++ rest) = addc c (pstr rest).
Proof.
  intros c rest. destruct c as [[] [] [] [] [] [] [] []]; reflexivity.
Qed.
Lemma pstr_body : forall s rest, pstr (qbody s ++ quot :: rest) = Ok (s, rest).
Proof.
  induction s as [|c s IH]; intro rest; [reflexivity|].
  unfold qbody. cbn [map concat]. fold (qbody s). rewrite <- app_assoc, pstr_char, IH. reflexivity.
Qed.
Lemma pstr_quoted : forall s rest, exists r, quoted s ++ rest = quot :: r /\ pstr r = Ok (s, rest).
Proof.
  intros s rest. exists (qbody s ++ quot :: rest). split; [|apply pstr_body].
  unfold quoted. rewrite <- app_comm_cons, <- app_assoc. reflexivity.
Qed.

(** *** Numbers *)
Definition okc (c : ascii) : Prop := In c [","; "]"; "}"]%char.
Definition okrest (r : str) : Prop := match r with [] => True | c :: _ => okc c end.

Lemma is_digit_range : forall c, is_digit c = true <-> 48 <= nat_of_ascii c <= 57.
Proof.
  intro c. unfold is_digit, digit. cbn zeta.
  destruct ((48 <=? nat_of_ascii c) && (nat_of_ascii c <=? 57)) eqn:E0.
  - apply andb_prop in E0 as [E1 E2]. apply Nat.leb_le in E1, E2. split; [lia|reflexivity].
  - split; [discriminate|]. intros [H1 H2]. apply Nat.leb_le in H1, H2. rewrite H1, H2 in E0. discriminate.
Qed.
Definition stop (p : ascii -> bool) (r : str) : Prop := match r with [] => True | c :: _ => p c = false end.
Lemma span_stop : forall p a r, Forall (fun c => p c = true) a -> stop p r -> span p (a ++ r) = (a, r).
Proof.
  intros p a r H Hr. induction H as [|c a Hc H IH]; cbn [app].
  - destruct r as [|c r]; cbn in *; [reflexivity|]. now rewrite Hr.
  - cbn [span]. now rewrite Hc, IH.
Qed.
Lemma digits_span : forall a r, Digits a -> stop is_digit r -> span is_digit (a ++ r) = (a, r).
Proof.
  intros a r H Hr. apply span_stop; [|assumption]. eapply Forall_impl; [|exact H]. intros c Hc. now apply is_digit_range.
Qed.
Lemma okrest_digit : forall r, okrest r -> stop is_digit r.
Proof. intros [|c r] H; [exact I|]. destruct H as [<-|[<-|[<-|[]]]]; reflexivity. Qed.

Lemma uint_digits : forall u, Digits (uint_str u).
Proof. induction u; cbn [uint_str]; constructor; try assumption; cbn; lia. Qed.
Lemma str_uint_str : forall u, str_uint (uint_str u) = u.
Proof. induction u; cbn [uint_str]; [reflexivity|..]; cbn; now rewrite IHu. Qed.
Lemma to_uint_shape : forall n, uint_str (N.to_uint n) = s_ "0" \/
  exists d ds, uint_str (N.to_uint n) = d :: ds /\ d <> "0"%char.
Proof.
  intro n. assert (E : N.to_uint n = unorm (N.to_uint n)).
  { rewrite <- DecimalN.Unsigned.to_of. now rewrite DecimalN.Unsigned.of_to. }
  rewrite E. unfold unorm. destruct (nzhead (N.to_uint n)) eqn:EN; try (right; eexists; eexists; split; [reflexivity|discriminate]).
  - left. reflexivity.
  - exfalso. exact (nzhead_nonzero _ _ EN).
Qed.
Lemma to_uint_int : forall n, IntText (uint_str (N.to_uint n)).
Proof.
  intro n. destruct (to_uint_shape n) as [H|(d & ds & H & Hd)]; [now left|right].
  exists d, ds. split; [assumption|]. split; [apply uint_digits|assumption].
Qed.

Lemma pint_text : forall ip r, IntText ip -> stop is_digit r -> pint (ip ++ r) = Some (ip, r).
Proof.
  intros ip r [->|(d & ds & -> & Hg & Hd)] Hr; [reflexivity|].
  cbn [app pint]. rewrite (proj2 (ceqb_neq d "0"%char) Hd).
  rewrite (proj2 (is_digit_range d) (Forall_inv Hg)).
  rewrite digits_span; [reflexivity|exact (Forall_inv_tail Hg)|assumption].
Qed.
Lemma pfrac_text : forall fr r, FracText fr -> stop is_digit r -> stop (fun c => ceqb c dot) r ->
  pfrac (fr ++ r) = (fr, r).
Proof.
  intros fr r [->|(ds & -> & Hne & Hd)] Hr Hr2.
  - cbn [app]. destruct r as [|c r]; [reflexivity|]. cbn in *. now rewrite Hr2.
  - cbn [app pfrac]. rewrite ceqb_refl, digits_span by assumption. destruct ds; [congruence|reflexivity].
Qed.
Lemma pexp_text : forall ex r, ExpText ex -> stop is_digit r ->
  stop (fun c => ceqb c "e"%char || ceqb c "E"%char) r -> pexp (ex ++ r) = (ex, r).
Proof.
  intros ex r [->|(sg & ds & -> & Hsg & Hne & Hd)] Hr Hr2.
  - cbn [app]. destruct r as [|c r]; [reflexivity|]. cbn in *. now rewrite Hr2.
  - cbn [app pexp]. change (ceqb "e"%char "e"%char || ceqb "e"%char "E"%char) with true. cbn iota.
    destruct Hsg as [<-|[<-|[<-|[]]]]; cbn [app].
    + destruct ds as [|d ds]; [congruence|]. cbn [app].
      assert (Hdd : (ceqb d "+"%char || ceqb d minus) = false).
      { pose proof (Forall_inv Hd) as R. apply orb_false_intro; apply ceqb_neq; intros ->; cbn in R; lia. }
      rewrite Hdd. change (d :: ds ++ r) with ((d :: ds) ++ r). rewrite digits_span by assumption. reflexivity.
    + change (ceqb "+" "+" || ceqb "+" minus) with true. cbn iota. rewrite digits_span by assumption.
      destruct ds; [congruence|reflexivity].
    + change (ceqb "-" "+" || ceqb "-" minus) with true. cbn iota. rewrite digits_span by assumption.
      destruct ds; [congruence|reflexivity].
Qed.
Lemma exp_stop : forall ex r, ExpText ex -> okrest r ->
  stop is_digit (ex ++ r) /\ stop (fun c => ceqb c dot) (ex ++ r).
Proof.
  intros ex r [->|(sg & ds & -> & _)] Hr.
  - cbn [app]. split; [now apply okrest_digit|]. destruct r as [|c r]; [exact I|].
    destruct Hr as [<-|[<-|[<-|[]]]]; reflexivity.
  - split; reflexivity.
Qed.
Lemma frac_stop : forall fr r, FracText fr -> stop is_digit r -> stop is_digit (fr ++ r).
Proof. intros fr r [->|(ds & -> & _)] Hr; [assumption|reflexivity]. Qed.
Lemma okrest_exp : forall r, okrest r -> stop (fun c => ceqb c "e"%char || ceqb c "E"%char) r.
Proof. intros [|c r] H; [exact I|]. destruct H as [<-|[<-|[<-|[]]]]; reflexivity. Qed.

Lemma int_head : forall ip, IntText ip -> exists d ds, ip = d :: ds /\ 48 <= nat_of_ascii d <= 57.
Proof.
  intros ip [->|(d & ds & -> & H & _)]; [exists "0"%char, []; split; [reflexivity|cbn; lia]|].
  exists d, ds. split; [reflexivity|exact (Forall_inv H)].
Qed.
Lemma pnum_text : forall (neg : bool) ip fr ex r, IntText ip -> FracText fr -> ExpText ex -> okrest r ->
  pnum ((if neg then [minus] else []) ++ ip ++ fr ++ ex ++ r) =
  match fr, ex with
  | [], [] => let n := Z.of_N (N.of_uint (str_uint ip)) in Ok (AInt (if neg then - n else n)%Z, r)
  | _, _ => Ok (AFloat ((if neg then [minus] else []) ++ ip ++ fr ++ ex), r)
  end.
Proof.
  intros neg ip fr ex r Hi Hf He Hr. unfold pnum.
  destruct (exp_stop ex r He Hr) as [S1 S2]. pose proof (frac_stop fr _ Hf S1) as S3.
  assert (E : psign ((if neg then [minus] else []) ++ ip ++ fr ++ ex ++ r) = (neg, ip ++ fr ++ ex ++ r)).
  { unfold psign. destruct neg; cbn [app].
    - now rewrite ceqb_refl.
    - destruct (int_head ip Hi) as (d & ds & -> & Hd). cbn [app].
      replace (ceqb d minus) with false; [reflexivity|]. symmetry. apply ceqb_neq. intros ->. cbn in Hd. lia. }
  rewrite E. rewrite pint_text by assumption. rewrite pfrac_text by assumption.
  rewrite pexp_text by (first [assumption | now apply okrest_digit | now apply okrest_exp]).
  destruct fr, ex; reflexivity.
Qed.

(** Numbers are not mistaken for literals. *)
Lemma number_head : forall (neg : bool) ip r, IntText ip -> exists c s, (if neg then [minus] else []) ++ ip ++ r = c :: s /\
  (48 <= nat_of_ascii c <= 57 \/ (c = minus /\ exists d s', s = d :: s' /\ 48 <= nat_of_ascii d <= 57)).
Proof.
  intros neg ip r Hi. destruct (int_head ip Hi) as (d & ds & -> & Hd). destruct neg; cbn [app].
  - exists minus, (d :: ds ++ r). split; [reflexivity|]. right. split; [reflexivity|]. eauto.
  - exists d, (ds ++ r). split; [reflexivity|]. now left.
Qed.
Lemma ceqb_code : forall c d, nat_of_ascii c <> nat_of_ascii d -> ceqb c d = false.
Proof. intros c d H. apply ceqb_neq. intros ->. now apply H. Qed.
Lemma pval_number : forall fuel (neg : bool) ip r, IntText ip ->
  pval (S fuel) ((if neg then [minus] else []) ++ ip ++ r) = pnum ((if neg then [minus] else []) ++ ip ++ r).
Proof.
  intros fuel neg ip r Hi. destruct (number_head neg ip r Hi) as (c & s & E & H). rewrite E. clear E.
  rewrite pval_eq. unfold lit_after.
  assert (HC : 48 <= nat_of_ascii c <= 57 \/ nat_of_ascii c = 45).
  { destruct H as [H|[-> _]]; [now left|right; reflexivity]. }
  rewrite (ceqb_code c quot), (ceqb_code c "{"), (ceqb_code c "[") by (cbn; lia).
  cbn [s_ list_ascii_of_string startswith].
  rewrite (ceqb_code "n" c), (ceqb_code "t" c), (ceqb_code "f" c), (ceqb_code "N" c), (ceqb_code "I" c)
    by (cbn [nat_of_ascii]; cbn; lia).
  cbn [andb]. destruct H as [H|(-> & d & s' & -> & Hd)].
  - rewrite (ceqb_code "-" c) by (cbn; lia). reflexivity.
  - rewrite (ceqb_code "I" d) by (cbn; lia). rewrite andb_false_r. reflexivity.
Qed.

(** *** First characters *)
Definition goodhead (s : str) : Prop := exists c r, s = c :: r /\ is_ws c = false /\ ceqb c "]"%char = false.
Lemma digit_head : forall c r, 45 <= nat_of_ascii c <= 57 -> goodhead (c :: r).
Proof.
  intros c r H. exists c, r. split; [reflexivity|]. split.
  - unfold is_ws. cbn zeta. rewrite (proj2 (Nat.eqb_neq (nat_of_ascii c) 32)), (proj2 (Nat.eqb_neq (nat_of_ascii c) 9)),
      (proj2 (Nat.eqb_neq (nat_of_ascii c) 10)), (proj2 (Nat.eqb_neq (nat_of_ascii c) 13)) by lia. reflexivity.
  - apply ceqb_code. cbn. lia.
Qed.
Lemma int_goodhead : forall (neg : bool) ip r, IntText ip -> goodhead ((if neg then [minus] else []) ++ ip ++ r).
Proof.
  intros neg ip r Hi. destruct (number_head neg ip r Hi) as (c & s & -> & [H|[-> _]]); apply digit_head; [lia|cbn; lia].
Qed.
Lemma dec_form : forall z, exists (neg : bool) ip, IntText ip /\ dec z = (if neg then [minus] else []) ++ ip /\
  (if neg then - Z.of_N (N.of_uint (str_uint ip)) else Z.of_N (N.of_uint (str_uint ip)))%Z = z.
Proof.
  intros [|p|p].
  - exists false, (uint_str (N.to_uint 0)). split; [apply to_uint_int|]. split; reflexivity.
  - exists false, (uint_str (N.to_uint (N.pos p))). split; [apply to_uint_int|]. split; [reflexivity|].
    now rewrite str_uint_str, DecimalN.Unsigned.of_to.
  - exists true, (uint_str (N.to_uint (N.pos p))). split; [apply to_uint_int|]. split; [reflexivity|].
    now rewrite str_uint_str, DecimalN.Unsigned.of_to.
Qed.

Lemma enc_head : forall v s, wf v -> enc v = Ok s -> goodhead s.
Proof.
  induction v as [|b|z|lit|x|x|x|z|l IH|kv IH|l IH] using av_ind'; intros s W E.
  - injection E as <-. exists "n"%char. eexists. split; [reflexivity|split; reflexivity].
  - destruct b; injection E as <-; eexists; eexists; (split; [reflexivity|split; reflexivity]).
  - injection E as <-. destruct (dec_form z) as (neg & ip & Hi & -> & _).
    rewrite <- (app_nil_r ip). now apply int_goodhead.
  - injection E as <-. destruct W as [| | |sg ip fr ex Hsg Hi Hf He Hne].
    1-3: eexists; eexists; (split; [reflexivity|split; reflexivity]).
    destruct Hsg as [<-|[<-|[]]]; [apply (int_goodhead false)|apply (int_goodhead true)]; assumption.
  - injection E as <-. eexists. eexists. split; [reflexivity|split; reflexivity].
  - cbn [enc] in E. destruct (forallb _ x) in E; [|discriminate]. injection E as <-. eexists. eexists. split; [reflexivity|split; reflexivity].
  - injection E as <-. eexists. eexists. split; [reflexivity|split; reflexivity].
  - discriminate.
  - rewrite enc_AList in E. destruct (enc_list l); [|discriminate]. injection E as <-. eexists. eexists. split; [reflexivity|split; reflexivity].
  - rewrite enc_ADict in E. destruct (enc_dict kv); [|discriminate]. injection E as <-. eexists. eexists. split; [reflexivity|split; reflexivity].
  - rewrite enc_AArr in E. destruct l as [|x [|y l]].
    + injection E as <-. eexists. eexists. split; [reflexivity|split; reflexivity].
    + destruct W as [W _]. now apply (Forall_inv IH).
    + rewrite enc_AList in E. destruct (enc_list (x :: y :: l)); [|discriminate]. injection E as <-. eexists. eexists. split; [reflexivity|split; reflexivity].
Qed.
Lemma goodhead_ws : forall s r, goodhead s -> skip_ws (s ++ r) = s ++ r.
Proof. intros s r (c & t & -> & H & _). cbn [app skip_ws]. now rewrite H. Qed.

(** *** Containers *)
Definition reads (v : av) : Prop := forall s, wf v -> enc v = Ok s ->
  forall fuel rest, length s <= fuel -> okrest rest -> pval (S fuel) (s ++ rest) = Ok (plain v, rest).
Fixpoint wfs (l : list av) : Prop := match l with [] => True | x :: r => wf x /\ wfs r end.
Fixpoint wfd (l : list (str * av)) : Prop := match l with [] => True | (_, x) :: r => wf x /\ wfd r end.

Lemma commas_cons : forall w ws, ws <> [] -> commas (w :: ws) = w ++ s_ ", " ++ commas ws.
Proof. intros w [|v ws] H; [congruence|reflexivity]. Qed.
Lemma enc_list_cons : forall x l parts, enc_list (x :: l) = Ok parts ->
  exists a b, enc x = Ok a /\ enc_list l = Ok b /\ parts = a :: b.
Proof.
  intros x l parts H. cbn [enc_list] in H. destruct (enc x) as [a|]; [|discriminate]. cbn [rbind] in H.
  destruct (enc_list l) as [b|]; [|discriminate]. cbn [rbind] in H. injection H as <-. eauto.
Qed.
Lemma enc_dict_cons : forall k x l parts, enc_dict ((k, x) :: l) = Ok parts ->
  exists a b, enc x = Ok a /\ enc_dict l = Ok b /\ parts = (quoted k ++ s_ ": " ++ a) :: b.
Proof.
  intros k x l parts H. cbn [enc_dict] in H. destruct (enc x) as [a|]; [|discriminate]. cbn [rbind] in H.
  destruct (enc_dict l) as [b|]; [|discriminate]. cbn [rbind] in H. injection H as <-. eauto.
Qed.

Lemma parr_reads : forall l parts fuel n rest, Forall reads l -> wfs l -> l <> [] -> enc_list l = Ok parts ->
  length (commas parts) <= fuel -> length l <= n ->
  parr (S fuel) n (commas parts ++ "]"%char :: rest) = Ok (map plain l, rest).
Proof.
  induction l as [|x l IH]; intros parts fuel n rest HR HW Hne HE Hf Hn; [congruence|].
  destruct (enc_list_cons _ _ _ HE) as (a & b & Ea & Eb & ->). destruct HW as [Wx Wl].
  destruct n as [|n]; [cbn in Hn; lia|]. cbn [parr].
  destruct l as [|y l].
  - injection Eb as <-. cbn [commas map] in *.
    rewrite (Forall_inv HR a Wx Ea fuel) by (try (cbn; tauto); assumption).
    reflexivity.
  - assert (Hb : b <> []) by (destruct (enc_list_cons _ _ _ Eb) as (? & ? & _ & _ & ->); discriminate).
    rewrite commas_cons in * by assumption. rewrite !app_length in Hf.
    rewrite <- !app_assoc.
    rewrite (Forall_inv HR a Wx Ea fuel) by (try lia; cbn; tauto). cbn [rbind app].
    change (skip_ws (s_ ", " ++ commas b ++ "]"%char :: rest)) with (","%char :: " "%char :: commas b ++ "]"%char :: rest).
    change (ceqb ","%char "]"%char) with false. change (ceqb ","%char ","%char) with true. cbn iota.
    change (skip_ws (" "%char :: commas b ++ "]"%char :: rest)) with (skip_ws (commas b ++ "]"%char :: rest)).
    destruct (enc_list_cons _ _ _ Eb) as (a2 & b2 & Ea2 & Eb2 & Hb2).
    assert (HG : goodhead (commas b)).
    { destruct Wl as [Wy _]. destruct (enc_head y a2 Wy Ea2) as (c & t & -> & G1 & G2). subst b.
      destruct b2; cbn [commas app]; eexists; eexists; (split; [reflexivity|split; assumption]). }
    rewrite goodhead_ws by assumption.
    rewrite (IH b fuel n rest); [reflexivity|exact (Forall_inv_tail HR)|assumption|discriminate|assumption|lia|cbn in *; lia].
Qed.

Lemma pobj_reads : forall kv parts fuel n rest, Forall (fun x => reads (snd x)) kv -> wfd kv -> kv <> [] ->
  enc_dict kv = Ok parts -> length (commas parts) <= fuel -> length kv <= n ->
  pobj (S fuel) n (commas parts ++ "}"%char :: rest) = Ok (map (fun '(k, x) => (k, plain x)) kv, rest).
Proof.
  induction kv as [|[k x] kv IH]; intros parts fuel n rest HR HW Hne HE Hf Hn; [congruence|].
  destruct (enc_dict_cons _ _ _ _ HE) as (a & b & Ea & Eb & ->). destruct HW as [Wx Wl].
  destruct n as [|n]; [cbn in Hn; lia|].
  assert (HF : length a <= fuel).
  { destruct b as [|b0 bs]; [cbn [commas] in Hf|rewrite commas_cons in Hf by discriminate];
      rewrite !app_length in Hf; cbn [length] in Hf; lia. }
  assert (GX : goodhead a) by now apply (enc_head x).
  assert (HS : forall tail, okrest tail ->
     pobj (S fuel) (S n) ((quoted k ++ s_ ": " ++ a) ++ tail) =
       match skip_ws tail with
       | c :: r3 => if ceqb c "}"%char then Ok ([(k, plain x)], r3)
                    else if ceqb c ","%char then
                      rbind (pobj (S fuel) n (skip_ws r3)) (fun '(kvs, r4) => Ok ((k, plain x) :: kvs, r4))
                    else Err ValueError
       | [] => Err ValueError
       end).
  { intros tail Ht. rewrite <- !app_assoc. destruct (pstr_quoted k (s_ ": " ++ a ++ tail)) as (r & E1 & E2).
    rewrite E1. cbn [pobj]. rewrite ceqb_refl, E2. cbn [rbind].
    change (skip_ws (s_ ": " ++ a ++ tail)) with (":"%char :: " "%char :: a ++ tail).
    change (ceqb ":"%char ":"%char) with true. cbn iota.
    change (skip_ws (" "%char :: a ++ tail)) with (skip_ws (a ++ tail)). rewrite goodhead_ws by assumption.
    rewrite (Forall_inv HR a Wx Ea fuel) by assumption. reflexivity. }
  destruct kv as [|[k2 y] kv].
  - injection Eb as <-. cbn [commas map] in *. rewrite HS by (cbn; tauto). reflexivity.
  - assert (Hb : b <> []) by (destruct (enc_dict_cons _ _ _ _ Eb) as (? & ? & _ & _ & ->); discriminate).
    rewrite commas_cons in * by assumption.
    replace ((((quoted k ++ s_ ": " ++ a) ++ s_ ", " ++ commas b) ++ "}"%char :: rest))
      with ((quoted k ++ s_ ": " ++ a) ++ ","%char :: " "%char :: commas b ++ "}"%char :: rest)
      by (now rewrite <- !app_assoc).
    rewrite HS by (cbn; tauto).
    change (skip_ws (","%char :: " "%char :: commas b ++ "}"%char :: rest)) with (","%char :: " "%char :: commas b ++ "}"%char :: rest).
    change (ceqb ","%char "}"%char) with false. change (ceqb ","%char ","%char) with true. cbn iota.
    change (skip_ws (" "%char :: commas b ++ "}"%char :: rest)) with (skip_ws (commas b ++ "}"%char :: rest)).
    destruct (enc_dict_cons _ _ _ _ Eb) as (a2 & b2 & Ea2 & Eb2 & Hb2).
    assert (HG : goodhead (commas b)).
    { subst b. destruct b2; cbn [commas app quoted]; eexists; eexists; (split; [reflexivity|split; reflexivity]). }
    rewrite goodhead_ws by assumption.
    rewrite (IH b fuel n rest); [reflexivity|exact (Forall_inv_tail HR)|assumption|discriminate|assumption| |cbn in *; lia].
    rewrite !app_length in Hf. lia.
Qed.

(** Distinct keys keep their order. *)
Lemma dput_new : forall (V : Type) k (v : V) m, ~ In k (map fst m) -> dput k v m = m ++ [(k, v)].
Proof.
  induction m as [|[k' v'] m IH]; intro H; [reflexivity|]. cbn [dput].
  rewrite (proj2 (seqb_neq k k')) by (intros ->; apply H; now left). cbn [app].
  rewrite IH; [reflexivity|]. intro G. apply H. now right.
Qed.
Lemma fold_dput : forall (V : Type) (kvs : list (str * V)) m, NoDup (map fst (m ++ kvs)) ->
  fold_left (fun m '(k, v) => dput k v m) kvs m = m ++ kvs.
Proof.
  induction kvs as [|[k v] kvs IH]; intros m H; [now rewrite app_nil_r|]. cbn [fold_left].
  rewrite dput_new.
  - rewrite IH by now rewrite <- app_assoc. now rewrite <- app_assoc.
  - rewrite map_app in H. cbn [map fst] in H. apply NoDup_remove_2 in H. intro G. apply H. apply in_or_app. now left.
Qed.

Lemma enc_list_length : forall l parts, wfs l -> enc_list l = Ok parts -> length l <= length (commas parts) /\ (l <> [] -> goodhead (commas parts)).
Proof.
  induction l as [|x l IH]; intros parts HW HE; [injection HE as <-; cbn; split; [lia|congruence]|].
  destruct (enc_list_cons _ _ _ HE) as (a & b & Ea & Eb & ->). destruct HW as [Wx Wl].
  destruct (IH b Wl Eb) as [H1 _]. destruct (enc_head x a Wx Ea) as (c & t & -> & G1 & G2).
  split.
  - destruct b as [|b0 bs]; [destruct l; cbn in *; lia|]. rewrite commas_cons by discriminate. rewrite app_length. cbn [length] in *.
    rewrite app_length. lia.
  - intros _. destruct b; cbn [commas app]; eexists; eexists; (split; [reflexivity|split; assumption]).
Qed.
Lemma enc_dict_length : forall l parts, enc_dict l = Ok parts -> length l <= length (commas parts).
Proof.
  induction l as [|[k x] l IH]; intros parts HE; [injection HE as <-; cbn; lia|].
  destruct (enc_dict_cons _ _ _ _ HE) as (a & b & Ea & Eb & ->). specialize (IH b Eb).
  destruct b as [|b0 bs].
  - destruct l; [|cbn in IH; lia]. cbn [commas quoted]. rewrite app_length. cbn. lia.
  - rewrite commas_cons by discriminate. rewrite !app_length. cbn [length quoted] in *. lia.
Qed.

Lemma list_reads : forall l, Forall reads l -> reads (AList l).
Proof.
  intros l IH s W E fuel rest Hf Hr. rewrite enc_AList in E. destruct (enc_list l) as [parts|] eqn:EL; [|discriminate].
  injection E as <-. cbn [length] in Hf. rewrite app_length in Hf. cbn [length] in Hf.
  rewrite pval_eq. cbn [app]. change (ceqb "["%char quot) with false. change (ceqb "["%char "{"%char) with false.
  change (ceqb "["%char "["%char) with true. cbn iota. rewrite <- app_assoc. cbn [app].
  change (wfs l) in W. destruct l as [|x l].
  - injection EL as <-. reflexivity.
  - destruct (enc_list_length _ _ W EL) as [HL HG]. specialize (HG ltac:(discriminate)).
    rewrite goodhead_ws by assumption. destruct HG as (c & t & HG & G1 & G2).
    rewrite HG at 1. cbn [app]. rewrite G2.
    destruct fuel as [|fuel]; [lia|].
    rewrite (parr_reads (x :: l) parts fuel); [reflexivity|assumption|assumption|discriminate|assumption|lia|].
    rewrite app_length. lia.
Qed.

Theorem enc_reads : forall v, reads v.
Proof.
  induction v as [|b|z|lit|x|x|x|z|l IH|kv IH|l IH] using av_ind'.
  - intros s W E fuel rest Hf Hr. injection E as <-. reflexivity.
  - intros s W E fuel rest Hf Hr. destruct b; injection E as <-; reflexivity.
  - intros s W E fuel rest Hf Hr. injection E as <-. destruct (dec_form z) as (neg & ip & Hi & HE & HZ). rewrite HE.
    rewrite <- app_assoc, pval_number by assumption.
    pose proof (pnum_text neg ip [] [] rest Hi (or_introl eq_refl) (or_introl eq_refl) Hr) as P. cbn [app] in P.
    rewrite P. cbn zeta. now rewrite HZ.
  - intros s W E fuel rest Hf Hr. injection E as <-. destruct W as [| | |sg ip fr ex Hsg Hi Hff He Hne]; try reflexivity.
    assert (HS : exists neg : bool, sg = if neg then [minus] else []).
    { destruct Hsg as [<-|[<-|[]]]; [exists false|exists true]; reflexivity. }
    destruct HS as (neg & ->).
    replace (((if neg then [minus] else []) ++ ip ++ fr ++ ex) ++ rest)
      with ((if neg then [minus] else []) ++ ip ++ fr ++ ex ++ rest) by (now rewrite <- !app_assoc).
    rewrite pval_number, pnum_text by assumption. cbn [plain].
    destruct fr, ex; try reflexivity. destruct Hne; congruence.
  - intros s W E fuel rest Hf Hr. injection E as <-. destruct (pstr_quoted x rest) as (r & E1 & E2). rewrite E1, pval_eq, ceqb_refl, E2. reflexivity.
  - intros s W E fuel rest Hf Hr. cbn [enc] in E. destruct (forallb _ x) in E; [|discriminate].
    injection E as <-. destruct (pstr_quoted x rest) as (r & E1 & E2). rewrite E1, pval_eq, ceqb_refl, E2. reflexivity.
  - intros s W E fuel rest Hf Hr. injection E as <-. destruct (pstr_quoted x rest) as (r & E1 & E2). rewrite E1, pval_eq, ceqb_refl, E2. reflexivity.
  - intros s W E. discriminate.
  - now apply list_reads.
  - intros s [W1 W2] E fuel rest Hf Hr. rewrite enc_ADict in E. destruct (enc_dict kv) as [parts|] eqn:EL; [|discriminate].
    injection E as <-. cbn [length] in Hf. rewrite app_length in Hf. cbn [length] in Hf.
    rewrite pval_eq. cbn [app]. change (ceqb "{"%char quot) with false. change (ceqb "{"%char "{"%char) with true.
    cbn iota. rewrite <- app_assoc. cbn [app]. change (wfd kv) in W2. destruct kv as [|[k x] kv].
    + injection EL as <-. reflexivity.
    + pose proof (enc_dict_length _ _ EL) as HL.
      destruct (enc_dict_cons _ _ _ _ EL) as (a & b & Ea & Eb & HP).
      assert (HG : exists t, commas parts = quot :: t).
      { subst parts. destruct b; eexists; reflexivity. }
      destruct HG as (t & HG).
      assert (HS : skip_ws (commas parts ++ "}"%char :: rest) = commas parts ++ "}"%char :: rest).
      { rewrite HG. reflexivity. }
      rewrite HS. rewrite HG at 1. cbn [app]. change (ceqb quot "}"%char) with false. cbn iota.
      destruct fuel as [|fuel]; [lia|].
      rewrite (pobj_reads ((k, x) :: kv) parts fuel); [|assumption|assumption|discriminate|assumption|lia|rewrite app_length; lia].
      cbn [rbind plain]. rewrite fold_dput; [reflexivity|].
      cbn [app]. rewrite map_map.
      replace (map (fun y => fst (let '(k0, x0) := y in (k0, plain x0))) ((k, x) :: kv)) with (map fst ((k, x) :: kv)); [assumption|].
      apply map_ext. now intros [? ?].
  - destruct l as [|x [|y l]].
    + intros s W E fuel rest Hf Hr. injection E as <-. reflexivity.
    + intros s [W _] E. cbn [plain]. rewrite enc_AArr in E. now apply (Forall_inv IH).
    + intros s W E. rewrite enc_AArr in E. exact (list_reads _ IH s W E).
Qed.

Theorem loads_enc : forall v s, wf v -> enc v = Ok s -> loads s = Ok (plain v).
Proof.
  intros v s W E. unfold loads. pose proof (enc_head v s W E) as HG.
  pose proof (goodhead_ws s [] HG) as HW. rewrite app_nil_r in HW. rewrite HW.
  pose proof (enc_reads v s W E (length s) [] (le_n _) I) as R. rewrite app_nil_r in R. rewrite R. reflexivity.
Qed.

Lemma jsonlike_ok : forall v, jsonlike v -> wf v /\ plain v = v /\ exists s, enc v = Ok s.
Proof.
  induction v as [|b|z|lit|x|x|x|z|l IH|kv IH|l IH] using av_ind'; intro J; try (destruct J; fail).
  - split; [exact I|]. split; [reflexivity|]. eexists. reflexivity.
  - split; [exact I|]. split; [reflexivity|]. destruct b; eexists; reflexivity.
  - split; [exact I|]. split; [reflexivity|]. eexists. reflexivity.
  - split; [exact J|]. split; [reflexivity|]. eexists. reflexivity.
  - split; [exact I|]. split; [reflexivity|]. eexists. reflexivity.
  - assert (H : wfs l /\ map plain l = l /\ exists ps, enc_list l = Ok ps).
    { induction l as [|x l IHl]; [split; [exact I|]; split; [reflexivity|]; eexists; reflexivity|].
      destruct J as [J1 J2]. destruct (Forall_inv IH J1) as (A1 & A2 & s & A3).
      destruct (IHl (Forall_inv_tail IH) J2) as (B1 & B2 & ps & B3).
      split; [now split|]. split; [cbn [map]; now rewrite A2, B2|]. cbn [enc_list]. rewrite A3. cbn [rbind]. rewrite B3.
      eexists. reflexivity. }
    destruct H as (H1 & H2 & ps & H3). split; [exact H1|]. split; [cbn [plain]; now rewrite H2|].
    rewrite enc_AList, H3. eexists. reflexivity.
  - destruct J as [JN J].
    assert (H : wfd kv /\ map (fun '(k, x) => (k, plain x)) kv = kv /\ exists ps, enc_dict kv = Ok ps).
    { clear JN. induction kv as [|[k x] kv IHl]; [split; [exact I|]; split; [reflexivity|]; eexists; reflexivity|].
      destruct J as [J1 J2]. destruct (Forall_inv IH J1) as (A1 & A2 & s & A3).
      destruct (IHl (Forall_inv_tail IH) J2) as (B1 & B2 & ps & B3).
      split; [now split|]. cbn [snd] in *. split; [cbn [map]; now rewrite A2, B2|].
      cbn [enc_dict]. rewrite A3. cbn [rbind]. rewrite B3. eexists. reflexivity. }
    destruct H as (H1 & H2 & ps & H3). split; [exact (conj JN H1)|]. split; [cbn [plain]; now rewrite H2|].
    rewrite enc_ADict, H3. eexists. reflexivity.
Qed.
