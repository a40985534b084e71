(** Writing one rank after the other; lock files. *)
From Coq Require Import List Arith Bool Lia Permutation.
From Verif Require Import PyBase ColModel ColSpec ColProofs ColProofs2 CioModel CioSpec CioProofs2.
Import ListNotations.
Open Scope nat_scope.

(** * [to_zarr] without a store *)
Section NoStore.
  Variables (n : nat) (nbytes : nat -> nat) (s0 : zstate).
  Hypothesis n_pos : 0 < n.
  Hypothesis missing : z_store s0 = false.
  Notation prog := (proc zstate nat (res unit)).
  Let z0 r : prog := to_zarr n r false (nbytes r).
  Let z1 r : prog := match z0 r with Coll _ _ _ k => k [] | p => p end.
  Lemma z0_eq : forall r, z0 r = Coll (world n) CBarrier 0 (fun _ => z1 r).
  Proof. intros r. unfold z1, z0, to_zarr. rewrite andb_false_r. reflexivity. Qed.
  Lemma z1_eq : forall r, exists k, z1 r = guarded z_store (fun s => s) OtherException k.
  Proof. intros r. unfold z1, z0, to_zarr. rewrite andb_false_r. eexists. reflexivity. Qed.
  Inductive zno : state zstate nat (res unit) -> Prop :=
  | zno0 : zno (s0, family n z0)
  | zno1 : forall (d : nat -> bool) P, (forall r, r < n -> P r = if d r then Ret (Err OtherException) else z1 r) -> zno (s0, family n P).
  Lemma zno_step : forall t u, zno t -> step t u -> zno u.
  Proof.
    intros t u H T. destruct H as [|d P HP].
    - apply step_family in T; auto.
      + destruct T as [[c [v [k [A ->]]]]|[r [a [q [k [s' [Lr [A _]]]]]]]]; [|rewrite z0_eq in A; discriminate].
        apply zno1 with (d := fun _ => false). intros r L. specialize (A r L). rewrite z0_eq in A. inversion A. auto.
      + intros r L g c v k E. rewrite z0_eq in E. inversion E. auto.
    - apply step_family in T; auto.
      + destruct T as [[c [v [k [A ->]]]]|[r [a [q [k [s' [Lr [A [As ->]]]]]]]]].
        * specialize (A 0 n_pos). rewrite HP in A by auto. destruct (z1_eq 0) as [k0 E]. destruct (d 0); [discriminate|]. rewrite E in A. discriminate.
        * rewrite HP in A by auto. destruct (d r) eqn:D; [discriminate|]. destruct (z1_eq r) as [k0 E]. rewrite E in A. unfold guarded in A. inversion A; subst a q k; clear A.
          rewrite missing in As. injection As as <-. apply zno1 with (d := b2 d r). intros j Lj. unfold b2. destruct (Nat.eqb_spec j r); [|apply HP; auto]. rewrite missing. auto.
      + intros r L g c v k E. rewrite HP in E by auto. destruct (d r); [discriminate|]. destruct (z1_eq r) as [k0 E0]. rewrite E0 in E. discriminate.
  Qed.
  Theorem zarr_missing : always (s0, family n (fun r => to_zarr n r false (nbytes r))) (fun t =>
    fst t = s0 /\ forall r, r < n -> returned t r (Err OtherException)).
  Proof.
    apply always_inv with (I := zno); [apply zno0|apply zno_step|]. intros t H K. destruct H as [|d P HP].
    - exfalso. eapply K. eapply step_world; auto. intros r L. apply z0_eq.
    - split; auto. intros r L. apply returned_family; auto. rewrite HP by auto. destruct (d r) eqn:D; auto. exfalso.
      destruct (z1_eq r) as [k E]. destruct (act_step n s0 P r _ _ _ s0 L ltac:(rewrite HP by auto; rewrite D; exact E)) as [u Hu]; [|eapply K; eauto].
      rewrite missing. auto.
  Qed.
End NoStore.

(** * [_to_hdf5_serial] *)
Section Serial.
  Variables (n : nat) (create axis0 : bool) (s0 : hstate).
  Hypothesis n_pos : 0 < n.
  Hypothesis closed : h_open s0 = [].
  Notation prog := (proc hstate nat (res unit)).
  Notation state := (state hstate nat (res unit)).
  Definition hC (r j : nat) : prog := turns n r (seq j (n - j)).
  Definition hB (r : nat) : prog := if axis0 then hC r 0 else Coll (world n) (CWork 0) 0 (fun _ => hC r 0).
  Definition hbar (r : nat) : prog := Coll (world n) CBarrier 0 (fun _ => hB r).
  Definition hwait (r : nat) : prog := Act (fun s => if h_file s then Some s else None) (fun _ => 0) (fun _ => hbar r).
  Definition hA (a : nat) : prog :=
    let a2 := act (close_file 0) 0 (hwait 0) in
    let a1 := act (fun s => mkh (h_file s) true (h_open s) []) 0 a2 in
    let a0 := guarded (fun s => create || h_file s) (open_file 0) FileNotFoundError a1 in
    nth a [a0; a1; a2; hwait 0] (hbar 0).
  Definition hnext (r j : nat) : prog := Coll (world n) CBarrier 0 (fun _ => hC r (Datatypes.S j)).
  (** Rank [j] in its turn. *)
  Definition hT (j b : nat) : prog :=
    let t2 := act (close_file j) 0 (hnext j j) in
    let t1 := guarded h_dset (fun s => mkh (h_file s) (h_dset s) (h_open s) (h_parts s ++ [j])) KeyError t2 in
    let t0 := guarded h_file (open_file j) FileNotFoundError t1 in
    nth b [t0; t1; t2] (hnext j j).
  Lemma hC_turn : forall r j, j < n -> hC r j = if j =? r then hT j 0 else hnext r j.
  Proof.
    intros r j L. unfold hC. replace (n - j) with (Datatypes.S (n - Datatypes.S j)) by lia. cbn [seq turns]. unfold turn, hT, hnext, hC. cbn [nth].
    destruct (Nat.eqb_spec j r); subst; auto.
  Qed.
  Lemma hC_end : forall r, hC r n = Ret (Ok tt).
  Proof. intros r. unfold hC. rewrite Nat.sub_diag. auto. Qed.
  Definition hAs (a : nat) (s : hstate) : Prop :=
    match a with
    | 0 => s = s0
    | 1 => h_file s = true /\ h_open s = [0]
    | 2 => h_file s = true /\ h_open s = [0] /\ h_dset s = true /\ h_parts s = []
    | 3 | 4 => h_file s = true /\ h_open s = [] /\ h_dset s = true /\ h_parts s = []
    | _ => False
    end.
  Definition hTs (j b : nat) (s : hstate) : Prop :=
    h_file s = true /\ h_dset s = true /\ h_open s = (if (b =? 1) || (b =? 2) then [j] else []) /\ h_parts s = seq 0 (if 2 <=? b then Datatypes.S j else j).
  Inductive hinv : state -> Prop :=
  | hiA : forall a (d : nat -> bool) s P, a <= 4 -> hAs a s -> (forall r, 0 < r < n -> d r = true -> h_file s = true) ->
      (forall r, r < n -> P r = if r =? 0 then hA a else if d r then hbar r else hwait r) -> hinv (s, family n P)
  | hiB : forall s P, axis0 = false -> hAs 3 s -> (forall r, r < n -> P r = hB r) -> hinv (s, family n P)
  | hiC : forall j b s P, j < n -> b <= 3 -> hTs j b s -> (forall r, r < n -> P r = if r =? j then hT j b else hnext r j) -> hinv (s, family n P)
  | hiD : forall s P, hTs n 0 s -> (forall r, r < n -> P r = Ret (Ok tt)) -> hinv (s, family n P).
  Lemma h_start : hinv (s0, family n (fun r => to_hdf5_serial n r create axis0)).
  Proof.
    apply hiA with (a := 0) (d := fun _ => false); [lia|reflexivity|discriminate|].
    intros r L. unfold to_hdf5_serial. destruct (Nat.eqb_spec r 0); subst; unfold hA, hwait, hbar, hB, hC; cbn [nth]; rewrite Nat.sub_0_r; reflexivity.
  Qed.
  Lemma to_C : forall s, hAs 3 s -> hinv (s, family n (fun r => hC r 0)).
  Proof.
    intros s [F [O [D Pp]]]. apply hiC with (j := 0) (b := 0); [lia|lia|repeat split; auto|]. intros r L. rewrite hC_turn by auto. now rewrite Nat.eqb_sym.
  Qed.
  Lemma hwait_world : forall r, worldly n (hwait r). Proof. intros r g c v k E. discriminate. Qed.
  Lemma hbar_world : forall r, worldly n (hbar r). Proof. intros r g c v k E. inversion E. auto. Qed.
  Lemma hA_world : forall a, worldly n (hA a).
  Proof. intros a. do 4 (destruct a as [|a]; [intros g c v k E; discriminate|]). unfold hA. cbn [nth]. destruct a; apply hbar_world. Qed.
  Lemma hnext_world : forall r j, worldly n (hnext r j). Proof. intros r j g c v k E. inversion E. auto. Qed.
  Lemma hT_world : forall j b, worldly n (hT j b).
  Proof. intros j b. do 3 (destruct b as [|b]; [intros g c v k E; discriminate|]). unfold hT. cbn [nth]. destruct b; apply hnext_world. Qed.
  Hypothesis can_open : create || h_file s0 = true.
  Lemma filter_self : forall r, filter (fun q => negb (q =? r)) [r] = [].
  Proof. intros. simpl. now rewrite Nat.eqb_refl. Qed.
  Lemma h_step : forall t u, hinv t -> step t u -> hinv u.
  Proof.
    intros t u H T. destruct H as [a d s P La Ha Hd HP|s P X Ha HP|j b s P Lj Lb Hs HP|s P Hs HP].
    - apply step_family in T; auto.
      + destruct T as [[c [v [k [A ->]]]]|[r [f [q [k [s' [Lr [A [As ->]]]]]]]]].
        * assert (a = 4).
          { specialize (A 0 n_pos). rewrite HP in A by auto. cbn [Nat.eqb] in A. do 4 (destruct a as [|a]; [discriminate|]). lia. }
          subst a. assert (K0 : forall r, r < n -> k r (map v (seq 0 n)) = hB r).
          { intros r L. specialize (A r L). rewrite HP in A by auto. destruct (Nat.eqb_spec r 0); [subst; inversion A; auto|]. destruct (d r); inversion A. auto. }
          destruct axis0 eqn:X.
          -- rewrite (family_ext n _ (fun r => hC r 0)); [apply to_C; auto|]. intros r L. rewrite K0 by auto. unfold hB. now rewrite X.
          -- apply hiB; auto.
        * rewrite HP in A by auto. destruct (Nat.eqb_spec r 0) as [->|N].
          -- destruct a as [|[|[|[|a]]]]; [| | | |unfold hA in A; cbn [nth] in A; destruct a; discriminate]; unfold hA in A; cbn [nth] in A; inversion A; subst f q k; clear A; cbn [hAs] in Ha.
             ++ subst s. injection As as <-. rewrite can_open. apply hiA with (a := 1) (d := d); [lia|split; simpl; [auto|now rewrite closed]|auto|]. intros r L. destruct (Nat.eqb_spec r 0); [reflexivity|]. rewrite HP by auto. destruct (Nat.eqb_spec r 0); [lia|auto].
             ++ injection As as <-. apply hiA with (a := 2) (d := d); [lia|cbn; tauto|auto|]. intros r L. destruct (Nat.eqb_spec r 0); [reflexivity|]. rewrite HP by auto. destruct (Nat.eqb_spec r 0); [lia|auto].
             ++ injection As as <-. destruct Ha as [Ha1 [Ha2 [Ha3 Ha4]]]. apply hiA with (a := 3) (d := d); [lia|cbn; rewrite Ha2; auto|auto|]. intros r L. destruct (Nat.eqb_spec r 0); [reflexivity|]. rewrite HP by auto. destruct (Nat.eqb_spec r 0); [lia|auto].
             ++ destruct Ha as [Ha1 Ha2]. rewrite Ha1 in As. injection As as <-. apply hiA with (a := 4) (d := d); [lia|cbn; auto|auto|]. intros r L. destruct (Nat.eqb_spec r 0); [subst; reflexivity|]. rewrite HP by auto. destruct (Nat.eqb_spec r 0); [lia|auto].
          -- destruct (d r) eqn:D; [discriminate|]. inversion A; subst f q k; clear A. destruct (h_file s) eqn:F; [|discriminate]. injection As as <-.
             apply hiA with (a := a) (d := b2 d r); auto. intros j L. unfold b2. destruct (Nat.eqb_spec j r).
             ++ subst j. destruct (Nat.eqb_spec r 0); [lia|auto].
             ++ apply HP; auto.
      + intros r L. rewrite HP by auto. destruct (r =? 0); [apply hA_world|]. destruct (d r); [apply hbar_world|apply hwait_world].
    - apply step_family in T; auto.
      + destruct T as [[c [v [k [A ->]]]]|[r [f [q [k [s' [Lr [A _]]]]]]]].
        * rewrite (family_ext n _ (fun r => hC r 0)); [apply to_C; auto|]. intros r L. specialize (A r L). rewrite HP in A by auto. unfold hB in A. rewrite X in A. inversion A. auto.
        * rewrite HP in A by auto. unfold hB in A. rewrite X in A. discriminate.
      + intros r L. rewrite HP by auto. unfold hB. rewrite X. intros g c v k E. inversion E. auto.
    - destruct Hs as [F [D [O Q]]]. apply step_family in T; auto.
      + destruct T as [[c [v [k [A ->]]]]|[r [f [q [k [s' [Lr [A [As ->]]]]]]]]].
        * assert (b = 3). { specialize (A j Lj). rewrite HP, Nat.eqb_refl in A by auto. do 3 (destruct b as [|b]; [discriminate|]). lia. }
          subst b. assert (K0 : forall r, r < n -> k r (map v (seq 0 n)) = hC r (Datatypes.S j)).
          { intros r L. specialize (A r L). rewrite HP in A by auto. destruct (Nat.eqb_spec r j); [subst; inversion A; auto|]. inversion A. auto. }
          destruct (Nat.eq_dec (Datatypes.S j) n) as [En|Nn].
          -- apply hiD; [|intros r L; rewrite K0 by auto; rewrite En; apply hC_end]. rewrite <- En. repeat split; auto.
          -- apply hiC with (j := Datatypes.S j) (b := 0); [lia|lia|repeat split; auto|]. intros r L. rewrite K0 by auto. rewrite hC_turn by lia. now rewrite Nat.eqb_sym.
        * rewrite HP in A by auto. destruct (Nat.eqb_spec r j) as [->|N]; [|discriminate].
          assert (R : forall p x, x = p -> p = p -> forall i, i < n -> (if i =? j then x else P i) = if i =? j then p else hnext i j).
          { intros p x -> _ i Li. destruct (Nat.eqb_spec i j); auto. rewrite HP by auto. destruct (Nat.eqb_spec i j); [lia|auto]. }
          destruct b as [|[|[|b]]]; [| | |unfold hT in A; cbn [nth] in A; destruct b; discriminate]; unfold hT in A; cbn [nth] in A; inversion A; subst f q k; clear A; injection As as <-.
          -- rewrite F. apply hiC with (j := j) (b := 1); [auto|lia|repeat split; simpl; auto; now rewrite O|]. apply R; auto.
          -- rewrite D. apply hiC with (j := j) (b := 2); [auto|lia|repeat split; simpl; auto|].
             ++ rewrite Q. cbn [Nat.leb]. rewrite <- seq_S. reflexivity.
             ++ apply R; auto.
          -- apply hiC with (j := j) (b := 3); [auto|lia|repeat split; simpl; auto|].
             ++ rewrite O. cbn [orb Nat.eqb]. apply filter_self.
             ++ apply R; auto.
      + intros r L. rewrite HP by auto. destruct (r =? j); [apply hT_world|apply hnext_world].
    - apply step_family in T; auto.
      + destruct T as [[c [v [k [A ->]]]]|[r [f [q [k [s' [Lr [A _]]]]]]]]; [specialize (A 0 n_pos)|]; rewrite HP in A by auto; discriminate.
      + intros r L. rewrite HP by auto. intros g c v k E. discriminate.
  Qed.
  Lemma h_progress : forall t, hinv t -> stuck t -> hTs n 0 (fst t) /\ forall r, r < n -> returned t r (Ok tt).
  Proof.
    intros t H K. destruct H as [a d s P La Ha Hd HP|s P X Ha HP|j b s P Lj Lb Hs HP|s P Hs HP].
    - exfalso. destruct (Nat.eq_dec a 4) as [->|N4].
      + destruct Ha as [F _]. destruct (all_or_not n (fun r => (r =? 0) || d r)) as [A|[r [Lr A]]].
        * eapply K. eapply step_world with (c := CBarrier) (v := fun _ => 0) (k := fun r _ => hB r); auto. intros r L. rewrite HP by auto. specialize (A r L).
          destruct (Nat.eqb_spec r 0); [subst; reflexivity|]. simpl in A. rewrite A. reflexivity.
        * apply orb_false_iff in A. destruct A as [A1 A2]. destruct (act_step n s P r _ _ _ s Lr ltac:(rewrite HP by auto; rewrite A1, A2; reflexivity)) as [u Hu]; [|eapply K; eauto]. rewrite F. auto.
      + assert (Y : exists f q k s', hA a = Act f q k /\ f s = Some s').
        { destruct a as [|[|[|[|a]]]]; [| | | |lia]; cbn [hAs] in Ha; try (do 4 eexists; split; reflexivity). destruct Ha as [F _]. do 4 eexists. split; [reflexivity|]. cbv beta. rewrite F. reflexivity. }
        destruct Y as [f [q [k [s' [Y1 Y2]]]]]. destruct (act_step n s P 0 f q k s' n_pos ltac:(rewrite HP by auto; exact Y1) Y2) as [u Hu]. eapply K; eauto.
    - exfalso. eapply K. eapply step_world with (c := CWork 0) (v := fun _ => 0) (k := fun r _ => hC r 0); auto. intros r L. rewrite HP by auto. unfold hB. now rewrite X.
    - exfalso. destruct (Nat.eq_dec b 3) as [->|N3].
      + eapply K. eapply step_world with (c := CBarrier) (v := fun _ => 0) (k := fun r _ => hC r (Datatypes.S j)); auto. intros r L. rewrite HP by auto. destruct (Nat.eqb_spec r j); subst; reflexivity.
      + assert (Y : exists f q k s', hT j b = Act f q k /\ f s = Some s').
        { destruct b as [|[|[|b]]]; [| | |lia]; do 4 eexists; split; reflexivity. }
        destruct Y as [f [q [k [s' [Y1 Y2]]]]]. destruct (act_step n s P j f q k s' Lj ltac:(rewrite HP, Nat.eqb_refl by auto; exact Y1) Y2) as [u Hu]. eapply K; eauto.
    - split; auto. intros r L. apply returned_family; auto.
  Qed.
  Theorem serial_all : always (s0, family n (fun r => to_hdf5_serial n r create axis0)) (fun t =>
    (forall r, r < n -> returned t r (Ok tt)) /\ h_file (fst t) = true /\ h_dset (fst t) = true /\ h_open (fst t) = [] /\ h_parts (fst t) = seq 0 n).
  Proof.
    apply always_inv with (I := hinv); [apply h_start|apply h_step|]. intros t H K. destruct (h_progress t H K) as [[F [D [O Q]]] R]. auto 6.
  Qed.
  Theorem serial_alone : throughout (s0, family n (fun r => to_hdf5_serial n r create axis0)) (fun s => length (h_open s) <= 1).
  Proof.
    intros t R. assert (H : hinv t) by (eapply reach_inv; [apply h_start|apply h_step|exact R]).
    destruct H as [a d s P La Ha Hd HP|s P X Ha HP|j b s P Lj Lb [_ [_ [O _]]] HP|s P [_ [_ [O _]]] HP]; cbn [fst].
    - destruct a as [|[|[|[|[|a]]]]]; [| | | | |lia]; cbn [hAs] in Ha.
      + subst s. rewrite closed. auto.
      + destruct Ha as [_ ->]. auto.
      + destruct Ha as [_ [-> _]]. auto.
      + destruct Ha as [_ [-> _]]. auto.
      + destruct Ha as [_ [-> _]]. auto.
    - destruct Ha as [_ [-> _]]. auto.
    - rewrite O. destruct ((b =? 1) || (b =? 2)); auto.
    - rewrite O. auto.
  Qed.
End Serial.
Section SerialMissing.
  Variables (n : nat) (axis0 : bool) (s0 : hstate).
  Hypothesis n_pos : 0 < n.
  Hypothesis missing : h_file s0 = false.
  Notation P0 := (fun r => to_hdf5_serial n r false axis0).
  Inductive hno : state hstate nat (res unit) -> Prop :=
  | hno0 : hno (s0, family n P0)
  | hno1 : forall P, P 0 = Ret (Err FileNotFoundError) -> (forall r, 0 < r < n -> P r = hwait n axis0 r) -> hno (s0, family n P).
  Lemma P0_eq : forall r, r < n -> P0 r = if r =? 0 then hA n false axis0 0 else hwait n axis0 r.
  Proof. intros r L. unfold to_hdf5_serial. destruct (Nat.eqb_spec r 0); subst; unfold hA, hwait, hbar, hB, hC; cbn [nth]; rewrite Nat.sub_0_r; reflexivity. Qed.
  Lemma hno_step : forall t u, hno t -> step t u -> hno u.
  Proof.
    intros t u H T. destruct H as [|P E0 E].
    - apply step_family in T; auto.
      + destruct T as [[c [v [k [A ->]]]]|[r [f [q [k [s' [Lr [A [As ->]]]]]]]]].
        * specialize (A 0 n_pos). cbv beta in A. rewrite P0_eq in A by auto. discriminate.
        * cbv beta in A. rewrite P0_eq in A by auto. destruct (Nat.eqb_spec r 0) as [->|N].
          -- unfold hA, guarded in A. cbn [nth] in A. inversion A; subst f q k; clear A. cbv beta in As. rewrite missing in As. injection As as <-. apply hno1; [cbn [Nat.eqb]; cbv beta; rewrite missing; auto|].
             intros r Lr0. cbv beta. destruct (Nat.eqb_spec r 0); [lia|]. rewrite P0_eq by lia. destruct (Nat.eqb_spec r 0); [lia|auto].
          -- inversion A; subst f q k. rewrite missing in As. discriminate.
      + intros r L. cbv beta. rewrite P0_eq by auto. destruct (r =? 0); [apply hA_world|apply hwait_world].
    - apply step_family in T; auto.
      + destruct T as [[c [v [k [A ->]]]]|[r [f [q [k [s' [Lr [A [As ->]]]]]]]]].
        * specialize (A 0 n_pos). congruence.
        * destruct (Nat.eq_dec r 0) as [->|N]; [congruence|]. rewrite E in A by lia. inversion A; subst f q k. rewrite missing in As. discriminate.
      + intros r L. destruct (Nat.eq_dec r 0) as [->|N]; [rewrite E0; intros g c v k X; discriminate|]. rewrite E by lia. apply hwait_world.
  Qed.
  Theorem serial_missing : always (s0, family n P0) (fun t => fst t = s0 /\ returned t 0 (Err FileNotFoundError) /\ forall r, 0 < r < n -> forall x, ~ returned t r x).
  Proof.
    apply always_inv with (I := hno); [apply hno0|apply hno_step|]. intros t H K. destruct H as [|P E0 E].
    - exfalso. destruct (act_step n s0 P0 0 _ _ _ s0 n_pos ltac:(cbv beta; rewrite P0_eq by auto; reflexivity)) as [u Hu]; [|eapply K; eauto]. simpl. rewrite missing. auto.
    - split; auto. split; [apply returned_family; auto|]. intros r L x X. unfold returned in X. cbn [snd] in X. rewrite family_nth in X. destruct (Nat.ltb_spec r n); [|lia]. rewrite E in X by lia. discriminate.
  Qed.
End SerialMissing.
