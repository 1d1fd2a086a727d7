(** * Props_FloatTol: C86, the test of convergence with the numbers of the machine *)
From Coq Require Import ZArith Reals List Bool Lra Lia.
From Flocq Require Import Core.Core Plus_error IEEE754.BinarySingleNaN.
From Verif Require Import PyBase FloatDemand FloatTol Props_Float.
Import ListNotations.
Local Open Scope R_scope.

Notation fexp64 := (SpecFloat.fexp 53 1024).
Notation rnd := (round radix2 fexp64 (round_mode mode_NE)).
Definition pinf : double := B754_infinity false.
Definition finite (x : double) : Prop := is_finite x = true.
Definition far (z : double) (r : R) : Prop := z = pinf \/ (finite z /\ r <= B2R z).

#[local] Instance vexp : Valid_exp fexp64.
Proof. apply (fexp_correct 53 1024). reflexivity. Qed.
#[local] Instance vmono : Monotone_exp fexp64.
Proof. apply (fexp_monotone 53 1024). Qed.
Lemma vrnd : Valid_rnd (round_mode mode_NE).
Proof. apply valid_rnd_round_mode. Qed.
#[local] Existing Instance vrnd.

Lemma rnd_abs r : Rabs (rnd r) = rnd (Rabs r).
Proof. cbn [round_mode]. symmetry. apply round_NE_abs. exact vexp. Qed.
Lemma inf_of_overflow (x : double) s : B2SF x = binary_overflow 53 1024 mode_NE s -> x = B754_infinity s.
Proof. intros H. apply B2SF_inj. rewrite H. reflexivity. Qed.

(** the rounded absolute difference of two finite numbers *)
Lemma diff_spec x y : finite x -> finite y -> let z := Babs (fsub x y) in let r := rnd (Rabs (B2R x - B2R y)) in
  (r < bpow radix2 1024 /\ finite z /\ B2R z = r) \/ (bpow radix2 1024 <= r /\ z = pinf).
Proof.
  intros X Y. cbn zeta. pose proof (Bminus_correct 53 1024 _ _ mode_NE x y X Y) as H. rewrite rnd_abs in H.
  revert H. case Rlt_bool_spec; intros B H.
  - left. destruct H as (H1 & H2 & _). split; [exact B|]. unfold finite, fsub. rewrite is_finite_Babs, B2R_Babs, H1, rnd_abs. auto.
  - right. split; [exact B|]. destruct H as [H _]. apply inf_of_overflow in H. unfold fsub. rewrite H. reflexivity.
Qed.
Definition pos (z : double) : Prop := is_nan z = false /\ Bsign z = false.
Lemma pos_cases z : pos z -> z = pinf \/ (finite z /\ 0 <= B2R z).
Proof.
  destruct z as [s|s| |s m e H]; intros [N S]; cbn in *; try discriminate; subst.
  - right. split; [reflexivity|cbn; lra].
  - now left.
  - right. split; [reflexivity|]. apply F2R_ge_0. cbn. lia.
Qed.
Lemma pos_diff x y : finite x -> finite y -> pos (Babs (fsub x y)).
Proof.
  intros X Y. split; [|apply Bsign_Babs]. destruct (diff_spec x y X Y) as [(_ & F & _)|[_ ->]]; [|reflexivity].
  destruct (Babs (fsub x y)); try reflexivity. discriminate.
Qed.
Lemma add_spec x y : pos x -> pos y -> pos (fadd x y) /\ (forall r, far x r \/ far y r -> far (fadd x y) r) /\
  (finite x -> finite y -> B2R x = 0 -> B2R y = 0 -> finite (fadd x y) /\ B2R (fadd x y) = 0).
Proof.
  intros PX PY. destruct (pos_cases x PX) as [->|[FX RX]].
  { destruct (pos_cases y PY) as [->|[FY RY]].
    - split; [split; reflexivity|]. split; [left; reflexivity|discriminate].
    - destruct y as [s|s| |s m e H]; try discriminate; (split; [split; reflexivity|]; split; [left; reflexivity|discriminate]). }
  destruct (pos_cases y PY) as [->|[FY RY]].
  { destruct x as [s|s| |s m e H]; try discriminate; (split; [split; reflexivity|]; split; [left; reflexivity|discriminate]). }
  pose proof (Bplus_correct 53 1024 _ _ mode_NE x y FX FY) as H. fold (fadd x y) in H. destruct PX as [_ SX], PY as [_ SY].
  assert (GX : B2R x <= rnd (B2R x + B2R y)) by (apply round_ge_generic; auto with typeclass_instances; [apply generic_format_B2R|lra]).
  assert (GY : B2R y <= rnd (B2R x + B2R y)) by (apply round_ge_generic; auto with typeclass_instances; [apply generic_format_B2R|lra]).
  revert H. case Rlt_bool_spec; intros B H.
  - destruct H as (H1 & H2 & H3). split; [split|split].
    + destruct (fadd x y); try reflexivity. discriminate.
    + rewrite H3, SX, SY. case Rcompare_spec; intros; try reflexivity. lra.
    + intros r [[->|[_ R]]|[->|[_ R]]]; try discriminate; right; split; auto; lra.
    + intros _ _ E1 E2. split; [exact H2|]. rewrite H1, E1, E2, Rplus_0_r. apply round_0. auto with typeclass_instances.
  - destruct H as [H _]. apply inf_of_overflow in H. rewrite SX in H. rewrite H. split; [split; reflexivity|]. split; [now left|].
    intros _ _ E1 E2. rewrite E1, E2, Rplus_0_r, round_0, Rabs_R0 in B by auto with typeclass_instances.
    pose proof (bpow_gt_0 radix2 1024). lra.
Qed.

Lemma from_spec : forall a b dif, Forall finite a -> Forall finite b -> (length a <= length b)%nat -> pos dif ->
  exists d, fdistance_from a b dif = Ok d /\ pos d /\
    (forall r, far dif r -> far d r) /\ (forall x y, In (x, y) (combine a b) -> forall r, far (Babs (fsub x y)) r -> far d r) /\
    (finite dif -> B2R dif = 0 -> (forall x y, In (x, y) (combine a b) -> B2R x = B2R y) -> finite d /\ B2R d = 0).
Proof.
  induction a as [|x a IH]; intros b dif FA FB L P.
  - exists dif. cbn. repeat split; auto; try apply P; contradiction.
  - destruct b as [|y b]; [cbn in L; lia|]. inversion FA as [|? ? FX FA']; subst. inversion FB as [|? ? FY FB']; subst.
    pose proof (pos_diff x y FX FY) as PZ. destruct (add_spec _ _ P PZ) as (P' & G & Z).
    destruct (IH b (fadd dif (Babs (fsub x y))) FA' FB' ltac:(cbn in L; lia) P') as (d & E & PD & G1 & G2 & G3).
    exists d. cbn [fdistance_from combine]. split; [exact E|]. split; [exact PD|]. split; [|split].
    + intros r R. apply G1, G. now left.
    + intros x' y' [I|I] r R; [injection I as <- <-; apply G1, G; now right|apply (G2 x' y' I r R)].
    + intros FD ZD EQ. assert (EXY : B2R x = B2R y) by (apply EQ; now left).
      assert (X : finite (Babs (fsub x y)) /\ B2R (Babs (fsub x y)) = 0).
      { destruct (diff_spec x y FX FY) as [(_ & F & V)|[B _]].
        - split; [exact F|]. rewrite V, EXY, Rminus_diag_eq, Rabs_R0 by reflexivity. apply round_0. auto with typeclass_instances.
        - rewrite EXY, Rminus_diag_eq, Rabs_R0, round_0 in B by auto with typeclass_instances. pose proof (bpow_gt_0 radix2 1024). lra. }
      destruct X as [X1 X2]. destruct (Z FD X1 ZD X2) as [Z1 Z2]. apply G3; auto. intros x' y' I. apply EQ. now right.
Qed.
Lemma pos_zero : pos fzero.
Proof. split; reflexivity. Qed.

(** C86: between finite frequencies the distance is a finite number >= 0, or infinity, and never nan *)
Theorem C86_defined : forall a b, Forall finite a -> Forall finite b -> (length a <= length b)%nat ->
  exists d, fdistance a b = Ok d /\ (d = pinf \/ (finite d /\ 0 <= B2R d)).
Proof.
  intros a b FA FB L. destruct (from_spec a b fzero FA FB L pos_zero) as (d & E & P & _). exists d. split; [exact E|]. apply pos_cases, P.
Qed.
Print Assumptions C86_defined.
(** it is symmetric, to the last bit *)
Theorem C86_symmetric : forall a b, Forall finite a -> Forall finite b -> length a = length b -> fdistance a b = fdistance b a.
Proof.
  intros a b FA FB L. unfold fdistance. generalize fzero as dif. revert b FB L.
  induction FA as [|x a FX FA IH]; intros [|y b] FB L dif; try discriminate; [reflexivity|]. inversion FB as [|? ? FY FB']; subst.
  cbn [fdistance_from]. replace (Babs (fsub y x)) with (Babs (fsub x y)); [apply IH; auto|].
  destruct (diff_spec x y FX FY) as [(B & F & V)|[B V]], (diff_spec y x FY FX) as [(B' & F' & V')|[B' V']];
    rewrite (Rabs_minus_sym (B2R y)) in *; try lra; [|now rewrite V, V'].
  apply B2R_Bsign_inj; auto; [congruence|]. now rewrite !Bsign_Babs.
Qed.
Print Assumptions C86_symmetric.
(** it is zero only between equal frequencies: no difference is so small that it is lost *)
Theorem C86_zero : forall a b d, Forall finite a -> Forall finite b -> length a = length b -> fdistance a b = Ok d ->
  ((finite d /\ B2R d = 0) <-> Forall2 (fun x y => B2R x = B2R y) a b).
Proof.
  intros a b d FA FB L E. destruct (from_spec a b fzero FA FB (Nat.eq_le_incl _ _ L) pos_zero) as (d' & E' & P & _ & G & Z).
  unfold fdistance in E. rewrite E in E'. injection E' as <-. split.
  - intros [F0 D0].
    assert (A : forall x y, In (x, y) (combine a b) -> finite x -> finite y -> B2R x = B2R y).
    { intros x y I FX FY. destruct (Req_dec (B2R x - B2R y) 0) as [Q|Q]; [lra|exfalso].
      destruct (diff_spec x y FX FY) as [(_ & F & V)|[_ V]].
      - assert (NZ : 0 < rnd (Rabs (B2R x - B2R y))).
        { rewrite <- rnd_abs. apply Rabs_pos_lt. unfold Rminus. apply round_plus_neq_0; auto with typeclass_instances.
          - apply generic_format_B2R.
          - apply generic_format_opp, generic_format_B2R. }
        destruct (G x y I _ (or_intror (conj F (Req_le _ _ (eq_sym V))))) as [K|[_ K]]; [subst d; discriminate|lra].
      - destruct (G x y I 1) as [K|[_ K]]; [now left|subst d; discriminate|lra]. }
    clear G Z E P F0 D0. revert b FB L A. induction FA as [|x a FX FA IH]; intros [|y b] FB L A; try discriminate; constructor.
    + inversion FB; subst. apply A; auto. now left.
    + inversion FB; subst. apply IH; auto. intros x' y' I. apply A. now right.
  - intros H. apply Z; [reflexivity|reflexivity|]. clear -H. intros x y. revert x y. induction H as [|x y a b E H IH]; [contradiction|].
    intros x' y' [I|I]; [injection I as <- <-; exact E|exact (IH x' y' I)].
Qed.
Print Assumptions C86_zero.
(** when the test of convergence passes, every frequency has changed by less than the tolerance, exactly *)
Theorem C86_tolerance : forall a b tol, Forall finite a -> Forall finite b -> length a = length b -> finite tol ->
  ftolerance a b tol = Ok true -> Forall2 (fun x y => Rabs (B2R x - B2R y) < B2R tol) a b.
Proof.
  intros a b tol FA FB L FT H. destruct (from_spec a b fzero FA FB (Nat.eq_le_incl _ _ L) pos_zero) as (d & E & P & _ & G & _).
  unfold ftolerance, fdistance in H. rewrite E in H. cbn [bind] in H. injection H as H.
  assert (D : finite d /\ B2R d < B2R tol).
  { destruct (pos_cases d P) as [->|[F R]].
    - exfalso. destruct tol as [s|s| |s m e K]; try discriminate; destruct s; discriminate.
    - split; [exact F|]. rewrite Bltb_correct in H by (rewrite ?is_finite_Babs; auto). rewrite B2R_Babs, Rabs_pos_eq in H by exact R.
      revert H. case Rlt_bool_spec; [auto|discriminate]. }
  destruct D as [FD DT].
  assert (A : forall x y, In (x, y) (combine a b) -> finite x -> finite y -> Rabs (B2R x - B2R y) < B2R tol).
  { intros x y I FX FY. apply Rnot_le_lt. intros K.
    assert (K' : B2R tol <= rnd (Rabs (B2R x - B2R y))) by (apply round_ge_generic; auto with typeclass_instances; apply generic_format_B2R).
    destruct (G x y I (B2R tol)) as [->|[_ Q]]; [|discriminate|lra].
    destruct (diff_spec x y FX FY) as [(_ & F & V)|[_ V]]; [right; split; [exact F|lra]|now left]. }
  clear G E P H DT FD FT. revert b FB L A. induction FA as [|x a FX FA IH]; intros [|y b] FB L A; try discriminate; constructor.
  - inversion FB; subst. apply A; auto. now left.
  - inversion FB; subst. apply IH; auto. intros x' y' I. apply A. now right.
Qed.
Print Assumptions C86_tolerance.
(** a frequency that is not a number never passes the test *)
Theorem C86_nan : forall a b tol, length a = length b -> In B754_nan a \/ In B754_nan b -> ftolerance a b tol = Ok false.
Proof.
  assert (N : forall a b, length a = length b -> fdistance_from a b B754_nan = Ok B754_nan).
  { induction a as [|x a IH]; intros [|y b] L; try discriminate; [reflexivity|]. cbn [fdistance_from].
    replace (fadd B754_nan (Babs (fsub x y))) with (B754_nan : double) by reflexivity. apply IH. now injection L. }
  assert (A : forall a b dif, length a = length b -> In B754_nan a \/ In B754_nan b -> fdistance_from a b dif = Ok B754_nan).
  { induction a as [|x a IH]; intros [|y b] dif L I; try discriminate; [destruct I as [[]|[]]|]. injection L as L. cbn [fdistance_from].
    assert (M : x = B754_nan \/ y = B754_nan -> fadd dif (Babs (fsub x y)) = B754_nan).
    { assert (M1 : fsub x B754_nan = B754_nan) by (destruct x as [[]|[]| |]; reflexivity).
      assert (M2 : fadd dif B754_nan = B754_nan) by (destruct dif as [[]|[]| |]; reflexivity).
      intros [->| ->]; [change (fsub B754_nan y) with (B754_nan : double)|rewrite M1]; exact M2. }
    destruct I as [[I|I]|[I|I]]; try (rewrite M by auto; apply N; exact L); apply IH; auto. }
  intros a b tol L I. unfold ftolerance, fdistance. rewrite (A a b fzero L I). cbn [bind]. f_equal.
Qed.
Print Assumptions C86_nan.

Definition ex_a : list double := [dbl 7 0; dbl 25 (-1); f0_1].
Definition ex_b : list double := [dbl 7 0; dbl 3 2; f0_2].
Example C86_ex : Forall finite ex_a /\ Forall finite ex_b /\ ftolerance ex_a ex_b (dbl 1 0) = Ok true /\ ftolerance ex_a ex_b (dbl 1 (-1)) = Ok false /\
  (exists d, fdistance ex_a ex_b = Ok d /\ finite d /\ B2R d <> 0) /\ fdistance ex_a ex_a = Ok fzero.
Proof.
  split; [repeat constructor|]. split; [repeat constructor|]. split; [vm_compute; reflexivity|]. split; [vm_compute; reflexivity|]. split; [|vm_compute; reflexivity].
  destruct (C86_defined ex_a ex_b) as (d & E & _); [repeat constructor|repeat constructor|cbn; lia|]. exists d. split; [exact E|].
  assert (F : is_finite d = true) by (assert (W : match fdistance ex_a ex_b with Ok x => is_finite x | Err _ => false end = true) by (vm_compute; reflexivity); now rewrite E in W). split; [exact F|]. intros K.
  assert (X : Forall2 (fun x y => B2R x = B2R y) ex_a ex_b) by (apply (C86_zero ex_a ex_b d); auto; repeat constructor).
  inversion X as [|? ? ? ? _ X1]; subst. inversion X1 as [|? ? ? ? X2 _]; subst. assert (Y : F2R (Float radix2 7036874417766400 (-49)) = F2R (Float radix2 6755399441055744 (-49))) by exact X2.
  apply eq_F2R in Y. discriminate.
Qed.
(** the triangle inequality of C50 does not survive rounding: with the detour the way is shorter *)
Theorem C86_triangle_refuted : exists a b c dab dbc dac, Forall finite a /\ Forall finite b /\ Forall finite c /\
  length a = length b /\ length b = length c /\ fdistance a b = Ok dab /\ fdistance b c = Ok dbc /\ fdistance a c = Ok dac /\
  B2R dab + B2R dbc < B2R dac.
Proof.
  pose (a := [fzero; fzero]). pose (b := [dbl 1 0; dbl 1 (-53)]). pose (c := [dbl 1 0; dbl 1 (-52)]).
  pose (get := fun r : res double => match r with Ok x => x | Err _ => fzero end).
  assert (K : forall x y, Forall finite x -> Forall finite y -> length x = length y -> fdistance x y = Ok (get (fdistance x y))).
  { intros x y X Y L. destruct (C86_defined x y X Y (Nat.eq_le_incl _ _ L)) as (d & -> & _). reflexivity. }
  assert (A : Forall finite a) by repeat constructor. assert (B : Forall finite b) by repeat constructor. assert (C : Forall finite c) by repeat constructor.
  exists a, b, c, (get (fdistance a b)), (get (fdistance b c)), (get (fdistance a c)).
  split; [exact A|]. split; [exact B|]. split; [exact C|]. split; [reflexivity|]. split; [reflexivity|].
  split; [apply K; auto|]. split; [apply K; auto|]. split; [apply K; auto|].
  rewrite <- !SF2R_B2SF.
  replace (B2SF (get (fdistance a b))) with (SpecFloat.S754_finite false 4503599627370496 (-52)) by (vm_compute; reflexivity).
  replace (B2SF (get (fdistance b c))) with (SpecFloat.S754_finite false 4503599627370496 (-105)) by (vm_compute; reflexivity).
  replace (B2SF (get (fdistance a c))) with (SpecFloat.S754_finite false 4503599627370497 (-52)) by (vm_compute; reflexivity).
  cbn [SF2R]. unfold F2R. cbn. lra.
Qed.
Print Assumptions C86_triangle_refuted.
