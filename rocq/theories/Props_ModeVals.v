(** * Props_ModeVals: the numbers of a new mode and of the two default modes (C16) *)
From Coq Require Import String List ZArith QArith Bool Lia Lqa.
From Verif Require Import PyBase PyFacts Mode ModeSpec FloatSpec Props_Mode.
Import ListNotations.
Local Open Scope Q_scope.

Lemma fmul_product a b : float_product a b (fmul a b).
Proof.
  assert (T : forall q, q == 0 \/ 0 < q \/ q < 0) by (intro q; destruct (Q_dec q 0) as [[H|H]|H]; auto).
  destruct a as [x| | |], b as [y| | |]; cbn [fmul fscale_inf]; try (constructor; unfold infinite, positive_f, negative_f; eauto; fail).
  - destruct (Qeqb x 0) eqn:E; [apply Qeqb_eq in E; apply product_zero_infinite; [exists x; auto|left; auto]|].
    apply Qeqb_neq in E. destruct (Qltb 0 x) eqn:L; cbn.
    + apply Qltb_lt in L. apply product_same_sign; [right; left; auto|]. left. split; [right; eauto|left; auto].
    + apply Qltb_ge in L. apply product_other_sign; [right; left; auto|]. right. split; [right; exists x; split; auto|left; auto].
      destruct (T x) as [?|[?|?]]; auto; [contradiction|lra].
  - destruct (Qeqb x 0) eqn:E; [apply Qeqb_eq in E; apply product_zero_infinite; [exists x; auto|right; auto]|].
    apply Qeqb_neq in E. destruct (Qltb 0 x) eqn:L; cbn.
    + apply Qltb_lt in L. apply product_other_sign; [right; right; auto|]. left. split; [right; eauto|left; auto].
    + apply Qltb_ge in L. apply product_same_sign; [right; right; auto|]. right. split; [right; exists x; split; auto|left; auto].
      destruct (T x) as [?|[?|?]]; auto; [contradiction|lra].
  - destruct (Qeqb y 0) eqn:E; [apply Qeqb_eq in E; apply product_infinite_zero; [left; auto|exists y; auto]|].
    apply Qeqb_neq in E. destruct (Qltb 0 y) eqn:L; cbn.
    + apply Qltb_lt in L. apply product_same_sign; [left; left; auto|]. left. split; [left; auto|right; eauto].
    + apply Qltb_ge in L. apply product_other_sign; [left; left; auto|]. left. split; [left; auto|right; exists y; split; auto].
      destruct (T y) as [?|[?|?]]; auto; [contradiction|lra].
  - destruct (Qeqb y 0) eqn:E; [apply Qeqb_eq in E; apply product_infinite_zero; [right; auto|exists y; auto]|].
    apply Qeqb_neq in E. destruct (Qltb 0 y) eqn:L; cbn.
    + apply Qltb_lt in L. apply product_other_sign; [left; right; auto|]. right. split; [left; auto|right; eauto].
    + apply Qltb_ge in L. apply product_same_sign; [left; right; auto|]. right. split; [left; auto|right; exists y; split; auto].
      destruct (T y) as [?|[?|?]]; auto; [contradiction|lra].
Qed.

(** C16: the two frequencies of a new mode are the float products of the arguments with the number of lines *)
Theorem C16_frequencies_per_line : forall r m, new_mode r = Ok m ->
  exists fmax fini d, ar_fmax r = Some fmax /\ ar_fini r = Some fini /\ ar_d r = Some d /\
    float_product fmax d (tm_fmax m) /\ float_product fini d (tm_fini m).
Proof.
  intros r m H. destruct (C16_constructor_values r m H) as (_ & _ & _ & _ & _ & _ & _ & _ & _ & _ & D & (x & X & EX) & (y & Y & EY)).
  exists x, y, (tm_d m). rewrite EX, EY. repeat (split; auto); apply fmul_product.
Qed.
Print Assumptions C16_frequencies_per_line.

(** a mode with infinitely many lines and an initial frequency of zero is accepted, and starts from NaN *)
Theorem C16_infinite_lines_refuted : exists r m, new_mode r = Ok m /\ ar_d r = Some PInf /\ ar_fini r = Some (Fin 0) /\
  tm_fini m = NaN /\ (forall a, a <> A_fini -> mode_domain a (get_attr m a)).
Proof.
  exists (mkModeArgs (Some "x"%string) (Some (Fin 1)) (Some (Fin 1)) (Some (Fin 1)) (Some (Fin 1)) (Some (Fin 1)) (Some (Fin 1)) (Some (Fin 1))
    (Some (Fin 1)) (Some (Fin 1)) (Some (Fin 1)) (Some PInf) (Some (Fin 0))).
  eexists. split; [vm_compute; reflexivity|]. repeat (split; auto).
  intros a N. destruct a; cbn; unfold nonneg_f, pos_f; try congruence; try (left; reflexivity); try (right; eexists; split; [reflexivity|lra]);
    eexists; split; try reflexivity; lra.
Qed.
Print Assumptions C16_infinite_lines_refuted.

(** the manager of the default modes: a bus of four lines and a metro of one line, with these numbers *)
Theorem C16_default_modes : exists bus metro, default_world = Ok (mkWorld [bus; metro] (mkManager ["bus"; "metro"]%string [0; 1]%nat)) /\
  (tm_name bus = "bus"%string /\ tm_bya bus = Fin 1 /\ tm_co bus = Fin (861#100) /\ tm_c1 bus = Fin (15#100) /\ tm_c2 bus = Fin 0 /\
   tm_v bus = Fin 20 /\ tm_t bus = Fin (25#10) /\ tm_fmax bus = Fin (150 * 4) /\ tm_kmax bus = Fin 160 /\ tm_theta bus = Fin (7#10) /\
   tm_tat bus = Fin 0 /\ tm_d bus = Fin 4 /\ tm_fini bus = Fin (28 * 4)) /\
  (tm_name metro = "metro"%string /\ tm_bya metro = Fin 0 /\ tm_co metro = Fin (8091#100) /\ tm_c1 metro = Fin (3#10) /\ tm_c2 metro = Fin (93315#100) /\
   tm_v metro = Fin 40 /\ tm_t metro = Fin (33#100) /\ tm_fmax metro = Fin (40 * 1) /\ tm_kmax metro = Fin 1440 /\ tm_theta metro = Fin (5#10) /\
   tm_tat metro = Fin 1 /\ tm_d metro = Fin 1 /\ tm_fini metro = Fin (28 * 1)) /\
  is_valid_to_assignment_step [tm_d bus; tm_d metro] = Ok true.
Proof. eexists. eexists. split; [vm_compute; reflexivity|]. cbn. repeat (split; [try split; reflexivity|]). repeat split; reflexivity. Qed.
Print Assumptions C16_default_modes.

Example C16_frequencies_ex : exists m, new_mode metro_args = Ok m /\ float_product (Fin 40) (Fin 1) (tm_fmax m).
Proof. eexists. split; [vm_compute; reflexivity|]. apply product_finite. Qed.
