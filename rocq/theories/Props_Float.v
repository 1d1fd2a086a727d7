(** * Props_Float: C84, the total of the trips with the numbers of the machine *)
From Coq Require Import ZArith QArith Qreals Reals List Bool Lra Lia.
From Flocq Require Import Core.Core IEEE754.BinarySingleNaN.
From Verif Require Import PyBase Graph GraphSpec Demand DemandSpec FloatDemand Props_Demand.
Import ListNotations.
Local Open Scope R_scope.

(** all the cells of the matrix, and their sum as real numbers (no rounding) *)
Definition fcells (D : fdemand) : list double := flat_map (fun '(_, row) => map snd row) (fd_matrix D).
Fixpoint Rsum (l : list double) : R := match l with [] => 0 | x :: l' => B2R x + Rsum l' end.
(** a finite double that is a whole number of units of 2^e *)
Definition whole (e : Z) (x : double) : Prop := is_finite x = true /\ exists m : Z, B2R x = IZR m * bpow radix2 e.
(** the calls give whole numbers of units *)
Definition whole_call (e : Z) (op : fop) : Prop := match op with FChange _ _ v => whole e v | _ => True end.

Definition good (e : Z) (x : double) : Prop := whole e x /\ 0 <= B2R x.
Definition rcells (M : list (Z * list (Z * double))) : list double := flat_map (fun '(_, row) => map snd row) M.

Lemma Rsum_app l l' : Rsum (l ++ l') = Rsum l + Rsum l'.
Proof. induction l as [|x l IH]; cbn [app Rsum]; [ring|]. rewrite IH. ring. Qed.
Lemma Rsum_set (r : list (Z * double)) d v old : dget Z.eqb r d = Some old ->
  Rsum (map snd (dset Z.eqb r d v)) = Rsum (map snd r) - B2R old + B2R v.
Proof.
  induction r as [|[k x] r IH]; cbn; [discriminate|]. destruct (Z.eqb d k).
  - intros E. injection E as ->. cbn. ring.
  - intros E. cbn. rewrite (IH E). ring.
Qed.
Lemma Rsum_mset M o r r' : dget Z.eqb M o = Some r ->
  Rsum (rcells (dset Z.eqb M o r')) = Rsum (rcells M) - Rsum (map snd r) + Rsum (map snd r').
Proof.
  induction M as [|[k x] M IH]; cbn; [discriminate|]. destruct (Z.eqb o k).
  - intros E. injection E as ->. cbn. rewrite !Rsum_app. ring.
  - intros E. cbn. rewrite !Rsum_app. unfold rcells in IH. rewrite (IH E). ring.
Qed.
Lemma good_set e (r : list (Z * double)) d v : Forall (good e) (map snd r) -> good e v -> Forall (good e) (map snd (dset Z.eqb r d v)).
Proof.
  intros H V. induction r as [|[k x] r IH]; cbn; [auto|]. inversion H; subst. destruct (Z.eqb d k); cbn; auto.
Qed.
Lemma good_get e (r : list (Z * double)) d v : Forall (good e) (map snd r) -> dget Z.eqb r d = Some v -> good e v.
Proof.
  intros H. induction r as [|[k x] r IH]; cbn; [discriminate|]. inversion H; subst.
  destruct (Z.eqb d k); [|auto]. intros E. injection E as ->. auto.
Qed.
Lemma good_mset e M o r : Forall (good e) (rcells M) -> Forall (good e) (map snd r) -> Forall (good e) (rcells (dset Z.eqb M o r)).
Proof.
  intros H V. induction M as [|[k x] M IH]; cbn; [rewrite app_nil_r; auto|]. cbn in H. apply Forall_app in H as [H1 H2].
  destruct (Z.eqb o k); cbn; apply Forall_app; auto.
Qed.
Lemma good_mget e M o r : Forall (good e) (rcells M) -> dget Z.eqb M o = Some r -> Forall (good e) (map snd r).
Proof.
  intros H. induction M as [|[k x] M IH]; cbn; [discriminate|]. cbn in H. apply Forall_app in H as [H1 H2].
  destruct (Z.eqb o k); [|auto]. intros E. injection E as ->. auto.
Qed.
Lemma good_sum e l : Forall (good e) l -> 0 <= Rsum l /\ exists m : Z, Rsum l = IZR m * bpow radix2 e.
Proof.
  induction 1 as [|x l [[_ [m E]] P] H [IH [k K]]]; cbn.
  - split; [lra|]. exists 0%Z. ring.
  - split; [lra|]. exists (m + k)%Z. rewrite plus_IZR, E, K. ring.
Qed.
Lemma good_le e l x : Forall (good e) l -> In x l -> B2R x <= Rsum l.
Proof.
  induction 1 as [|y l [_ P] H IH]; cbn; [tauto|]. pose proof (proj1 (good_sum e l H)). intros [->|I]; [lra|].
  specialize (IH I). lra.
Qed.
Lemma dget_in (r : list (Z * double)) d v : dget Z.eqb r d = Some v -> In v (map snd r).
Proof.
  induction r as [|[k x] r IH]; cbn; [discriminate|]. destruct (Z.eqb d k); [|auto]. intros E. injection E as ->. auto.
Qed.
Lemma mget_in M o r v : dget Z.eqb M o = Some r -> In v (map snd r) -> In v (rcells M).
Proof.
  induction M as [|[k x] M IH]; cbn; [discriminate|]. rewrite in_app_iff. destruct (Z.eqb o k); [|auto].
  intros E. injection E as ->. auto.
Qed.

(** whole numbers of units below 2^53 units are added and subtracted without rounding *)
Lemma unit_exact e m : (-1074 <= e <= 970)%Z -> Rabs (IZR m * bpow radix2 e) < bpow radix2 (53 + e) ->
  round radix2 (SpecFloat.fexp 53 1024) (round_mode mode_NE) (IZR m * bpow radix2 e) = IZR m * bpow radix2 e
  /\ Rlt_bool (Rabs (IZR m * bpow radix2 e)) (bpow radix2 1024) = true.
Proof.
  intros He B. split.
  - apply round_generic; [apply valid_rnd_round_mode|]. apply generic_format_FLT.
    apply FLT_spec with (Float radix2 m e); [reflexivity| |cbn; lia]. cbn [Fnum].
    rewrite Rabs_mult, (Rabs_pos_eq (bpow radix2 e)), bpow_plus in B by apply bpow_ge_0.
    apply Rmult_lt_reg_r in B; [|apply bpow_gt_0]. rewrite <- abs_IZR in B.
    change (bpow radix2 53) with (IZR (Zpower radix2 53)) in B. apply lt_IZR in B. exact B.
  - apply Rlt_bool_true. eapply Rlt_le_trans; [exact B|]. apply bpow_le. lia.
Qed.
Lemma add_exact e x y m : (-1074 <= e <= 970)%Z -> is_finite x = true -> is_finite y = true ->
  B2R x + B2R y = IZR m * bpow radix2 e -> Rabs (B2R x + B2R y) < bpow radix2 (53 + e) ->
  is_finite (fadd x y) = true /\ B2R (fadd x y) = B2R x + B2R y.
Proof.
  intros He X Y E B. rewrite E in *. destruct (unit_exact e m He B) as [R1 R2].
  pose proof (Bplus_correct 53 1024 _ _ mode_NE x y X Y) as K. rewrite E, R1, R2 in K. unfold fadd. tauto.
Qed.
Lemma sub_exact e x y m : (-1074 <= e <= 970)%Z -> is_finite x = true -> is_finite y = true ->
  B2R x - B2R y = IZR m * bpow radix2 e -> Rabs (B2R x - B2R y) < bpow radix2 (53 + e) ->
  is_finite (fsub x y) = true /\ B2R (fsub x y) = B2R x - B2R y.
Proof.
  intros He X Y E B. rewrite E in *. destruct (unit_exact e m He B) as [R1 R2].
  pose proof (Bminus_correct 53 1024 _ _ mode_NE x y X Y) as K. rewrite E, R1, R2 in K. unfold fsub. tauto.
Qed.

Definition inv (e : Z) (D : fdemand) : Prop :=
  Forall (good e) (fcells D) /\ is_finite (fd_total D) = true /\ B2R (fd_total D) = Rsum (fcells D).

Lemma fzero_good e : good e fzero.
Proof. split; [split; [reflexivity|exists 0%Z; cbn; ring]|cbn; lra]. Qed.

Lemma inv_new e nodes n : inv e (new_fdemand nodes n).
Proof.
  assert (A : forall M : list (Z * list (Z * QArith_base.Q)),
    let l := rcells (map (fun '(o, row) => (o, map (fun '(d, _) => (d, fzero)) row)) M) in Forall (eq fzero) l).
  { induction M as [|[o row] M IH]; cbn; [constructor|]. apply Forall_app. split; [|exact IH].
    induction row as [|[d q] row IH']; cbn; constructor; auto. }
  specialize (A (default_matrix nodes)). cbn zeta in A. unfold inv, fcells, new_fdemand. cbn [fd_matrix fd_total].
  fold (rcells (map (fun '(o, row) => (o, map (fun '(d, _) => (d, fzero)) row)) (default_matrix nodes))).
  revert A. generalize (rcells (map (fun '(o, row) => (o, map (fun '(d, _) => (d, fzero)) row)) (default_matrix nodes))).
  intros l A. split; [|split; [reflexivity|]].
  - eapply Forall_impl; [|exact A]. intros x <-. apply fzero_good.
  - cbn. induction A as [|x l <- A IH]; cbn; [reflexivity|]. rewrite <- IH. ring.
Qed.

Lemma touch_cells M o : rcells (dtouch Z.eqb [] M o) = rcells M.
Proof. unfold dtouch. destruct (dget Z.eqb M o); [reflexivity|]. unfold rcells. rewrite flat_map_app. cbn. apply app_nil_r. Qed.
Lemma touch_get M o : exists r, dget Z.eqb (dtouch Z.eqb [] M o) o = Some r /\ dget0 Z.eqb [] (dtouch Z.eqb [] M o) o = r
  /\ (dget Z.eqb M o = None -> r = @nil (Z * double)).
Proof.
  unfold dget0. assert (exists r, dget Z.eqb (dtouch Z.eqb [] M o) o = Some r /\ (dget Z.eqb M o = None -> r = @nil (Z * double))) as (r & E & K).
  { unfold dtouch. destruct (dget Z.eqb M o) as [r|] eqn:E; [exists r; split; [exact E|discriminate]|].
    exists []. split; [|auto]. revert E. induction M as [|[k x] M IH]; cbn.
    - now rewrite Z.eqb_refl.
    - destruct (Z.eqb o k); [discriminate|auto]. }
  exists r. rewrite E. auto.
Qed.
Lemma Rsum_touch (r : list (Z * double)) d : Rsum (map snd (dtouch Z.eqb fzero r d)) = Rsum (map snd r).
Proof. unfold dtouch. destruct (dget Z.eqb r d); [reflexivity|]. rewrite map_app, Rsum_app. cbn. ring. Qed.
Lemma good_touch e (r : list (Z * double)) d : Forall (good e) (map snd r) -> Forall (good e) (map snd (dtouch Z.eqb fzero r d)).
Proof.
  unfold dtouch. destruct (dget Z.eqb r d); [auto|]. intros H. rewrite map_app. apply Forall_app. split; [exact H|].
  constructor; [apply fzero_good|constructor].
Qed.

Lemma inv_step e D op : (-1074 <= e <= 970)%Z -> inv e D -> whole_call e op ->
  Rsum (fcells D) < bpow radix2 (53 + e) -> Rsum (fcells (fstep D op)) < bpow radix2 (53 + e) -> inv e (fstep D op).
Proof.
  intros He (G & F & T) W B B'. destruct op as [o d v|o|o d]; cbn [fstep] in *.
  - unfold fchange_vij in *. destruct W as [Fv [mv Ev]].
    destruct (Bltb v fzero) eqn:Ng; [repeat split; auto|].
    rewrite (Bltb_correct 53 1024 v fzero Fv eq_refl) in Ng.
    assert (Pv : 0 <= B2R v). { revert Ng. case Rlt_bool_spec; [discriminate|]. cbn. intros; lra. }
    destruct (dget Z.eqb (fd_matrix D) o) as [[|c row']|] eqn:Er; [repeat split; auto| |repeat split; auto].
    set (row := c :: row') in *. destruct (dget Z.eqb row d) as [old|] eqn:Eo; [|repeat split; auto].
    cbn [fst] in *. unfold fcells in B'. cbn [fd_matrix] in B'. unfold inv, fcells. cbn [fd_matrix fd_total].
    change (flat_map (fun '(_, row) => map snd row)) with rcells in *.
    pose proof (good_mget e _ _ _ G Er) as Gr. pose proof (good_get e _ _ _ Gr Eo) as Go.
    rewrite (Rsum_mset _ _ _ _ Er), (Rsum_set _ _ _ _ Eo) in *.
    pose proof (good_le e _ old G (mget_in _ _ _ _ Er (dget_in _ _ _ Eo))) as Lo.
    destruct (good_sum e _ G) as [Ps [ms Es]]. destruct Go as [[Fo [mo Eold]] Po].
    unfold fcells in *. change (flat_map (fun '(_, row) => map snd row)) with rcells in *.
    assert (X : is_finite (fsub (fd_total D) old) = true /\ B2R (fsub (fd_total D) old) = B2R (fd_total D) - B2R old).
    { apply (sub_exact e _ _ (ms - mo)); auto.
      - rewrite T, Es, Eold, minus_IZR. ring.
      - rewrite T, Rabs_pos_eq; lra. }
    destruct X as [X1 X2].
    assert (Y : is_finite (fadd (fsub (fd_total D) old) v) = true /\ B2R (fadd (fsub (fd_total D) old) v) = B2R (fsub (fd_total D) old) + B2R v).
    { apply (add_exact e _ _ (ms - mo + mv)); auto.
      - rewrite X2, T, Es, Eold, Ev, plus_IZR, minus_IZR. ring.
      - rewrite X2, T, Rabs_pos_eq; lra. }
    destruct Y as [Y1 Y2]. split; [|split; [exact Y1|]].
    + apply good_mset; [exact G|]. apply good_set; [exact Gr|]. split; [split; eauto|exact Pv].
    + rewrite Y2, X2, T. ring.
  - unfold inv, fcells, fread_row in *. cbn [fd_matrix fd_total] in *. change (flat_map (fun '(_, row) => map snd row)) with rcells in *.
    rewrite touch_cells in *. auto.
  - unfold inv, fcells, fread_cell in *. cbn [fd_matrix fd_total] in *. change (flat_map (fun '(_, row) => map snd row)) with rcells in *.
    destruct (touch_get (fd_matrix D) o) as (r & E1 & E2 & _). rewrite E2 in *.
    assert (G' : Forall (good e) (rcells (dtouch Z.eqb [] (fd_matrix D) o))) by (rewrite touch_cells; exact G).
    split; [|split; [exact F|]].
    + apply good_mset; [exact G'|]. apply good_touch. eapply good_mget; eauto.
    + rewrite (Rsum_mset _ _ _ _ E1), Rsum_touch, touch_cells, T. ring.
Qed.

(** C84: on every history of calls whose numbers of trips are whole numbers of some unit 2^e (trips, halves, quarters, ...)
    and in which the trips never add up to 2^53 units or more, the total kept in doubles is exactly the sum of the cells *)
Definition below (e : Z) (nodes : list node) (n : Z) (ops : list fop) : Prop :=
  forall before, (exists after, ops = before ++ after) -> Rsum (fcells (frun (new_fdemand nodes n) before)) < bpow radix2 (53 + e).
Lemma run_inv nodes n e ops : (-1074 <= e <= 970)%Z -> Forall (whole_call e) ops -> below e nodes n ops ->
  inv e (frun (new_fdemand nodes n) ops).
Proof.
  intros He. unfold below. induction ops as [|op ops IH] using rev_ind; intros W S; [apply inv_new|].
  apply Forall_app in W as [W1 W2]. inversion W2; subst. unfold frun in *. rewrite fold_left_app. cbn [fold_left].
  apply inv_step; auto.
  - apply IH; [exact W1|]. intros b [a ->]. apply S. exists (a ++ [op]). now rewrite app_assoc.
  - apply S. exists [op]. reflexivity.
  - specialize (S (ops ++ [op])). rewrite fold_left_app in S. apply S. exists []. now rewrite app_nil_r.
Qed.
Theorem C84_exact : forall nodes n e ops, (-1074 <= e <= 970)%Z -> Forall (whole_call e) ops -> below e nodes n ops ->
  let D := frun (new_fdemand nodes n) ops in
  is_finite (fd_total D) = true /\ B2R (fd_total D) = Rsum (fcells D).
Proof. intros nodes n e ops He W S. destruct (run_inv nodes n e ops He W S) as (_ & F & T). split; [exact F|exact T]. Qed.
Print Assumptions C84_exact.

(** ... and it is what a client gets by adding up the cells one after the other *)
Theorem C84_added_up : forall nodes n e ops, (-1074 <= e <= 970)%Z -> Forall (whole_call e) ops -> below e nodes n ops ->
  let D := frun (new_fdemand nodes n) ops in
  is_finite (fsum D) = true /\ B2R (fsum D) = B2R (fd_total D).
Proof.
  intros nodes n e ops He W S D. destruct (run_inv nodes n e ops He W S) as (G & F & T). fold D in G, F, T.
  assert (B : Rsum (fcells D) < bpow radix2 (53 + e)) by (apply (S ops); exists []; now rewrite app_nil_r).
  rewrite T. unfold fsum. fold (fcells D). clear F T. revert B.
  assert (A : forall l acc, good e acc -> Forall (good e) l -> B2R acc + Rsum l < bpow radix2 (53 + e) ->
    is_finite (fold_left fadd l acc) = true /\ B2R (fold_left fadd l acc) = B2R acc + Rsum l).
  { induction l as [|x l IH]; intros acc [[Fa [ma Ea]] Pa] H B; cbn [fold_left Rsum] in *; [split; [exact Fa|ring]|].
    inversion H as [|x' l' [[Fx [mx Ex]] Px] Hl]; subst. pose proof (proj1 (good_sum e l Hl)) as Pl.
    assert (X : is_finite (fadd acc x) = true /\ B2R (fadd acc x) = B2R acc + B2R x).
    { apply (add_exact e _ _ (ma + mx)); auto; [rewrite plus_IZR, Ea, Ex; ring|]. rewrite Rabs_pos_eq; lra. }
    destruct X as [X1 X2]. destruct (IH (fadd acc x)) as [Y1 Y2]; auto.
    - split; [split; [exact X1|]|lra]. exists (ma + mx)%Z. rewrite X2, plus_IZR, Ea, Ex. ring.
    - rewrite X2. lra.
    - split; [exact Y1|]. rewrite Y2, X2. ring. }
  intros B. destruct (A (fcells D) fzero (fzero_good e) G) as [Y1 Y2]; [change (B2R fzero) with 0; lra|]. split; [exact Y1|]. rewrite Y2. change (B2R fzero) with 0. ring.
Qed.
Print Assumptions C84_added_up.

(** the doubles and the exact model (Demand.v, C10): same calls, every number the same number *)
Definition rep (x : double) (q : Q) : Prop := is_finite x = true /\ B2R x = Q2R q.
Definition same_call (fo : fop) (qo : dop) : Prop :=
  match fo, qo with
  | FChange o d x, DChange o' d' q => o = o' /\ d = d' /\ rep x q
  | FReadRow o, DReadRow o' => o = o'
  | FReadCell o d, DReadCell o' d' => o = o' /\ d = d'
  | _, _ => False
  end.
Definition same_row : list (Z * double) -> list (Z * Q) -> Prop := Forall2 (fun c c' => fst c = fst c' /\ rep (snd c) (snd c')).
Definition same_matrix : list (Z * list (Z * double)) -> dict2 -> Prop := Forall2 (fun c c' => fst c = fst c' /\ same_row (snd c) (snd c')).

Section Rel.
  Context {A B : Type} (R : A -> B -> Prop).
  Let rl := Forall2 (fun (c : Z * A) (c' : Z * B) => fst c = fst c' /\ R (snd c) (snd c')).
  Lemma rel_get l l' k : rl l l' -> match dget Z.eqb l k, dget Z.eqb l' k with
    | Some x, Some y => R x y | None, None => True | _, _ => False end.
  Proof. induction 1 as [|[i x] [i' y] l l' [E H] _ IH]; cbn in *; [exact I|]. subst i'. destruct (Z.eqb k i); [exact H|exact IH]. Qed.
  Lemma rel_set l l' k x y : rl l l' -> R x y -> rl (dset Z.eqb l k x) (dset Z.eqb l' k y).
  Proof.
    unfold rl. intros H V. induction H as [|[i a] [i' b] l l' [E H] T IH]; cbn in *; [repeat constructor; auto|]. subst i'.
    destruct (Z.eqb k i); constructor; auto.
  Qed.
  Lemma rel_touch l l' k x y : rl l l' -> R x y -> rl (dtouch Z.eqb x l k) (dtouch Z.eqb y l' k).
  Proof.
    intros H V. unfold dtouch. pose proof (rel_get l l' k H) as G.
    destruct (dget Z.eqb l k), (dget Z.eqb l' k); try tauto. apply Forall2_app; [exact H|]. repeat constructor; auto.
  Qed.
  Lemma rel_get0 l l' k x y : rl l l' -> R x y -> R (dget0 Z.eqb x l k) (dget0 Z.eqb y l' k).
  Proof. intros H V. unfold dget0. pose proof (rel_get l l' k H). destruct (dget Z.eqb l k), (dget Z.eqb l' k); tauto. Qed.
End Rel.

Lemma rep_zero : rep fzero 0.
Proof. split; [reflexivity|]. cbn. unfold Q2R. cbn. lra. Qed.
Lemma rep_neg x q : rep x q -> Bltb x fzero = Qltb q 0.
Proof.
  intros [F E]. rewrite (Bltb_correct 53 1024 x fzero F eq_refl), E. cbn [fzero B2R]. unfold Qltb.
  destruct (Qle_bool 0 q) eqn:L; cbn [negb].
  - apply Qle_bool_iff, Qle_Rle in L. apply Rlt_bool_false. unfold Q2R at 1 in L. cbn in L. lra.
  - apply Rlt_bool_true. destruct (Qlt_le_dec q 0) as [K|K].
    + apply Qlt_Rlt in K. unfold Q2R at 2 in K. cbn in K. lra.
    + apply Qle_bool_iff in K. congruence.
Qed.
Lemma step_same D D' fo qo : same_matrix (fd_matrix D) (dm_matrix D') -> same_call fo qo ->
  same_matrix (fd_matrix (fstep D fo)) (dm_matrix (dstep D' qo)).
Proof.
  intros H C. destruct fo as [o d x|o|o d], qo as [o' d' q|o'|o' d']; cbn in C; try tauto; cbn [fstep dstep].
  - destruct C as (<- & <- & V). unfold fchange_vij, change_vij. rewrite (rep_neg _ _ V). destruct (Qltb q 0); [exact H|].
    pose proof (rel_get same_row _ _ o H) as G.
    destruct (dget Z.eqb (fd_matrix D) o) as [row|] eqn:Er, (dget Z.eqb (dm_matrix D') o) as [row'|] eqn:Er'; try tauto; try exact H.
    pose proof (rel_get rep _ _ d G) as G'.
    assert (S : same_row (dset Z.eqb row d x) (dset Z.eqb row' d q)) by (apply rel_set; auto).
    destruct G as [|c c' l l' G1 G2]; [exact H|].
    destruct (dget Z.eqb (c :: l) d), (dget Z.eqb (c' :: l') d); try tauto; try exact H. cbn [fst fd_matrix dm_matrix].
    unfold dict2_set, dget0. rewrite Er'. apply (rel_set same_row); auto.
  - subst o'. apply (rel_touch same_row); [exact H|constructor].
  - destruct C as [<- <-]. unfold fread_cell, read_cell. cbn [fst fd_matrix dm_matrix].
    assert (T : same_matrix (dtouch Z.eqb [] (fd_matrix D) o) (dtouch Z.eqb [] (dm_matrix D') o)) by (apply (rel_touch same_row); [exact H|constructor]).
    apply (rel_set same_row); [exact T|]. apply (rel_touch rep); [|apply rep_zero]. apply (rel_get0 same_row); [exact T|constructor].
Qed.
Lemma zero_cells_d nodes : forall o row, In (o, row) (default_matrix nodes) -> forall d q, In (d, q) row -> q = 0%Q.
Proof.
  unfold default_matrix.
  assert (S : forall (r : list (Z * Q)) k, (forall d q, In (d, q) r -> q = 0%Q) -> forall d q, In (d, q) (dset Z.eqb r k 0%Q) -> q = 0%Q).
  { induction r as [|[k' v] r IH]; cbn; intros k H d q; [intros [E|[]]; congruence|].
    destruct (Z.eqb k k'); cbn; intros [E|I]; try congruence; eauto. }
  set (ok := fun M : dict2 => forall o row, In (o, row) M -> forall d q, In (d, q) row -> q = 0%Q).
  assert (G : forall (M : dict2) o, ok M -> forall d q, In (d, q) (dget0 Z.eqb [] M o) -> q = 0%Q).
  { intros M o H d q. unfold dget0. destruct (dget Z.eqb M o) as [r|] eqn:E; [|intros []].
    assert (I : exists k, In (k, r) M).
    { revert E. clear. induction M as [|[k r'] M IH]; cbn; [discriminate|]. destruct (Z.eqb o k); intros E.
      - injection E as ->. eauto.
      - destruct (IH E) as [k' I]. eauto. }
    destruct I as [k I]. exact (H k r I d q). }
  assert (MS : forall (M : dict2) o r, ok M -> (forall d q, In (d, q) r -> q = 0%Q) -> ok (dset Z.eqb M o r)).
  { intros M o r H V. unfold ok in *. induction M as [|[k r'] M IH]; cbn.
    - intros o' row [E|[]]. injection E as <- <-. exact V.
    - destruct (Z.eqb o k); cbn; intros o' row [E|I].
      + injection E as <- <-. exact V.
      + apply (H o' row). now right.
      + injection E as <- <-. apply (H k r'). now left.
      + revert o' row I. apply IH. intros o' row I. apply (H o' row). now right. }
  assert (IN : forall ds o M, ok M -> ok (fold_left (fun M d => dict2_set M o (nd_id d) 0) ds M)).
  { induction ds as [|d ds IH]; cbn; intros o M H; [exact H|]. apply IH. unfold dict2_set. apply MS; [exact H|].
    apply S. exact (G M o H). }
  assert (OUT : forall os M, ok M -> ok (fold_left (fun M o => fold_left (fun M d => dict2_set M (nd_id o) (nd_id d) 0) nodes M) os M)).
  { induction os as [|o os IH]; cbn; intros M H; [exact H|]. apply IH. apply IN. exact H. }
  apply OUT. intros o row [].
Qed.
Lemma new_same nodes n : same_matrix (fd_matrix (new_fdemand nodes n)) (dm_matrix (new_demand nodes n)).
Proof.
  cbn. pose proof (zero_cells_d nodes) as Z. revert Z. generalize (default_matrix nodes) as M.
  induction M as [|[o row] M IH]; intros Z; cbn; constructor.
  - cbn. split; [reflexivity|]. assert (Zr : forall d q, In (d, q) row -> q = 0%Q) by (apply (Z o); now left).
    clear - Zr. induction row as [|[d q] row IH]; cbn; constructor; [|apply IH; intros; eapply Zr; right; eauto].
    split; [reflexivity|]. cbn. rewrite (Zr d q (or_introl eq_refl)). apply rep_zero.
  - apply IH. intros o' r I. apply (Z o' r). now right.
Qed.
Lemma same_sum M M' : same_matrix M M' -> Rsum (rcells M) = Q2R (Qsum (flat_map (fun r => map snd (snd r)) M')).
Proof.
  assert (Z : 0 = Q2R 0) by (unfold Q2R; cbn; lra).
  assert (A : forall r r', same_row r r' -> forall l l', Rsum l = Q2R (Qsum l') -> Rsum (map snd r ++ l) = Q2R (Qsum (map snd r' ++ l'))).
  { induction 1 as [|[k x] [k' q] r r' [_ [_ E]] _ IH]; intros l l' H; [exact H|]. cbn [map snd app Rsum Qsum fold_right] in *.
    rewrite Q2R_plus, E. f_equal. apply IH. exact H. }
  induction 1 as [|[k r] [k' r'] M M' [_ H] _ IH]; [exact Z|]. cbn. apply A; [exact H|exact IH].
Qed.
Theorem C84_as_exact : forall nodes n e ops qops, (-1074 <= e <= 970)%Z -> Forall (whole_call e) ops -> below e nodes n ops ->
  Forall2 same_call ops qops ->
  let D := frun (new_fdemand nodes n) ops in let Q := drun (new_demand nodes n) qops in
  rep (fd_total D) (dm_total Q) /\ same_matrix (fd_matrix D) (dm_matrix Q).
Proof.
  intros nodes n e ops qops He W S C D Q.
  assert (M : same_matrix (fd_matrix D) (dm_matrix Q)).
  { unfold D, Q, frun, drun. pose proof (new_same nodes n) as N. revert N. generalize (new_fdemand nodes n) (new_demand nodes n).
    clear W S. induction C as [|fo qo ops qops C _ IH]; intros f d N; [exact N|]. cbn [fold_left]. apply IH. apply step_same; auto. }
  split; [|exact M]. destruct (C84_exact nodes n e ops He W S) as [F T]. fold D in F, T. split; [exact F|].
  pose proof (Qeq_eqR _ _ (C10_total_is_sum nodes n qops)) as Y. fold Q in Y. rewrite T, Y. apply same_sum. exact M.
Qed.
Print Assumptions C84_as_exact.

(** The general claim is false: with the doubles 0.1 and 0.2 (three accepted calls), the trips of the only pair left are
    0.2 but the total is 0.20000000000000004; and with 2^53 trips the total loses a whole trip. *)
Definition dbl (m e : Z) : double := binary_normalize 53 1024 _ _ mode_NE m e false.
Definition f0_1 : double := dbl 3602879701896397 (-55).
Definition f0_2 : double := dbl 3602879701896397 (-54).
Fixpoint SFsum (l : list SpecFloat.spec_float) : R := match l with [] => 0 | x :: l' => SF2R radix2 x + SFsum l' end.
Lemma Rsum_SF l : Rsum l = SFsum (map B2SF l).
Proof. induction l as [|x l IH]; cbn [Rsum SFsum map]; [reflexivity|]. now rewrite IH, SF2R_B2SF. Qed.
Definition two_nodes : list node := firstn 2 ex_city2.
Theorem C84_rounded_refuted : exists nodes n ops,
  Forall (fun op => match op with FChange _ _ v => is_finite v = true /\ 0 <= B2R v | _ => False end) ops /\
  let D := frun (new_fdemand nodes n) ops in
  is_finite (fd_total D) = true /\ B2R (fd_total D) <> Rsum (fcells D).
Proof.
  exists two_nodes, 1%Z, [FChange 0 1 f0_1; FChange 1 0 f0_2; FChange 0 1 fzero].
  assert (P : forall v : double, is_finite v = true -> Bsign v = false -> 0 <= B2R v).
  { intros [s|s| |s m e H]; try discriminate; intros _ E; cbn in *; try lra. subst s. apply F2R_ge_0. cbn. lia. }
  split.
  - repeat (apply Forall_cons; [split; [vm_compute; reflexivity|apply P; vm_compute; reflexivity]|]). apply Forall_nil.
  - split; [vm_compute; reflexivity|]. rewrite Rsum_SF, <- SF2R_B2SF.
    match goal with |- SF2R _ ?x <> SFsum ?l => let x' := eval vm_compute in x in let l' := eval vm_compute in l in
      replace x with x' by (vm_compute; reflexivity); replace l with l' by (vm_compute; reflexivity) end.
    cbn [SFsum SF2R]. unfold F2R. cbn [SpecFloat.cond_Zopp Fnum Fexp Z.opp].
    intros K. rewrite !Rplus_0_l, !Rplus_0_r in K. apply Rmult_eq_reg_r in K; [apply eq_IZR in K; discriminate|].
    apply Rgt_not_eq, bpow_gt_0.
Qed.
Print Assumptions C84_rounded_refuted.
Theorem C84_lost_trip_refuted : exists nodes n ops,
  Forall (whole_call 0) ops /\
  let D := frun (new_fdemand nodes n) ops in
  is_finite (fd_total D) = true /\ B2R (fd_total D) = 0 /\ Rsum (fcells D) = 1.
Proof.
  exists two_nodes, 1%Z, [FChange 0 1 (dbl 1 53); FChange 1 0 (dbl 1 0); FChange 0 1 fzero].
  split.
  - repeat (apply Forall_cons; [split; [vm_compute; reflexivity|rewrite <- SF2R_B2SF]|]); [..|apply Forall_nil].
    + exists (2 ^ 53)%Z. replace (B2SF (dbl 1 53)) with (SpecFloat.S754_finite false 4503599627370496 1) by (vm_compute; reflexivity).
      cbn [SF2R]. unfold F2R. cbn. lra.
    + exists 1%Z. replace (B2SF (dbl 1 0)) with (SpecFloat.S754_finite false 4503599627370496 (-52)) by (vm_compute; reflexivity).
      cbn [SF2R]. unfold F2R. cbn. lra.
    + exists 0%Z. cbn. lra.
  - split; [vm_compute; reflexivity|]. rewrite Rsum_SF, <- SF2R_B2SF.
    match goal with |- SF2R _ ?x = _ /\ SFsum ?l = _ => let x' := eval vm_compute in x in let l' := eval vm_compute in l in
      replace x with x' by (vm_compute; reflexivity); replace l with l' by (vm_compute; reflexivity) end.
    cbn [SFsum SF2R]. unfold F2R. cbn. split; lra.
Qed.
Print Assumptions C84_lost_trip_refuted.

(** An infinite number of trips is accepted; when the cell is set back, the total is NaN although every cell is 0 ... *)
Theorem C84_infinity_refuted : exists nodes n o d v,
  let D1 := frun (new_fdemand nodes n) [FChange o d v] in
  let D2 := frun (new_fdemand nodes n) [FChange o d v; FChange o d fzero] in
  In v (fcells D1) /\ Forall (fun x => x = fzero) (fcells D2) /\ fd_total D2 = B754_nan.
Proof.
  exists two_nodes, 1%Z, 0%Z, 1%Z, (B754_infinity false). repeat split.
  - vm_compute. auto.
  - repeat constructor.
Qed.
Print Assumptions C84_infinity_refuted.
(** ... and no later call repairs it. *)
Theorem C84_nan_stays : forall D ops, fd_total D = B754_nan -> fd_total (frun D ops) = B754_nan.
Proof.
  intros D ops. revert D. induction ops as [|op ops IH]; intros D H; [exact H|]. apply IH.
  destruct op as [o d v|o|o d]; cbn [fstep]; [|exact H|exact H]. unfold fchange_vij.
  destruct (Bltb v fzero); [exact H|]. destruct (dget Z.eqb (fd_matrix D) o) as [[|c r]|]; [exact H| |exact H].
  destruct (dget Z.eqb (c :: r) d) as [old|]; [|exact H]. cbn [fst fd_total]. rewrite H. reflexivity.
Qed.
Print Assumptions C84_nan_stays.

(** Trips in halves on a two-zone city: 12.5 trips, a refused negative number, 7 trips, an unknown destination, then 12.5
    becomes 3. *)
Definition ex_calls : list fop :=
  [FChange 1 0 (dbl 25 (-1)); FChange 1 2 (dbl (-3) 0); FChange 3 0 (dbl 7 0); FReadCell 3 9; FChange 1 9 (dbl 1 0); FChange 1 0 (dbl 3 0)].
Lemma units x m e k s q : B2SF x = SpecFloat.S754_finite s m q -> is_finite x = true -> (e - q = k)%Z -> (0 <= k)%Z ->
  (SpecFloat.cond_Zopp s (Zpos m) mod 2 ^ k = 0)%Z -> whole e x.
Proof.
  intros H F K Pk D. split; [exact F|]. exists (SpecFloat.cond_Zopp s (Zpos m) / 2 ^ k)%Z. rewrite <- SF2R_B2SF, H. cbn [SF2R]. unfold F2R. cbn [Fnum Fexp].
  apply Z.div_exact in D; [|apply Z.pow_nonzero; lia]. rewrite D at 1. rewrite mult_IZR.
  change (2 ^ k)%Z with (Zpower radix2 k). rewrite IZR_Zpower by exact Pk. replace e with (k + q)%Z by lia. rewrite bpow_plus. ring.
Qed.
Ltac halves_tac := eapply units; [vm_compute; reflexivity|vm_compute; reflexivity|reflexivity|vm_compute; discriminate|vm_compute; reflexivity].
Lemma ex_whole : Forall (whole_call (-1)) ex_calls.
Proof. repeat (apply Forall_cons; [cbn [whole_call]; first [exact I|halves_tac]|]). apply Forall_nil. Qed.
Lemma ex_below : below (-1) ex_city2 2 ex_calls.
Proof.
  intros before [after E].
  assert (B : exists k, (k < 7)%nat /\ before = firstn k ex_calls).
  { exists (length before). rewrite E, firstn_app, Nat.sub_diag, firstn_all, app_nil_r. split; [|reflexivity].
    apply (f_equal (@length fop)) in E. rewrite app_length in E. cbn in E. lia. }
  destruct B as (k & L & ->). rewrite Rsum_SF.
  do 7 (destruct k as [|k]; [match goal with |- SFsum ?l < _ => let l' := eval vm_compute in l in
      replace l with l' by (vm_compute; reflexivity) end; cbn [SFsum SF2R]; unfold F2R; cbn; lra|]). lia.
Qed.
Example C84_ex : (let D := frun (new_fdemand ex_city2 2) ex_calls in
    is_finite (fd_total D) = true /\ B2R (fd_total D) = Rsum (fcells D) /\ B2R (fd_total D) = 10)
  /\ exists qops, Forall2 same_call ex_calls qops /\ Qred (dm_total (drun (new_demand ex_city2 2) qops)) = 10%Q.
Proof.
  split.
  - cbn zeta. destruct (C84_exact ex_city2 2 (-1) ex_calls ltac:(lia) ex_whole ex_below) as [F T]. split; [exact F|split; [exact T|]].
    rewrite <- SF2R_B2SF. match goal with |- SF2R _ ?x = _ => let x' := eval vm_compute in x in replace x with x' by (vm_compute; reflexivity) end.
    cbn [SF2R]. unfold F2R. cbn. lra.
  - exists [DChange 1 0 (25 # 2); DChange 1 2 (-3); DChange 3 0 7; DReadCell 3 9; DChange 1 9 1; DChange 1 0 3]%Q. split; [|vm_compute; reflexivity].
    repeat (apply Forall2_cons; [cbn [same_call]; repeat split; try (vm_compute; reflexivity)|]); [..|apply Forall2_nil]; rewrite <- SF2R_B2SF;
    match goal with |- SF2R _ ?x = _ => let x' := eval vm_compute in x in replace x with x' by (vm_compute; reflexivity) end;
    cbn [SF2R]; unfold F2R, Q2R; cbn; lra.
Qed.
