(** * AssignProofs: the shares of the two stops *)
From Coq Require Import String List ZArith QArith Qround Qabs Bool Lia Lqa Qfield.
From Verif Require Import PyBase PyFacts Graph Mode Route ExtGraph ExtSpec Hyperpath HyperSpec Assignment AssignSpec.
Import ListNotations.
Local Open Scope Q_scope.

Definition half_pos (zone : Q) (k : nat) : Q := (Qofnat k + (1 # 2)) * zone.
Lemma half_pos_S zone k : half_pos zone (S k) == half_pos zone k + zone.
Proof. unfold half_pos. rewrite Qofnat_S. ring. Qed.
Lemma Qltb_compat a b b' : b == b' -> Qltb a b = Qltb a b'.
Proof. intro E. destruct (Qltb a b) eqn:H, (Qltb a b') eqn:H'; auto; try apply Qltb_lt in H; try apply Qltb_lt in H'; try apply Qltb_ge in H; try apply Qltb_ge in H'; exfalso; lra. Qed.
Lemma right_rest zone d : forall n k position, position == half_pos zone k -> position <= d ->
  let '(pos, found) := right_stops n false zone d position in
  if found then exists j, (k < j <= k + n)%nat /\ pos == half_pos zone j /\ d < pos /\ forall i, (k <= i < j)%nat -> half_pos zone i <= d
  else pos == half_pos zone (k + n) /\ pos <= d.
Proof.
  induction n as [|n IH]; intros k position E L; cbn [right_stops].
  - rewrite Nat.add_0_r. auto.
  - destruct (Qltb d (position + zone)) eqn:C.
    + apply Qltb_lt in C. exists (S k). split; [lia|]. split; [rewrite half_pos_S; lra|]. split; auto. intros i Hi. assert (i = k) by lia. subst i. lra.
    + apply Qltb_ge in C. assert (E' : position + zone == half_pos zone (S k)) by (rewrite half_pos_S; lra). specialize (IH (S k) _ E' C). destruct (right_stops n false zone d (position + zone)) as [pos []].
      * destruct IH as (j & A & B & D & F). exists j. split; [lia|]. split; auto. split; auto. intros i Hi. destruct (Nat.eq_dec i k) as [->|N]; [lra|]. apply F. lia.
      * replace (k + S n)%nat with (S k + n)%nat by lia. auto.
Qed.
Lemma right_spec zone d n :
  let '(pos, found) := right_stops n true zone d 0 in
  if found then exists j, (j < n)%nat /\ pos == half_pos zone j /\ d < pos /\ forall i, (i < j)%nat -> half_pos zone i <= d
  else match n with O => pos = 0 | S k => pos == half_pos zone k /\ pos <= d end.
Proof.
  destruct n as [|n]; cbn [right_stops]; auto. assert (E : zone / 2 == half_pos zone 0) by (unfold half_pos, Qofnat; simpl; field).
  destruct (Qltb d (zone / 2)) eqn:C.
  - apply Qltb_lt in C. exists 0%nat. split; [lia|]. split; auto. split; auto. intros i Hi. lia.
  - apply Qltb_ge in C. pose proof (right_rest zone d n 0 _ E C) as R. destruct (right_stops n false zone d (zone / 2)) as [pos []].
    + destruct R as (j & A & B & D & F). exists j. split; [lia|]. split; auto. split; auto. intros i Hi. apply F. lia.
    + exact R.
Qed.
Lemma half_below_middle p d2 j : 0 <= p -> 0 < d2 -> (j < Z.to_nat (Qfloor (d2 / 2)))%nat -> half_pos (p / d2) j <= p / 2.
Proof.
  intros Hp Hd Hj. assert (F : inject_Z (Qfloor (d2 / 2)) <= d2 / 2) by apply Qfloor_le.
  assert (J : Qofnat j + 1 <= d2 / 2). { eapply Qle_trans; [|exact F]. unfold Qofnat. change 1 with (inject_Z 1). rewrite <- inject_Z_plus. rewrite <- Zle_Qle. lia. }
  unfold half_pos. assert (E : (Qofnat j + (1 # 2)) * (p / d2) == ((Qofnat j + (1 # 2)) / d2) * p) by (field; lra). rewrite E.
  assert (B : (Qofnat j + (1 # 2)) / d2 <= 1 / 2). { apply Qle_shift_div_r; auto. assert (EE : d2 / 2 == 1 / 2 * d2) by field. rewrite <- EE. lra. }
  assert (E2 : p / 2 == (1 / 2) * p) by field. rewrite E2. apply Qmult_le_compat_r; auto.
Qed.

(** what share_two answers *)
Lemma share_two_spec d2 p vp spa spv l1 l2 s1 s2 : 0 <= p -> 0 <= vp -> 0 < spa -> 0 < spv -> 0 < d2 ->
  let w := indifference vp spa spv l1 l2 in
  exists a, share_two d2 p vp spa spv l1 l2 s1 s2 = Ok a /\
   ((l1 <= l2 /\ p / 2 <= w /\ a = [(s1, 100)]) \/
    (l1 <= l2 /\ w < p / 2 /\ (exists j q, (j < Z.to_nat (Qfloor (d2 / 2)))%nat /\ w < half_pos (p / d2) j /\ (forall i, (i < j)%nat -> half_pos (p / d2) i <= w) /\
        q == (w + half_pos (p / d2) j) / p /\ a = [(s1, q * 100); (s2, 100 - q * 100)])) \/
    (l1 <= l2 /\ w < p / 2 /\ (forall i, (i < Z.to_nat (Qfloor (d2 / 2)))%nat -> half_pos (p / d2) i <= w) /\
       ((~ forgotten p vp spa spv d2 l1 l2 /\ a = [(s1, 100)]) \/ (forgotten p vp spa spv d2 l1 l2 /\ a = []))) \/
    (l2 < l1 /\ d2 - 2 * inject_Z (Qfloor (d2 / 2)) == 1 /\ a = [(s2, 100)]) \/
    (l2 < l1 /\ ~ d2 - 2 * inject_Z (Qfloor (d2 / 2)) == 1 /\ half_pos (p / d2) 0 <= - w /\ a = [(s2, 100)]) \/
    (l2 < l1 /\ ~ d2 - 2 * inject_Z (Qfloor (d2 / 2)) == 1 /\ - w < half_pos (p / d2) 0 /\
       exists q, q == (half_pos (p / d2) 0 + w) / p /\ a = [(s1, q * 100); (s2, 100 - q * 100)])).
Proof.
  intros Hp Hvp Ha Hv Hd w. unfold share_two.
  assert (Hw : 0 < spa / spv) by (apply Qlt_shift_div_l; lra).
  assert (D1 : qdiv spa spv = Ok (spa / spv)) by (apply qdiv_ok; lra). assert (D2 : forall x, qdiv x (spa / spv) = Ok (x / (spa / spv))) by (intro; apply qdiv_ok; lra).
  assert (D3 : qdiv p d2 = Ok (p / d2)) by (apply qdiv_ok; lra).
  destruct (Qleb l1 l2) eqn:C.
  - apply Qleb_le in C. rewrite D1. cbn [bind]. rewrite D2. cbn [bind]. change (vp * (l2 - l1) / (spa / spv)) with w.
    assert (W0 : 0 <= w). { unfold w, indifference. apply Qle_shift_div_l; auto. assert (0 <= vp * (l2 - l1)) by (apply Qmult_le_0_compat; lra). lra. }
    destruct (Qleb (p / 2) w) eqn:C2.
    { apply Qleb_le in C2. eexists. split; [reflexivity|]. left. auto. }
    apply Qleb_gt in C2. rewrite D3. cbn [bind]. pose proof (right_spec (p / d2) w (Z.to_nat (Qfloor (d2 / 2)))) as R. 
    destruct (right_stops (Z.to_nat (Qfloor (d2 / 2))) true (p / d2) w 0) as [pos []].
    + destruct R as (j & A & B & D & E). assert (Pp : 0 < p) by (assert (p / 2 == p * (1#2)) by field; lra).
      rewrite (qdiv_ok _ p) by lra. cbn [bind]. eexists. split; [reflexivity|]. right; left. split; auto. split; auto. exists j. eexists. split; [exact A|]. split; [lra|]. split; [auto|]. split; [|reflexivity].
      rewrite <- B. assert (E1 : 2 * w + (pos - w) == w + pos) by ring. rewrite E1. reflexivity.
    + assert (Z0 : 0 <= p / d2) by (apply Qle_shift_div_l; lra).
      assert (All : forall i, (i < Z.to_nat (Qfloor (d2 / 2)))%nat -> half_pos (p / d2) i <= w).
      { intros i Hi. destruct (Z.to_nat (Qfloor (d2 / 2))) as [|k]; [lia|]. destruct R as [R1 R2]. eapply Qle_trans; [|exact R2]. rewrite R1. unfold half_pos. apply Qmult_le_compat_r; auto.
        assert (Qofnat i <= Qofnat k) by (unfold Qofnat; rewrite <- Zle_Qle; lia). lra. }
      destruct (Qltb pos w) eqn:C3; eexists; (split; [reflexivity|]); right; right; left; (split; [auto|]); (split; [auto|]); (split; [auto|]).
      * left. split; auto. apply Qltb_lt in C3. intros (_ & _ & F). destruct (Z.to_nat (Qfloor (d2 / 2))) as [|k]; [subst pos; fold w in F; lra|]. destruct R as [R1 R2]. fold w in F. unfold half_pos in R1.
        assert (E1 : (Qofnat k + (1 # 2)) * p / d2 == (Qofnat k + (1 # 2)) * (p / d2)) by (field; lra). lra.
      * right. split; auto. apply Qltb_ge in C3. split; auto. split; auto. fold w. destruct (Z.to_nat (Qfloor (d2 / 2))) as [|k]; [subst pos; lra|]. destruct R as [R1 R2]. unfold half_pos in R1.
        assert (E1 : (Qofnat k + (1 # 2)) * p / d2 == (Qofnat k + (1 # 2)) * (p / d2)) by (field; lra). lra.
  - apply Qleb_gt in C. destruct (Qeqb (d2 - 2 * inject_Z (Qfloor (d2 / 2))) 1) eqn:C2.
    { apply Qeqb_eq in C2. eexists. split; [reflexivity|]. do 3 right. left. auto. }
    apply Qeqb_neq in C2. rewrite D1. cbn [bind]. rewrite D2. cbn [bind]. rewrite D3. cbn [bind].
    assert (EW : vp * (l1 - l2) / (spa / spv) == - w) by (unfold w, indifference; field; lra).
    assert (EP : p / d2 * (1 # 2) == half_pos (p / d2) 0) by (unfold half_pos, Qofnat; simpl; ring).
    assert (Hwn : 0 <= - w). { rewrite <- EW. apply Qle_shift_div_l; auto. assert (0 <= vp * (l1 - l2)) by (apply Qmult_le_0_compat; lra). lra. }
    destruct (Qleb (p / d2 * (1 # 2)) (vp * (l1 - l2) / (spa / spv))) eqn:C3.
    { apply Qleb_le in C3. eexists. split; [reflexivity|]. do 4 right. left. split; auto. split; auto. split; [lra|auto]. }
    apply Qleb_gt in C3. assert (Pp : 0 < p).
    { assert (0 < p / d2) by lra. assert (E1 : p == p / d2 * d2) by (field; lra). rewrite E1. assert (0 * d2 < p / d2 * d2) by (apply Qmult_lt_compat_r; auto). lra. }
    rewrite (qdiv_ok _ p) by lra. cbn [bind]. eexists. split; [reflexivity|]. do 5 right. split; auto. split; auto. split; [lra|]. eexists. split; [|reflexivity]. rewrite EW, EP. assert (E1 : half_pos (p / d2) 0 - - w == half_pos (p / d2) 0 + w) by ring. rewrite E1. reflexivity.
Qed.
