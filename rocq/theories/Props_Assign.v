(** * Props_Assign: properties C40 - C42 *)
From Coq Require Import String List ZArith QArith Qround Qabs Bool Lia Lqa Qfield.
From Verif Require Import PyBase PyFacts Graph GraphProofs GeoEx Mode Route Network Props_Network ExtGraph ExtSpec ExtProofs Props_Ext Hyperpath HyperSpec HyperProofs HyperOpt Props_Hyper Assignment AssignSpec AssignProofs OdFacts FlowSpec TableProofs FlowProofs.
Import ListNotations.
Local Open Scope Q_scope.

(** ** C40: shares of the stops of the origin *)
Lemma half_nonneg p d2 j : 0 <= p -> 0 < d2 -> 0 <= half_pos (p / d2) j.
Proof. intros Hp Hd. unfold half_pos. apply Qmult_le_0_compat; [|apply Qle_shift_div_l; lra]. assert (0 <= Qofnat j) by (unfold Qofnat; change 0 with (inject_Z 0); rewrite <- Zle_Qle; lia). lra. Qed.
Lemma half_mono p d2 i j : 0 <= p -> 0 < d2 -> (i <= j)%nat -> half_pos (p / d2) i <= half_pos (p / d2) j.
Proof. intros Hp Hd Hij. unfold half_pos. apply Qmult_le_compat_r; [|apply Qle_shift_div_l; lra]. assert (Qofnat i <= Qofnat j) by (unfold Qofnat; rewrite <- Zle_Qle; lia). lra. Qed.
Lemma indiff_sign vp spa spv l1 l2 : 0 <= vp -> 0 < spa -> 0 < spv -> (l1 <= l2 -> 0 <= indifference vp spa spv l1 l2) /\ (l2 <= l1 -> indifference vp spa spv l1 l2 <= 0).
Proof.
  intros. assert (0 < spa / spv) by (apply Qlt_shift_div_l; lra). unfold indifference. split; intro.
  - apply Qle_shift_div_l; auto. assert (0 <= vp * (l2 - l1)) by (apply Qmult_le_0_compat; lra). lra.
  - apply Qle_shift_div_r; auto. assert (0 <= vp * (l1 - l2)) by (apply Qmult_le_0_compat; lra). assert (vp * (l1 - l2) == - (vp * (l2 - l1))) by ring. lra.
Qed.
Lemma half0 z : half_pos z 0 == (1 # 2) * z.
Proof. unfold half_pos, Qofnat. simpl. ring. Qed.
(** the share of stop 1 is between 0 and 1 *)
Lemma share_range d2 p vp spa spv l1 l2 s1 s2 a : 0 <= p -> 0 <= vp -> 0 < spa -> 0 < spv -> 1 <= d2 -> s1 <> s2 ->
  share_two d2 p vp spa spv l1 l2 s1 s2 = Ok a ->
  (forall s q, In (s, q) a -> (s = s1 \/ s = s2) /\ 0 <= q <= 100) /\ NoDup (map fst a) /\
  (forgotten p vp spa spv d2 l1 l2 -> a = []) /\ (~ forgotten p vp spa spv d2 l1 l2 -> Qsumf snd a == 100).
Proof.
  intros Hp Hvp Ha Hv Hd1 Ns H. assert (Hd : 0 < d2) by lra. destruct (share_two_spec d2 p vp spa spv l1 l2 s1 s2 Hp Hvp Ha Hv Hd) as (a' & E & C). rewrite E in H. inversion H; subst a'. clear H E.
  destruct (indiff_sign vp spa spv l1 l2 Hvp Ha Hv) as [I1 I2]. set (w := indifference vp spa spv l1 l2) in *.
  assert (ONE : forall s : nat, (s = s1 \/ s = s2) -> (forall s' q, In (s', q) [(s, 100)] -> (s' = s1 \/ s' = s2) /\ 0 <= q <= 100) /\ NoDup (map (@fst nat Q) [(s, 100)]) /\ Qsumf (@snd nat Q) [(s, 100)] == 100).
  { intros s Hs. split; [|split].
    - intros s' q [E|[]]. inversion E; subst. split; [auto|lra].
    - cbn. constructor; [intros []|constructor].
    - unfold Qsumf. cbn. lra. }
  assert (TWO : forall q, 0 <= q <= 1 -> (forall s' x, In (s', x) [(s1, q * 100); (s2, 100 - q * 100)] -> (s' = s1 \/ s' = s2) /\ 0 <= x <= 100) /\ NoDup (map (@fst nat Q) [(s1, q * 100); (s2, 100 - q * 100)]) /\ Qsumf (@snd nat Q) [(s1, q * 100); (s2, 100 - q * 100)] == 100).
  { intros q Hq. split; [|split].
    - intros s' x [E|[E|[]]]; inversion E; subst; (split; [auto|lra]).
    - cbn. constructor; [intros [|[]]; congruence|]. constructor; [intros []|constructor].
    - unfold Qsumf. cbn. lra. }
  assert (EP : p / 2 == (1 # 2) * p) by field.
  assert (N0 : forall j, w < half_pos (p / d2) j -> (j < Z.to_nat (Qfloor (d2 / 2)))%nat -> half_pos (p / d2) j <= p / 2) by (intros; apply half_below_middle; auto).
  destruct C as [(C1 & C2 & ->)|[(C1 & C2 & j & q & C3 & C4 & C5 & C6 & ->)|[(C1 & C2 & C3 & [(C4 & ->)|(C4 & ->)])|[(C1 & C2 & ->)|[(C1 & C2 & C3 & ->)|(C1 & C2 & C3 & q & C4 & ->)]]]]].
  - destruct (ONE s1 (or_introl eq_refl)) as (A & B & C). split; auto. split; auto. split; auto. intros (_ & F & _). fold w in F. lra.
  - assert (Hq : 0 <= q <= 1).
    { specialize (I1 C1). pose proof (N0 j C4 C3). assert (0 < p) by lra. rewrite C6. split; [apply Qle_shift_div_l; lra|apply Qle_shift_div_r; lra]. }
    destruct (TWO q Hq) as (A & B & C). split; auto. split; auto. split; auto. intros (_ & F & G). fold w in F, G. exfalso.
    destruct (Z.to_nat (Qfloor (d2 / 2))) as [|k] eqn:EK; [lia|]. assert (half_pos (p / d2) j <= half_pos (p / d2) k) by (apply half_mono; auto; lia).
    unfold half_pos in C4, H at 2. assert (E1 : (Qofnat k + (1 # 2)) * p / d2 == (Qofnat k + (1 # 2)) * (p / d2)) by (field; lra). unfold half_pos in H. lra.
  - destruct (ONE s1 (or_introl eq_refl)) as (A & B & C). split; auto. split; auto. split; auto. intro; contradiction.
  - split; [intros s q []|]. split; [constructor|]. split; auto. intro; contradiction.
  - destruct (ONE s2 (or_intror eq_refl)) as (A & B & C). split; auto. split; auto. split; auto. intros (F & _). lra.
  - destruct (ONE s2 (or_intror eq_refl)) as (A & B & C). split; auto. split; auto. split; auto. intros (F & _). lra.
  - assert (Hq : 0 <= q <= 1).
    { assert (C1' : l2 <= l1) by lra. specialize (I2 C1'). rewrite C4.
      assert (Pp : 0 < p). { assert (0 < half_pos (p / d2) 0) by lra. rewrite half0 in H. assert (0 < p / d2) by lra. assert (E1 : p == p / d2 * d2) by (field; lra). rewrite E1. assert (0 * d2 < p / d2 * d2) by (apply Qmult_lt_compat_r; auto). lra. }
      split; [apply Qle_shift_div_l; lra|]. apply Qle_shift_div_r; auto.
      assert (Hh : half_pos (p / d2) 0 <= p / 2).
      { rewrite half0. assert (E1 : (1 # 2) * (p / d2) == ((1 # 2) * p) / d2) by (field; lra). rewrite E1. apply Qle_shift_div_r; auto. rewrite EP.
        assert (0 <= (1 # 2) * p * (d2 - 1)) by (apply Qmult_le_0_compat; lra). assert ((1 # 2) * p * d2 == (1 # 2) * p * (d2 - 1) + (1 # 2) * p) by ring. lra. }
      lra. }
    destruct (TWO q Hq) as (A & B & C). split; auto. split; auto. split; auto. intros (F & _). lra.
Qed.
Lemma mapM_Forall2 {A B} (f : A -> res B) (R : A -> B -> Prop) : forall l, (forall x, In x l -> exists y, f x = Ok y /\ R x y) -> exists r, mapM f l = Ok r /\ Forall2 R l r.
Proof.
  induction l as [|x l IH]; intro H; cbn [mapM]; [exists []; auto|]. destruct (H x) as (y & E & Hy); [left; auto|]. rewrite E. cbn [bind].
  destruct IH as (r & E' & F); [intros; apply H; right; auto|]. rewrite E'. cbn [bind]. eauto.
Qed.
Lemma keys_used X P M e c cd s : hyper_graph X -> od_ok X P M e c cd -> In s (map fst (od_paths e)) -> used_mode X (mode_of X s).
Proof.
  intros HG O Hs. apply (oo_keys _ _ _ _ _ _ O) in Hs. destruct Hs as (A0 & (st & A1 & A2) & _). exists s, st. split; auto. split; auto. unfold mode_of, stop_at. rewrite (nth_error_nth _ _ _ A1). auto.
Qed.
(** For each OD pair with trips, in order: the assignment gives the stops of the origin from which the
    destination can be reached percentages between 0 and 100 that sum to 100, except in the forgotten
    case, in which no stop gets anything. *)
Theorem C40_shares : forall X P M fuel es p vp spa spv,
  hyper_graph X -> weights X P -> (length (xnodes X) < fuel)%nat -> get_all_hyperpaths fuel X P M = Ok es ->
  0 <= p -> 0 <= vp -> 0 < spa -> 0 < spv -> (forall m, used_mode X m -> 1 <= m_d m) ->
  exists asg, get_assignment X p vp spa spv es = Ok asg /\
    Forall2 (fun e a =>
      (forall s q, In (s, q) a -> In s (map fst (od_paths e)) /\ 0 <= q <= 100) /\ NoDup (map fst a) /\
      (~ forgotten_od X p vp spa spv e -> Qsumf snd a == 100) /\ (forgotten_od X p vp spa spv e -> a = [])) es asg.
Proof.
  intros X P M fuel es p vp spa spv HG WG L H Hp Hvp Ha Hv HD. apply mapM_Forall2. intros e He. unfold assign_od.
  destruct (entries_ok fuel X P M es HG WG L H e He) as (c & cd & O).
  destruct (keys_cases fuel X P M es HG WG L H e He) as [(s & K)|(s1 & s2 & l1 & l2 & T)].
  - assert (E : (match pick_stops X (map fst (od_paths e)) with (None, None) => Ok [] | (Some s1, None) => Ok [(s1, 100)] | (None, Some s2) => Ok [(s2, 100)]
       | (Some s1, Some s2) => match hr_lab (od_res e) (ES s1), hr_lab (od_res e) (ES s2) with Some l1, Some l2 => share_two (m_d (sn_mode (stop_at (xg_stops X) s2))) p vp spa spv l1 l2 s1 s2 | _, _ => Err NotModelled end end) = Ok [(s, 100)]).
    { rewrite K. unfold pick_stops. cbn [fold_left]. destruct (Qeqb (m_d (sn_mode (stop_at (xg_stops X) s))) 1); auto. }
    rewrite E. eexists. split; [reflexivity|]. split; [|split; [|split]].
    + intros s' q [E'|[]]. inversion E'; subst. rewrite K. split; [left; auto|lra].
    + cbn. constructor; [intros []|constructor].
    + intros _. unfold Qsumf. cbn. lra.
    + intros (s1 & s2 & l1 & l2 & (_ & _ & T & _) & _). rewrite K in T. destruct T as [T|[T _]]; discriminate.
  - rewrite (pick_two _ _ _ _ _ _ T). pose proof T as (Ns & D1 & Ks & La & Lb). rewrite La, Lb.
    assert (I1 : In s1 (map fst (od_paths e))) by (destruct Ks as [->|[-> _]]; cbn; auto). assert (I2 : In s2 (map fst (od_paths e))) by (destruct Ks as [->|[-> _]]; cbn; auto).
    assert (Hd : 1 <= m_d (mode_of X s2)) by (apply HD; eapply keys_used; eauto).
    assert (Hd0 : 0 < m_d (mode_of X s2)) by lra. fold (mode_of X s2).
    destruct (share_two_spec (m_d (mode_of X s2)) p vp spa spv l1 l2 s1 s2 Hp Hvp Ha Hv Hd0) as (a & E & _). exists a. split; auto.
    destruct (share_range _ _ _ _ _ _ _ _ _ _ Hp Hvp Ha Hv Hd Ns E) as (A1 & A2 & A3 & A4). split; [|split; [auto|split]].
    + intros s q Hq. destruct (A1 s q Hq) as [[->| ->] B]; auto.
    + intro N. apply A4. intro F. apply N. exists s1, s2, l1, l2. auto.
    + intros (a1 & a2 & b1 & b2 & T' & F). destruct (two_unique _ _ _ _ _ _ _ _ _ _ T T') as (-> & -> & -> & ->). auto.
Qed.

(** The share of the central stop is the part of the zone that prefers it. *)
Lemma line_cases p n k : 0 <= p -> (k < 2 * n)%nat -> exists i, (i < n)%nat /\
  (line_position p (inject_Z (2 * Z.of_nat n)) k == half_pos (p / inject_Z (2 * Z.of_nat n)) i \/ line_position p (inject_Z (2 * Z.of_nat n)) k == - half_pos (p / inject_Z (2 * Z.of_nat n)) i).
Proof.
  intros Hp Hk. assert (Hd : 0 < inject_Z (2 * Z.of_nat n)) by (change 0 with (inject_Z 0); rewrite <- Zlt_Qlt; lia). set (d := inject_Z (2 * Z.of_nat n)) in *.
  assert (Ed : d == 2 * Qofnat n) by (unfold d, Qofnat; rewrite inject_Z_mult; reflexivity).
  assert (G : forall q, q == Qofnat k - Qofnat n -> line_position p d k == (q + (1 # 2)) * (p / d)).
  { intros q Eq. unfold line_position. rewrite Eq. assert (E2 : p / 2 == Qofnat n * (p / d)). { assert (Qofnat n == d / 2) by (rewrite Ed; field). rewrite H. field. lra. } rewrite E2. field. lra. }
  destruct (Nat.le_gt_cases n k) as [C|C].
  - exists (k - n)%nat. split; [lia|]. left. unfold half_pos. apply G. unfold Qofnat. rewrite Nat2Z.inj_sub by lia. rewrite <- Zminus_Qminus || (unfold Zminus; rewrite inject_Z_plus, inject_Z_opp). ring.
  - exists (n - 1 - k)%nat. split; [lia|]. right. unfold half_pos.
    assert (Eq : - (Qofnat (n - 1 - k) + 1) == Qofnat k - Qofnat n). { unfold Qofnat. replace (Z.of_nat (n - 1 - k)) with (Z.of_nat n + - (1) + - Z.of_nat k)%Z by lia. rewrite !inject_Z_plus, !inject_Z_opp. change (inject_Z 1) with 1. ring. }
    rewrite (G _ Eq). ring.
Qed.
Lemma line_right p n i : (i < n)%nat -> line_position p (inject_Z (2 * Z.of_nat n)) (n + i) == half_pos (p / inject_Z (2 * Z.of_nat n)) i.
Proof.
  intros Hi. assert (Hd : 0 < inject_Z (2 * Z.of_nat n)) by (change 0 with (inject_Z 0); rewrite <- Zlt_Qlt; lia). set (d := inject_Z (2 * Z.of_nat n)) in *.
  assert (Ed : Qofnat n == d / 2) by (unfold d, Qofnat; rewrite inject_Z_mult; field).
  unfold line_position, half_pos. assert (E : Qofnat (n + i) == Qofnat n + Qofnat i) by (unfold Qofnat; rewrite Nat2Z.inj_add, inject_Z_plus; reflexivity). rewrite E, Ed. field. lra.
Qed.
Lemma line_left p n i : (i < n)%nat -> line_position p (inject_Z (2 * Z.of_nat n)) (n - 1 - i) == - half_pos (p / inject_Z (2 * Z.of_nat n)) i.
Proof.
  intros Hi. assert (Hd : 0 < inject_Z (2 * Z.of_nat n)) by (change 0 with (inject_Z 0); rewrite <- Zlt_Qlt; lia). set (d := inject_Z (2 * Z.of_nat n)) in *.
  assert (Ed : Qofnat n == d / 2) by (unfold d, Qofnat; rewrite inject_Z_mult; field).
  unfold line_position, half_pos. assert (E : Qofnat (n - 1 - i) == Qofnat n - Qofnat i - 1).
  { unfold Qofnat. replace (Z.of_nat (n - 1 - i)) with (Z.of_nat n + - (1) + - Z.of_nat i)%Z by lia. rewrite !inject_Z_plus, !inject_Z_opp. change (inject_Z 1) with 1. ring. }
  rewrite E, Ed. field. lra.
Qed.
Lemma cost_le l1 l2 y z vp spa spv : 0 < vp -> 0 < spa -> 0 < spv ->
  (y <= indifference vp spa spv l1 l2 + z -> total_cost l1 y vp spa spv <= total_cost l2 z vp spa spv) /\
  (indifference vp spa spv l1 l2 + z < y -> total_cost l2 z vp spa spv < total_cost l1 y vp spa spv).
Proof.
  intros Hvp Ha Hv. set (w := indifference vp spa spv l1 l2). set (k := spa / spv / vp). assert (Hk : 0 < k) by (unfold k; repeat (apply Qlt_shift_div_l; [lra|]); lra).
  assert (E : l2 == l1 + w * k) by (unfold w, k, indifference; field; lra).
  assert (E1 : total_cost l1 y vp spa spv == l1 + y * k) by (unfold total_cost, k; field; lra). assert (E2 : total_cost l2 z vp spa spv == l1 + (w + z) * k) by (unfold total_cost; rewrite E; unfold k; field; lra).
  rewrite E1, E2. split; intro H.
  - assert (y * k <= (w + z) * k) by (apply Qmult_le_compat_r; lra). lra.
  - assert ((w + z) * k < y * k) by (apply Qmult_lt_compat_r; lra). lra.
Qed.
Theorem C40_indifference : forall n p vp spa spv l1 l2 s1 s2 a, (0 < n)%nat -> 0 < p -> 0 < vp -> 0 < spa -> 0 < spv -> s1 <> s2 ->
  let d2 := inject_Z (2 * Z.of_nat n) in
  share_two d2 p vp spa spv l1 l2 s1 s2 = Ok a -> ~ forgotten p vp spa spv d2 l1 l2 ->
  forall x, - (p / 2) <= x <= p / 2 ->
   (Qabs x < dget0 Nat.eqb 0 a s1 / 100 * (p / 2) ->
      forall i, (i < 2 * n)%nat -> total_cost l1 (Qabs x) vp spa spv <= total_cost l2 (Qabs (x - line_position p d2 i)) vp spa spv) /\
   (dget0 Nat.eqb 0 a s1 / 100 * (p / 2) < Qabs x ->
      exists i, (i < 2 * n)%nat /\ total_cost l2 (Qabs (x - line_position p d2 i)) vp spa spv < total_cost l1 (Qabs x) vp spa spv).
Proof.
  intros n p vp spa spv l1 l2 s1 s2 a Hn Hp Hvp Ha Hv Ns d2 H NF x Hx.
  assert (Hd : 0 < d2) by (unfold d2; change 0 with (inject_Z 0); rewrite <- Zlt_Qlt; lia). assert (Hp0 : 0 <= p) by lra. assert (Hvp0 : 0 <= vp) by lra.
  assert (FL : Z.to_nat (Qfloor (d2 / 2)) = n). { assert (E : d2 / 2 == inject_Z (Z.of_nat n)) by (unfold d2; rewrite inject_Z_mult; field). rewrite E, Qfloor_Z. lia. }
  assert (EV : ~ d2 - 2 * inject_Z (Qfloor (d2 / 2)) == 1). { assert (E : d2 / 2 == inject_Z (Z.of_nat n)) by (unfold d2; rewrite inject_Z_mult; field). rewrite E, Qfloor_Z. unfold d2. rewrite inject_Z_mult. change (inject_Z 2) with 2. lra. }
  destruct (share_two_spec d2 p vp spa spv l1 l2 s1 s2 Hp0 Hvp0 Ha Hv Hd) as (a' & E & C). rewrite E in H. inversion H; subst a'. clear H E. rewrite FL in C.
  set (w := indifference vp spa spv l1 l2) in *. set (y := Qabs x). assert (Hy0 : 0 <= y) by apply Qabs_nonneg.
  assert (Hy : y <= p / 2) by (apply Qabs_Qle_condition; auto).
  assert (HH : forall j, (j < n)%nat -> 0 <= half_pos (p / d2) j <= p / 2) by (intros j Hj; split; [apply half_nonneg; auto|apply half_below_middle; auto; rewrite FL; auto]).
  (* distance to the lines *)
  assert (FA : forall i, (i < 2 * n)%nat -> exists j, (j < n)%nat /\ y - half_pos (p / d2) j <= Qabs (x - line_position p d2 i) /\ half_pos (p / d2) j - y <= Qabs (x - line_position p d2 i)).
  { intros i Hi. destruct (line_cases p n i Hp0 Hi) as (j & Hj & D). exists j. split; auto. fold d2 in D. destruct (HH j Hj) as [h0 _].
    pose proof (Qle_Qabs (x - line_position p d2 i)) as Q1. pose proof (Qle_Qabs (- (x - line_position p d2 i))) as Q2. rewrite Qabs_opp in Q2.
    unfold y. destruct (Qlt_le_dec x 0) as [Xn|Xp]; [rewrite (Qabs_neg x) by lra|rewrite (Qabs_pos x) by lra]; destruct D as [D|D]; rewrite D in *; split; lra. }
  assert (FB : forall j, (j < n)%nat -> exists i, (i < 2 * n)%nat /\ Qabs (x - line_position p d2 i) == Qabs (y - half_pos (p / d2) j)).
  { intros j Hj. unfold y. destruct (Qlt_le_dec x 0) as [Xn|Xp].
    - exists (n - 1 - j)%nat. split; [lia|]. pose proof (line_left p n j Hj) as D. fold d2 in D. rewrite D. rewrite (Qabs_neg x) by lra. rewrite <- Qabs_opp. apply Qabs_wd. ring.
    - exists (n + j)%nat. split; [lia|]. pose proof (line_right p n j Hj) as D. fold d2 in D. rewrite D. rewrite (Qabs_pos x) by lra. reflexivity. }
  assert (C1 : forall z, y <= w + z -> total_cost l1 y vp spa spv <= total_cost l2 z vp spa spv) by (intros z Hz; apply cost_le; auto).
  assert (C2 : forall z, w + z < y -> total_cost l2 z vp spa spv < total_cost l1 y vp spa spv) by (intros z Hz; apply cost_le; auto).
  assert (CE : forall z z', z == z' -> total_cost l2 z vp spa spv == total_cost l2 z' vp spa spv) by (intros z z' Ez; unfold total_cost; rewrite Ez; reflexivity).
  destruct (indiff_sign vp spa spv l1 l2 Hvp0 Ha Hv) as [I1 I2]. fold w in I1, I2.
  (* two generic endings *)
  assert (E1 : forall q, dget0 Nat.eqb 0 [(s1, q)] s1 = q) by (intro q; unfold dget0, dget; cbn; rewrite Nat.eqb_refl; auto).
  assert (E2 : forall q r, dget0 Nat.eqb 0 [(s1, q); (s2, r)] s1 = q) by (intros q r; unfold dget0, dget; cbn; rewrite Nat.eqb_refl; auto).
  assert (E3 : forall q, dget0 Nat.eqb 0 [(s2, q)] s1 = 0) by (intro q; unfold dget0, dget; cbn; destruct (Nat.eqb s1 s2) eqn:Q; [apply Nat.eqb_eq in Q; congruence|]; destruct (Nat.eqb s2 s1) eqn:Q2; [apply Nat.eqb_eq in Q2; congruence|auto]).
  assert (ALL1 : (forall j, (j < n)%nat -> half_pos (p / d2) j <= w) -> forall i, (i < 2 * n)%nat -> total_cost l1 y vp spa spv <= total_cost l2 (Qabs (x - line_position p d2 i)) vp spa spv).
  { intros Hw i Hi. destruct (FA i Hi) as (j & Hj & B1 & _). apply C1. specialize (Hw j Hj). lra. }
  assert (TH : forall t j, (j < n)%nat -> t == (w + half_pos (p / d2) j) / 2 -> w < half_pos (p / d2) j -> t < y ->
     exists i, (i < 2 * n)%nat /\ total_cost l2 (Qabs (x - line_position p d2 i)) vp spa spv < total_cost l1 y vp spa spv).
  { intros t j Hj Et Hwj Hty. destruct (FB j Hj) as (i & Hi & Ei). exists i. split; auto. rewrite (CE _ _ Ei). apply C2.
    assert (Ht : t == (1 # 2) * (w + half_pos (p / d2) j)) by (rewrite Et; field).
    destruct (Qlt_le_dec (y - half_pos (p / d2) j) 0); [rewrite Qabs_neg by lra|rewrite Qabs_pos by lra]; lra. }
  assert (EP : p / 2 == (1 # 2) * p) by field.
  destruct C as [(D1 & D2 & ->)|[(D1 & D2 & j & q & D3 & D4 & D5 & D6 & ->)|[(D1 & D2 & D3 & [(D4 & ->)|(D4 & ->)])|[(D1 & D2 & ->)|[(D1 & D2 & D3 & ->)|(D1 & D2 & D3 & q & D4 & ->)]]]]].
  - rewrite E1. split; [intros _; apply ALL1; intros j Hj; destruct (HH j Hj); lra|]. intro. exfalso. assert (100 / 100 * (p / 2) == p / 2) by field. lra.
  - rewrite E2. assert (Eq : q * 100 / 100 * (p / 2) == (w + half_pos (p / d2) j) / 2) by (rewrite D6; field; lra). split.
    + rewrite Eq. intros Hlt i Hi. assert (Ht : (w + half_pos (p / d2) j) / 2 == (1 # 2) * (w + half_pos (p / d2) j)) by field. destruct (FA i Hi) as (m & Hm & B1 & B2). apply C1.
      destruct (Nat.lt_ge_cases m j) as [Lm|Lm]; [specialize (D5 m Lm); lra|]. pose proof (half_mono p d2 j m Hp0 Hd Lm). lra.
    + intro Hlt. apply (TH _ j D3 Eq D4 Hlt).
  - rewrite E1. split; [intros _; apply ALL1; auto|]. intro. exfalso. assert (100 / 100 * (p / 2) == p / 2) by field. lra.
  - contradiction.
  - contradiction.
  - rewrite E3. assert (Z0 : 0 / 100 * (p / 2) == 0) by field. rewrite Z0. split; [intro; exfalso; lra|]. intro Hlt.
    destruct (FB 0%nat Hn) as (i & Hi & Ei). exists i. split; auto. rewrite (CE _ _ Ei). apply C2.
    assert (h0 : 0 < half_pos (p / d2) 0) by (rewrite half0; assert (0 < p / d2) by (apply Qlt_shift_div_l; lra); lra). assert (W0 : w <= 0) by (apply I2; lra).
    destruct (Qlt_le_dec (y - half_pos (p / d2) 0) 0); [rewrite Qabs_neg by lra|rewrite Qabs_pos by lra]; try lra.
  - rewrite E2. assert (Eq : q * 100 / 100 * (p / 2) == (w + half_pos (p / d2) 0) / 2) by (rewrite D4; field; lra). assert (W0 : w <= 0) by (apply I2; lra). split.
    + rewrite Eq. intros Hlt i Hi. assert (Ht : (w + half_pos (p / d2) 0) / 2 == (1 # 2) * (w + half_pos (p / d2) 0)) by field. destruct (FA i Hi) as (m & Hm & B1 & B2). apply C1.
      pose proof (half_mono p d2 0 m Hp0 Hd ltac:(lia)). lra.
    + intro Hlt. apply (TH _ 0%nat Hn Eq); auto. destruct (HH 0%nat Hn). lra.
Qed.
Print Assumptions C40_shares.
Print Assumptions C40_indifference.

(** two modes of one axis each with the same stops, times and frequencies *)
Definition ex_metro2 : mode := mkMode 4 "light" 0 (8091#100) (3#10) (93315#100) 40 (33#100) 40 1440 (5#10) 1 1 28.
Definition ex_twins : list route := [mkRoute "m1" ex_metro [1;2]%Z [2;1]%Z [1;2]%Z [2;1]%Z CUSTOM; mkRoute "m2" ex_metro2 [1;2]%Z [2;1]%Z [1;2]%Z [2;1]%Z CUSTOM].
Definition ex_X4 : xgraph := match build_ext ex_geo ex_g34 ex_twins 16 None with Ok X => X | Err _ => mkXgraph empty_graph [] [] [] [] end.
Example ex_X4_built : build_ext ex_geo ex_g34 ex_twins 16 None = Ok ex_X4.
Proof. vm_compute. reflexivity. Qed.
Example ex_X4_input : ext_input ex_g34 ex_twins.
Proof. ext_input_tac. Qed.
Example ex_X4_hyper : hyper_graph ex_X4 /\ weights ex_X4 ex_P /\ (length (xnodes ex_X4) < 40)%nat.
Proof.
  split; [|split].
  - eapply built_graph_is_hyper_graph; [exact ex_X4_input|exact ex_X4_built|exact ex_sqrt_nonneg|discriminate|modes_tac|].
    intro id. unfold route_frequency. simpl. destruct (id =? "m1")%string, (id =? "m2")%string; discriminate.
  - eapply built_graph_weights; [exact ex_X4_input|exact ex_X4_built|modes_tac|reflexivity|discriminate|discriminate|]. left. split; [reflexivity|modes_tac].
  - vm_compute. lia.
Qed.
Theorem C40_equal_labels_lose_all_trips_refuted : exists X P M fuel es, hyper_graph X /\ weights X P /\ (length (xnodes X) < fuel)%nat /\
  get_all_hyperpaths fuel X P M = Ok es /\ (exists e, es = [e] /\ od_v e == 5 /\ length (od_paths e) = 2%nat) /\
  get_assignment X (8 # 10) 4 (822 # 100) (274 # 100) es = Ok [[]].
Proof.
  destruct ex_X4_hyper as (A & B & C). exists ex_X4, ex_P, [(1%Z, [(2%Z, 5)])], 40%nat. eexists. do 3 (split; [assumption|]).
  split; [vm_compute; reflexivity|]. split; [eexists; split; [reflexivity|]; split; reflexivity|]. vm_compute. reflexivity.
Qed.
(** with three lines of the other mode one of them is at the centre, but the code puts its lines at half
    a zone from it: a traveller counted at stop 2 strictly prefers stop 1 to every line of stop 2 *)
Theorem C40_odd_lines_misplaced_refuted : exists p vp spa spv l1 l2 a x, l1 <= l2 /\ 0 < p /\ 0 < vp /\ 0 < spa /\ 0 < spv /\
  share_two 3 p vp spa spv l1 l2 1 2 = Ok a /\ - (p / 2) <= x <= p / 2 /\ dget0 Nat.eqb 0 a 1%nat / 100 * (p / 2) < Qabs x /\
  forall i, (i < 3)%nat -> total_cost l1 (Qabs x) vp spa spv < total_cost l2 (Qabs (x - line_position p 3 i)) vp spa spv.
Proof.
  exists 24, 1, 1, 1, 0, 2. eexists. exists 4. split; [discriminate|]. do 4 (split; [reflexivity|]). split; [vm_compute; reflexivity|]. split; [split; discriminate|]. split; [reflexivity|].
  intros i Hi. destruct i as [|[|[|i]]]; [reflexivity|reflexivity|reflexivity|lia].
Qed.
(** a mode with no parallel line (d = 0, which TransportMode accepts) divides by zero *)
Theorem C40_no_line_refuted : exists p vp spa spv l1 l2, 0 < p /\ 0 < vp /\ 0 < spa /\ 0 < spv /\ share_two 0 p vp spa spv l1 l2 1 2 = Err ZeroDivisionError.
Proof. exists 1, 1, 1, 1, 0, 0. repeat split. Qed.
(** a zone whose travellers use the metro (one axis) or the bus (four lines) *)
Example C40_ex : exists es, get_all_hyperpaths 40 ex_X3 ex_P [(2%Z, [(3%Z, 5)]); (1%Z, [(3%Z, 7)])] = Ok es /\
  (forall m, used_mode ex_X3 m -> 1 <= m_d m) /\ map (fun e => length (od_paths e)) es = [2; 1]%nat /\
  exists a b, get_assignment ex_X3 12 4 (822 # 100) (274 # 100) es = Ok [a; b] /\ length a = 2%nat.
Proof.
  eexists. split; [vm_compute; reflexivity|]. split.
  - intros m (k & s & _ & Hs & <-). apply nth_error_In in Hs. vm_compute in Hs. repeat (destruct Hs as [<-|Hs]); try contradiction; vm_compute; discriminate.
  - split; [reflexivity|]. eexists. eexists. split; [vm_compute; reflexivity|reflexivity].
Qed.

(** ** C41: boardings, alightings and loads *)
Lemma record_cases X t e : record_ev X t e =
  match ev_from e, ev_to e with
  | ES s, ER k => mkT (tadd (t_z t) (rid X k) (rdir X k) s (snd e)) (t_v t) (t_l t)
  | ER k, ES s => mkT (t_z t) (tadd (t_v t) (rid X k) (rdir X k) s (snd e)) (t_l t)
  | ER k, ER _ => mkT (t_z t) (t_v t) (tadd (t_l t) (rid X k) (rdir X k) (rn_stop_at (xg_rnodes X) k) (snd e))
  | _, _ => t
  end.
Proof. reflexivity. Qed.
Section C41.
  Context (X : xgraph) (P : qpass) (M : dict2) (f : fdict) (fuel0 : nat) (es : list od_entry) (asg : list (list (nat * Q))).
  Hypothesis HG : hyper_graph X.
  Hypothesis WG : weights X P.
  Hypothesis FU : (length (xnodes X) < fuel0)%nat.
  Hypothesis ES0 : get_all_hyperpaths fuel0 X P M = Ok es.
  Hypothesis SHAPE : forall x, In x (xg_edges X) -> edge_shape X x.
  Hypothesis FPOS : forall r, 0 <= freq f r.
  Hypothesis RUNS : forall e, In e es -> runs X f e.

  Lemma gab_events : exists N ls, Forall2 (fun ea l => od_flow X f (fst ea) (snd ea) l) (combine es asg) ls /\
    forall fuel, (N <= fuel)%nat -> get_alighting_and_boarding fuel X f es asg = Ok (let t := fold_left (record_ev X) (concat ls) (mkT [] [] []) in mkT (per_vehicle f (t_z t)) (per_vehicle f (t_v t)) (per_vehicle f (t_l t))).
  Proof.
    destruct (all_events X P M f HG SHAPE (fun k => FPOS (rid X k)) es (entries_ok fuel0 X P M es HG WG FU ES0) RUNS asg) as (N & ls & R & F). exists N, ls. split; auto.
    intros fuel Hf. unfold get_alighting_and_boarding. rewrite R by auto. reflexivity.
  Qed.
  Lemma gab_inv fuel T : get_alighting_and_boarding fuel X f es asg = Ok T -> exists ls t, Forall2 (fun ea l => od_flow X f (fst ea) (snd ea) l) (combine es asg) ls /\
    t = fold_left (record_ev X) (concat ls) (mkT [] [] []) /\ T = mkT (per_vehicle f (t_z t)) (per_vehicle f (t_v t)) (per_vehicle f (t_l t)).
  Proof.
    intro H. destruct gab_events as (N & ls & F & R). exists ls. eexists. split; [exact F|]. split; [reflexivity|].
    unfold get_alighting_and_boarding in H. apply bind_ok in H. destruct H as (t & E & H). inversion H; subst T. clear H.
    specialize (R (Nat.max fuel N) ltac:(lia)). unfold get_alighting_and_boarding in R. rewrite (spread_mono fuel (Nat.max fuel N) X f es asg _ _ ltac:(lia) E) in R. cbn [bind] in R. congruence.
  Qed.
  Lemma events_edge ls : Forall2 (fun ea l => od_flow X f (fst ea) (snd ea) l) (combine es asg) ls -> forall e, In e (concat ls) -> exists x, In x (xg_edges X) /\ x_i x = ev_from e /\ x_j x = ev_to e.
  Proof.
    intros F e He. apply in_concat in He. destruct He as (l & Hl & He). induction F as [|ea l' eas ls' O F IH]; [contradiction|]. destruct Hl as [->|Hl]; [|auto].
    destruct e as [[i j] q]. destruct (of_edge _ _ _ _ _ O i j q He) as (x & A1 & A2 & A3 & _). exists x. auto.
  Qed.
  (** a linear quantity of the tables that is a difference of potentials along every edge *)
  Lemma potential_law (L : tables -> Q) (phi : enode -> Q) (psi : nat -> Q) :
    (forall s, phi (ES s) == psi (sn_city (stop_at (xg_stops X) s))) -> L (mkT [] [] []) == 0 ->
    (forall t e x, In x (xg_edges X) -> x_i x = ev_from e -> x_j x = ev_to e -> L (record_ev X t e) == L t + (phi (ev_from e) - phi (ev_to e)) * snd e) ->
    forall ls, Forall2 (fun ea l => od_flow X f (fst ea) (snd ea) l) (combine es asg) ls ->
    L (fold_left (record_ev X) (concat ls) (mkT [] [] [])) ==
      Qsumf (fun ea => assigned_trips (fst ea) (snd ea) * ((match od_o (fst ea) with Some (EC c) => psi c | _ => 0 end) - (match od_d (fst ea) with Some (EC c) => psi c | _ => 0 end))) (combine es asg).
  Proof.
    intros Hphi L0 HL ls F. rewrite (fold_linear X L (fun i j => phi i - phi j) (fun e => exists x, In x (xg_edges X) /\ x_i x = ev_from e /\ x_j x = ev_to e)).
    - rewrite L0, Qsumf_concat. assert (OK : forall ea, In ea (combine es asg) -> exists c cd, od_ok X P M (fst ea) c cd).
      { intros [e a] H. apply in_combine_l in H. apply (entries_ok fuel0 X P M es HG WG FU ES0 e H). }
      rewrite Qplus_0_l. revert OK. induction F as [|ea l eas ls' O F IH]; intro OK; [unfold Qsumf; reflexivity|]. rewrite !Qsumf_cons, IH by (intros; apply OK; right; auto).
      destruct (OK ea (or_introl eq_refl)) as (c & cd & Ok). rewrite (oo_origin _ _ _ _ _ _ Ok), (oo_dest _ _ _ _ _ _ Ok). rewrite <- (of_pot _ _ _ _ _ O phi psi Hphi c cd (oo_origin _ _ _ _ _ _ Ok) (oo_dest _ _ _ _ _ _ Ok)).
      assert (E : forall A B C : Q, A == B -> A + C == B + C) by (intros A B C ->; reflexivity). apply E. apply Qsumf_ext. intros; ring.
    - intros t e (x & A1 & A2 & A3). eapply HL; eauto.
    - apply events_edge. auto.
  Qed.
  (** the same without trips entering or leaving, for potentials that vanish at stops *)
  Lemma inner_law (L : tables -> Q) (phi : enode -> Q) : (forall s, phi (ES s) == 0) -> L (mkT [] [] []) == 0 ->
    (forall t e x, In x (xg_edges X) -> x_i x = ev_from e -> x_j x = ev_to e -> L (record_ev X t e) == L t + (phi (ev_from e) - phi (ev_to e)) * snd e) ->
    forall ls, Forall2 (fun ea l => od_flow X f (fst ea) (snd ea) l) (combine es asg) ls -> L (fold_left (record_ev X) (concat ls) (mkT [] [] [])) == 0.
  Proof.
    intros H0 L0 HL ls F. rewrite (potential_law L phi (fun _ => 0) H0 L0 HL ls F). apply Qsumf_zero. intros [e a] _. destruct (od_o _) as [[]|], (od_d _) as [[]|]; ring.
  Qed.
  Lemma row_balance fuel T : get_alighting_and_boarding fuel X f es asg = Ok T -> forall r d, row_sum (t_z T) r d == row_sum (t_v T) r d.
  Proof.
    intros H r d. destruct (gab_inv _ _ H) as (ls & t & F & Et & ->). cbn [t_z t_v]. rewrite !row_sum_scaled.
    assert (E : row_sum (t_z t) r d - row_sum (t_v t) r d == 0); [|assert (E' : row_sum (t_z t) r d == row_sum (t_v t) r d) by lra; rewrite E'; reflexivity].
    rewrite Et. apply (inner_law (fun t => row_sum (t_z t) r d - row_sum (t_v t) r d) (fun n => match n with ER k => if ((r =? rid X k)%string && dir_eqb d (rdir X k))%bool then -(1) else 0 | _ => 0 end)); auto; [reflexivity|reflexivity|].
    intros t' e x Hx Ei Ej. pose proof (SHAPE x Hx) as Sh. unfold edge_shape in Sh. rewrite Ei, Ej in Sh. rewrite record_cases.
    destruct (x_f x), (ev_from e) as [c|s|k], (ev_to e) as [c'|s'|k']; try contradiction; cbn [t_z t_v t_l]; rewrite ?row_sum_tadd; try ring.
    - destruct ((r =? rid X k')%string && dir_eqb d (rdir X k'))%bool; ring.
    - destruct ((r =? rid X k)%string && dir_eqb d (rdir X k))%bool; ring.
    - destruct Sh as (-> & -> & _). ring.
  Qed.
  Lemma pv_nonneg r q : 0 <= q -> 0 <= scale f r q.
  Proof.
    intro H. unfold scale. destruct (Qeqb (freq f r) 0) eqn:E; auto. apply Qeqb_neq in E. pose proof (FPOS r). apply Qle_shift_div_l; lra.
  Qed.
  Lemma table_nonneg fuel T : (forall e a s, In (e, a) (combine es asg) -> In s (map fst (od_paths e)) -> 0 <= start_trips e a s) -> get_alighting_and_boarding fuel X f es asg = Ok T ->
    forall r d s, 0 <= tget (t_z T) r d s /\ 0 <= tget (t_v T) r d s /\ 0 <= tget (t_l T) r d s.
  Proof.
    intros HP H r d s. destruct (gab_inv _ _ H) as (ls & t & F & Et & ->). cbn [t_z t_v t_l]. rewrite !tget_scaled.
    assert (EP : forall e, In e (concat ls) -> 0 <= snd e).
    { intros e He. apply in_concat in He. destruct He as (l & Hl & He). clear Et H. revert HP. induction F as [|ea l' eas ls' O F IH]; intro HP; [contradiction|]. destruct Hl as [->|Hl].
      - eapply (of_pos _ _ _ _ _ O); eauto. intros s' Hs'. apply HP; auto. left. destruct ea; auto.
      - apply IH; auto. intros; apply HP; auto. right; auto. }
    assert (N : 0 <= tget (t_z t) r d s /\ 0 <= tget (t_v t) r d s /\ 0 <= tget (t_l t) r d s).
    { rewrite Et. clear Et H F. assert (N0 : 0 <= tget (t_z (mkT [] [] [])) r d s /\ 0 <= tget (t_v (mkT [] [] [])) r d s /\ 0 <= tget (t_l (mkT [] [] [])) r d s) by (cbn; split; [|split]; unfold tget; cbn; lra).
      revert N0. generalize (mkT [] [] []). induction (concat ls) as [|e l IH]; intros t0 N0; cbn [fold_left]; auto. apply IH; [intros; apply EP; right; auto|]. specialize (EP e (or_introl eq_refl)). destruct N0 as (N1 & N2 & N3).
      rewrite record_cases. destruct (ev_from e) as [c|s0|k], (ev_to e) as [c'|s'|k']; cbn [t_z t_v t_l]; rewrite ?tget_tadd; repeat (destruct (here _ _ _ _ _ _)); split; try split; lra. }
    destruct N as (N1 & N2 & N3). split; [|split]; apply pv_nonneg; auto.
  Qed.
  Lemma city_balance fuel T : get_alighting_and_boarding fuel X f es asg = Ok T -> forall c,
    city_total X f (t_z T) c - city_total X f (t_v T) c ==
      Qsumf (fun ea => match od_o (fst ea) with Some (EC c') => if Nat.eqb c' c then assigned_trips (fst ea) (snd ea) else 0 | _ => 0 end) (combine es asg) -
      Qsumf (fun ea => match od_d (fst ea) with Some (EC c') => if Nat.eqb c' c then assigned_trips (fst ea) (snd ea) else 0 | _ => 0 end) (combine es asg).
  Proof.
    intros H c. destruct (gab_inv _ _ H) as (ls & t & F & Et & ->). cbn [t_z t_v]. unfold city_total. rewrite !table_sum_scaled.
    set (at_c := fun s => Nat.eqb (sn_city (stop_at (xg_stops X) s)) c).
    (* lines that do not run carry nobody *)
    assert (Z : forall W : string -> dir -> nat -> Q, (forall r d s, W r d s == (if Qeqb (freq f r) 0 then W r d s else 0)) -> table_sum W (t_z t) == 0 /\ table_sum W (t_v t) == 0).
    { intros W HW. assert (EZ : forall e, In e (concat ls) -> is_zero_line X f (ev_from e) \/ is_zero_line X f (ev_to e) -> snd e == 0).
      { intros e He. apply in_concat in He. destruct He as (l & Hl & He). clear Et H. induction F as [|ea l' eas ls' O F IH]; [contradiction|]. destruct Hl as [->|Hl]; auto. destruct e as [[i j] q]. intro Hz. eapply (of_zero _ _ _ _ _ O); eauto. }
      assert (WZ : forall k d s q, (is_zero_line X f (ER k) -> q == 0) -> W (rid X k) d s * q == 0).
      { intros k d s q Hq. rewrite HW. destruct (Qeqb (freq f (rid X k)) 0) eqn:E; [|ring]. apply Qeqb_eq in E. rewrite Hq by (exists k; auto). ring. }
      rewrite Et. clear Et H F. assert (T0 : table_sum W (t_z (mkT [] [] [])) == 0 /\ table_sum W (t_v (mkT [] [] [])) == 0) by (split; reflexivity).
      revert T0. generalize (mkT [] [] []). induction (concat ls) as [|e l IH]; intros t0 T0; cbn [fold_left]; auto. apply IH; [intros; apply EZ; auto; right; auto|]. specialize (EZ e (or_introl eq_refl)). destruct T0 as (T1 & T2). rewrite record_cases.
      destruct (ev_from e) as [c0|s0|k], (ev_to e) as [c'|s'|k']; cbn [t_z t_v t_l]; rewrite ?table_sum_tadd; auto.
      - split; auto. rewrite T1, (WZ k') by (intro; apply EZ; auto). reflexivity.
      - split; auto. rewrite T2, (WZ k) by (intro; apply EZ; auto). reflexivity. }
    set (W1 := fun (r : string) (d : dir) s => (if at_c s then freq f r else 0) * (if Qeqb (freq f r) 0 then 1 else / freq f r)).
    set (W0 := fun (r : string) (d : dir) s => if Qeqb (freq f r) 0 then (if at_c s then 1 else 0) else 0).
    assert (E : forall tb, table_sum (fun _ _ s => if at_c s then 1 else 0) tb == table_sum W1 tb + table_sum W0 tb).
    { intro tb. rewrite <- table_sum_plus. apply table_sum_ext. intros r d s. unfold W1, W0. destruct (Qeqb (freq f r) 0) eqn:Q0.
      - apply Qeqb_eq in Q0. destruct (at_c s); [rewrite Q0|]; ring.
      - apply Qeqb_neq in Q0. destruct (at_c s); [field; auto|ring]. }
    destruct (Z W0) as [Z1 Z2]; [intros r d s; unfold W0; destruct (Qeqb (freq f r) 0); reflexivity|].
    pose proof (E (t_z t)) as E1. pose proof (E (t_v t)) as E2. rewrite Z1 in E1. rewrite Z2 in E2.
    assert (LAW : table_sum (fun _ _ s => if at_c s then 1 else 0) (t_z t) - table_sum (fun _ _ s => if at_c s then 1 else 0) (t_v t) ==
       Qsumf (fun ea => assigned_trips (fst ea) (snd ea) * ((match od_o (fst ea) with Some (EC c') => (if Nat.eqb c' c then 1 else 0) | _ => 0 end) - (match od_d (fst ea) with Some (EC c') => (if Nat.eqb c' c then 1 else 0) | _ => 0 end))) (combine es asg)).
    { rewrite Et. apply (potential_law (fun t => table_sum (fun _ _ s => if at_c s then 1 else 0) (t_z t) - table_sum (fun _ _ s => if at_c s then 1 else 0) (t_v t))
        (fun n => match n with ES s => if at_c s then 1 else 0 | EC c' => if Nat.eqb c' c then 1 else 0 | ER _ => 0 end) (fun c' => if Nat.eqb c' c then 1 else 0)); auto; [reflexivity|reflexivity|].
      intros t' e x Hx Ei Ej. pose proof (SHAPE x Hx) as Sh. unfold edge_shape in Sh. rewrite Ei, Ej in Sh. rewrite record_cases.
      destruct (x_f x), (ev_from e) as [c0|s|k], (ev_to e) as [c'|s'|k']; try contradiction; cbn [t_z t_v t_l]; rewrite ?table_sum_tadd; try ring.
      - unfold at_c. rewrite Sh. destruct (Nat.eqb c0 c); ring.
      - unfold at_c. rewrite Sh. destruct (Nat.eqb c' c); ring. }
    unfold W1 in *. change (fun r (_ : dir) s => (if Nat.eqb (sn_city (stop_at (xg_stops X) s)) c then freq f r else 0) * (if Qeqb (freq f r) 0 then 1 else / freq f r)) with W1. fold W1 in E1, E2.
    assert (S : forall A B C D S : Q, A == C + 0 -> B == D + 0 -> A - B == S -> C - D == S) by (intros; lra). rewrite (S _ _ _ _ _ E1 E2 LAW).
    assert (SP : forall l, Qsumf (fun ea => assigned_trips (fst ea) (snd ea) * ((match od_o (fst ea) with Some (EC c') => (if Nat.eqb c' c then 1 else 0) | _ => 0 end) - (match od_d (fst ea) with Some (EC c') => (if Nat.eqb c' c then 1 else 0) | _ => 0 end))) l ==
       Qsumf (fun ea => match od_o (fst ea) with Some (EC c') => if Nat.eqb c' c then assigned_trips (fst ea) (snd ea) else 0 | _ => 0 end) l - Qsumf (fun ea => match od_d (fst ea) with Some (EC c') => if Nat.eqb c' c then assigned_trips (fst ea) (snd ea) else 0 | _ => 0 end) l).
    { induction l as [|ea l IH]; [unfold Qsumf; cbn; ring|]. rewrite !Qsumf_cons, IH. destruct (od_o (fst ea)) as [[c1| |]|], (od_d (fst ea)) as [[c2| |]|]; try destruct (Nat.eqb c1 c); try destruct (Nat.eqb c2 c); ring. }
    apply SP.
  Qed.
End C41.
Section C41Built.
  Context (G : geo) (g : graph) (rs : list route) (TP : Q) (fr : option (list (string * Q))) (X : xgraph) (P : qpass) (M : dict2) (f : fdict) (fuel0 : nat) (es : list od_entry) (asg : list (list (nat * Q))).
  Hypothesis I : ext_input g rs.
  Hypothesis B : build_ext G g rs TP fr = Ok X.
  Hypothesis HG : hyper_graph X.
  Hypothesis WG : weights X P.
  Hypothesis FU : (length (xnodes X) < fuel0)%nat.
  Hypothesis ES0 : get_all_hyperpaths fuel0 X P M = Ok es.
  Hypothesis FPOS : forall r, 0 <= freq f r.
  Hypothesis RUNS : forall e, In e es -> runs X f e.
  Hypothesis IDS : NoDup (map r_id rs).
  Hypothesis VIS : forall r d, In r rs -> NoDup (visits r d).

  Lemma node_of_edge x k : In x (xg_edges X) -> x_i x = ER k \/ x_j x = ER k -> exists rn, nth_error (xg_rnodes X) k = Some rn /\ rnode_at (xg_rnodes X) k = rn.
  Proof.
    intros Hx H. destruct (hg_ends X HG x Hx) as [H1 H2]. destruct (C30_nodes_exact _ _ _ _ _ _ I B) as [_ N]. assert (K : is_xnode X (ER k)) by (apply N; destruct H as [H|H]; congruence).
    destruct K as (rn & K). exists rn. split; auto. unfold rnode_at. apply nth_error_nth. auto.
  Qed.
  Lemma stop_balance fuel T : get_alighting_and_boarding fuel X f es asg = Ok T -> forall k rn s, nth_error (xg_rnodes X) k = Some rn -> rn_stop rn = Some s ->
    let r := r_id (rn_route rn) in let d := rn_dir rn in
    tget (t_z T) r d s + (match rn_prev rn with Some p => tget (t_l T) r d (rn_stop_at (xg_rnodes X) p) | None => 0 end) == tget (t_v T) r d s + tget (t_l T) r d s /\
    ((forall k' rn', nth_error (xg_rnodes X) k' = Some rn' -> rn_prev rn' <> Some k) -> tget (t_l T) r d s == 0).
  Proof.
    intros H k rn s Hk Hs r d. pose proof (built_shape G g rs TP fr X I B HG) as SHAPE.
    destruct (gab_inv X P M f fuel0 es asg HG WG FU ES0 SHAPE FPOS RUNS _ _ H) as (ls & t & F & Et & ->). cbn [t_z t_v t_l].
    assert (NK : rnode_at (xg_rnodes X) k = rn) by (unfold rnode_at; apply nth_error_nth; auto).
    assert (PK : forall p, rn_prev rn = Some p -> exists rp, nth_error (xg_rnodes X) p = Some rp /\ rnode_at (xg_rnodes X) p = rp /\ r_id (rn_route rp) = r /\ rn_dir rp = d /\ rn_stop rp = Some (rn_stop_at (xg_rnodes X) p)).
    { intros p Hp. pose proof (facts_of _ _ _ _ _ _ I B) as FA. assert (Hk' := Hk). rewrite (ef_rn _ _ _ _ _ _ FA) in Hk'. destruct (rns_prev g rs I k rn p Hk' Hp) as (rp & Hrp & Er & Ed).
      destruct (rns_visit g rs I p rp Hrp) as (_ & _ & _ & sp & _ & _ & _ & _ & _ & _ & _ & Es & _). rewrite <- (ef_rn _ _ _ _ _ _ FA) in Hrp.
      assert (N : rnode_at (xg_rnodes X) p = rp) by (unfold rnode_at; apply nth_error_nth; auto). exists rp. split; auto. split; auto. split; [unfold r; congruence|]. split; [unfold d; congruence|]. unfold rn_stop_at. rewrite N, Es. auto. }
    assert (SAME : forall k' rn', nth_error (xg_rnodes X) k' = Some rn' -> forall k2 rn2 s2, nth_error (xg_rnodes X) k2 = Some rn2 -> rn_stop rn2 = Some s2 -> r_id (rn_route rn2) = r -> rn_dir rn2 = d ->
       forall s', rn_stop rn' = Some s' -> here (r_id (rn_route rn')) r (rn_dir rn') d s' s2 = Nat.eqb k' k2).
    { intros k' rn' H' k2 rn2 s2 H2 S2 R2 D2 s' S'. unfold here. destruct (Nat.eqb k' k2) eqn:E.
      - apply Nat.eqb_eq in E. subst k2. assert (rn' = rn2) by congruence. subst rn2. assert (s' = s2) by congruence. subst s2. rewrite R2, D2, String.eqb_refl, Nat.eqb_refl. destruct d; reflexivity.
      - destruct ((r =? r_id (rn_route rn'))%string && dir_eqb d (rn_dir rn') && Nat.eqb s2 s') eqn:C; auto. apply andb_true_iff in C. destruct C as [C C3]. apply andb_true_iff in C. destruct C as [C1 C2].
        apply String.eqb_eq in C1. apply dir_spec in C2. apply Nat.eqb_eq in C3. subst s'. apply Nat.eqb_neq in E. exfalso. apply E. apply (rnode_inj G g rs TP fr X I B IDS VIS k' k2 rn' rn2); congruence. }
    assert (SC : forall q, (q == 0 -> scale f r q == 0)) by (intros q E; rewrite scale_mult, E; ring).
    split.
    - assert (E : tget (t_z t) r d s - tget (t_v t) r d s - tget (t_l t) r d s + (match rn_prev rn with Some p => tget (t_l t) r d (rn_stop_at (xg_rnodes X) p) | None => 0 end) == 0).
      { rewrite Et. apply (inner_law X P M f fuel0 es asg HG WG FU ES0 (fun t => tget (t_z t) r d s - tget (t_v t) r d s - tget (t_l t) r d s + (match rn_prev rn with Some p => tget (t_l t) r d (rn_stop_at (xg_rnodes X) p) | None => 0 end))
          (fun n => match n with ER k' => if Nat.eqb k' k then -(1) else 0 | _ => 0 end)); auto; [reflexivity|destruct (rn_prev rn); reflexivity|].
        intros t' e x Hx Ei Ej. pose proof (SHAPE x Hx) as Sh. unfold edge_shape in Sh. rewrite Ei, Ej in Sh. rewrite record_cases.
        destruct (x_f x), (ev_from e) as [c|s0|k0] eqn:EF, (ev_to e) as [c'|s'|k'] eqn:EE; try contradiction; cbn [t_z t_v t_l]; try (destruct (rn_prev rn); ring).
        - destruct (node_of_edge x k' Hx (or_intror Ej)) as (rn' & N1 & N2). unfold rid, rdir. rewrite N2 in *. rewrite tget_tadd, (SAME k' rn' N1 k rn s Hk Hs eq_refl eq_refl s0 Sh). destruct (Nat.eqb k' k), (rn_prev rn); ring.
        - destruct (node_of_edge x k0 Hx (or_introl Ei)) as (rn' & N1 & N2). unfold rid, rdir. rewrite N2 in *. rewrite tget_tadd, (SAME k0 rn' N1 k rn s Hk Hs eq_refl eq_refl s' Sh). destruct (Nat.eqb k0 k), (rn_prev rn); ring.
        - destruct (node_of_edge x k0 Hx (or_introl Ei)) as (r0 & N1 & N2). destruct (node_of_edge x k' Hx (or_intror Ej)) as (r' & N1' & N2'). destruct Sh as (S1 & S2 & S3 & (s0 & S4)). rewrite N2 in S4. rewrite N2' in S3.
          unfold rid, rdir. rewrite N2. assert (RS : rn_stop_at (xg_rnodes X) k0 = s0) by (unfold rn_stop_at; rewrite N2, S4; auto). rewrite RS.
          rewrite !tget_tadd, (SAME k0 r0 N1 k rn s Hk Hs eq_refl eq_refl s0 S4). destruct (rn_prev rn) as [p|] eqn:Ep.
          + destruct (PK p eq_refl) as (rp & P1 & P2 & P3 & P4 & P5). rewrite tget_tadd. rewrite (SAME k0 r0 N1 p rp _ P1 P5 P3 P4 s0 S4).
            assert (EQ : Nat.eqb k0 p = Nat.eqb k' k). { destruct (Nat.eqb k' k) eqn:C; [apply Nat.eqb_eq in C; subst k'; assert (r' = rn) by congruence; subst; apply Nat.eqb_eq; congruence|]. apply Nat.eqb_neq. intro; subst k0. apply Nat.eqb_neq in C. apply C. apply (prev_inj G g rs TP fr X I B k' k r' rn p); auto. }
            rewrite EQ. destruct (Nat.eqb k0 k), (Nat.eqb k' k); ring.
          + assert (NE : Nat.eqb k' k = false) by (apply Nat.eqb_neq; intro; subst k'; congruence). rewrite NE. destruct (Nat.eqb k0 k); ring. }
      destruct (rn_prev rn) as [p|]; rewrite ?tget_scaled, ?scale_mult; set (c := if Qeqb (freq f r) 0 then 1 else / freq f r); [set (lp := tget (t_l t) r d (rn_stop_at (xg_rnodes X) p)) in *|set (lp := 0) in *].
      + assert (EE : tget (t_z t) r d s + lp == tget (t_v t) r d s + tget (t_l t) r d s) by lra. rewrite <- !Qmult_plus_distr_r. rewrite EE. reflexivity.
      + unfold lp in *. assert (EE : tget (t_z t) r d s == tget (t_v t) r d s + tget (t_l t) r d s) by lra. rewrite EE. ring.
    - intro LAST. rewrite tget_scaled. apply SC. rewrite Et. rewrite (fold_linear X (fun t => tget (t_l t) r d s) (fun i j => 0) (fun e => exists x, In x (xg_edges X) /\ x_i x = ev_from e /\ x_j x = ev_to e)).
      + rewrite Qsumf_zero; [reflexivity|intros; ring].
      + intros t' e (x & Hx & Ei & Ej). pose proof (SHAPE x Hx) as Sh. unfold edge_shape in Sh. rewrite Ei, Ej in Sh. rewrite record_cases.
        destruct (x_f x), (ev_from e) as [c|s0|k0] eqn:EF, (ev_to e) as [c'|s'|k'] eqn:EE; try contradiction; cbn [t_z t_v t_l]; try ring.
        destruct (node_of_edge x k0 Hx (or_introl Ei)) as (r0 & N1 & N2). destruct (node_of_edge x k' Hx (or_intror Ej)) as (r' & N1' & N2'). destruct Sh as (S1 & S2 & S3 & (s0 & S4)). rewrite N2 in S4. rewrite N2' in S3.
        unfold rid, rdir. rewrite N2. assert (RS : rn_stop_at (xg_rnodes X) k0 = s0) by (unfold rn_stop_at; rewrite N2, S4; auto). rewrite RS.
        rewrite tget_tadd, (SAME k0 r0 N1 k rn s Hk Hs eq_refl eq_refl s0 S4). destruct (Nat.eqb k0 k) eqn:C; [|ring]. apply Nat.eqb_eq in C. subst k0. exfalso. eapply LAST; eauto.
      + apply (events_edge X f es asg ls F).
  Qed.
End C41Built.
