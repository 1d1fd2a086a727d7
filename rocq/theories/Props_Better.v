(** * Props_Better: C75, a better service is never worse for the travellers *)
From Coq Require Import String List ZArith QArith Bool Lia Lqa Permutation.
From Verif Require Import PyBase PyFacts Graph GraphProofs GeoEx Mode Route RouteSpec
  Mode Props_Mode Network Props_Network ExtGraph ExtSpec ExtProofs Props_Ext Hyperpath HyperSpec Props_Hyper.
Import ListNotations.
Local Open Scope Q_scope.

(** ** Strategies carried over to a graph with at least the same edges, not slower and not less frequent *)
Lemma NoDup_map_in {A B} (f : A -> B) l : NoDup l -> (forall a b, In a l -> In b l -> f a = f b -> a = b) -> NoDup (map f l).
Proof.
  induction l as [|a l IH]; intros N H; [constructor|]. inversion N as [|? ? N1 N2]. cbn [map]. constructor.
  - intro C. apply in_map_iff in C. destruct C as (b & E & Hb). apply N1. rewrite (H a b); auto; [left|right]; auto.
  - apply IH; auto. intros a1 b1 Ha Hb. apply H; right; auto.
Qed.
Lemma NoDup_map_filter {A B} (f : A -> B) p l : NoDup (map f l) -> NoDup (map f (filter p l)).
Proof.
  induction l as [|a l IH]; intro N; [constructor|]. inversion N as [|? ? N1 N2]. cbn [filter]. destruct (p a); [|auto]. cbn [map]. constructor; [|auto].
  intro C. apply N1. apply in_map_iff in C. destruct C as (b & E & Hb). apply filter_In in Hb. apply in_map_iff. exists b. tauto.
Qed.
Lemma list_choice {A B} (R : A -> B -> Prop) l : (forall a, In a l -> exists b, R a b) -> exists L, map fst L = l /\ forall p, In p L -> R (fst p) (snd p).
Proof.
  induction l as [|a l IH]; intro H; [exists []; split; [auto|contradiction]|]. destruct (H a (or_introl eq_refl)) as [b Hb].
  destruct IH as (L & E & HL); [intros; apply H; right; auto|]. exists ((a, b) :: L). cbn [map fst]. split; [congruence|]. intros p [<-|Hp]; auto.
Qed.
(** what is waited for with better options *)
Lemma better_wait {A} (L : list A) (f f' u u' : A -> Q) w w' q : L <> [] ->
  (forall t, In t L -> 0 < f t /\ f t <= f' t /\ u' t <= u t) -> 0 <= w' -> w' <= w ->
  q * Qsumf f L == w + Qsumf (fun t => f t * u t) L ->
  let K := filter (fun t => Qleb (u' t) q) L in
  K <> [] /\ exists q', q' <= q /\ q' * Qsumf f' K == w' + Qsumf (fun t => f' t * u' t) K.
Proof.
  intros NE H W0 W1 E K.
  assert (D : w <= Qsumf (fun t => f' t * (q - u' t)) K).
  { assert (D1 : w == Qsumf (fun t => f t * (q - u t)) L).
    { assert (S : Qsumf (fun t => f t * (q - u t)) L == q * Qsumf f L - Qsumf (fun t => f t * u t) L).
      { clear. induction L as [|t L IH]; [unfold Qsumf; cbn; ring|]. rewrite !Qsumf_cons, IH. ring. }
      rewrite S, E. ring. }
    rewrite D1. subst K. clear - H. induction L as [|t L IH]; [unfold Qsumf; cbn; lra|]. cbn [filter]. destruct (H t (or_introl eq_refl)) as (F1 & F2 & F3).
    assert (IH' := IH (fun t Ht => H t (or_intror Ht))). destruct (Qleb (u' t) q) eqn:B.
    - apply Qleb_le in B. rewrite !Qsumf_cons. apply Qplus_le_compat; [|exact IH'].
      apply Qle_trans with (f t * (q - u' t)); [apply Qmult_le_l; lra|]. apply Qmult_le_compat_r; lra.
    - apply Qleb_gt in B. rewrite Qsumf_cons. assert (f t * (q - u t) <= 0); [|lra]. setoid_replace 0 with (f t * 0) by ring. apply Qmult_le_l; lra. }
  assert (KN : K <> []).
  { intro Z. rewrite Z in D. unfold Qsumf in D. cbn in D. assert (w == 0) by lra.
    assert (NG : forall t, In t L -> q < u t).
    { intros t Ht. destruct (H t Ht) as (_ & _ & F3). destruct (Qleb (u' t) q) eqn:B; [|apply Qleb_gt in B; lra]. assert (In t K) by (apply filter_In; auto). rewrite Z in H1. contradiction. }
    assert (S : forall M, (forall t, In t M -> In t L) -> M <> [] -> q * Qsumf f M < Qsumf (fun t => f t * u t) M).
    { induction M as [|t M IH]; [congruence|]. intros HM _. rewrite !Qsumf_cons. assert (Ht : In t L) by (apply HM; left; auto). destruct (H t Ht) as (F1 & _).
      assert (q * f t < f t * u t) by (rewrite (Qmult_comm q); apply Qmult_lt_l; auto).
      destruct M as [|t' M]; [unfold Qsumf; cbn; lra|]. assert (q * Qsumf f (t' :: M) < Qsumf (fun t => f t * u t) (t' :: M)) by (apply IH; [intros; apply HM; right; auto|discriminate]). lra. }
    specialize (S L (fun _ x => x) NE). lra. }
  split; auto. assert (FP : 0 < Qsumf f' K).
  { assert (S : forall M, (forall t, In t M -> 0 < f' t) -> M <> [] -> 0 < Qsumf f' M).
    { induction M as [|t M IH]; [congruence|]. intros HM _. rewrite Qsumf_cons. specialize (HM t (or_introl eq_refl)) as F. destruct M as [|t' M]; [unfold Qsumf; cbn; lra|].
      assert (0 < Qsumf f' (t' :: M)) by (apply IH; [intros; apply HM; right; auto|discriminate]). lra. }
    apply S; auto. intros t Ht. apply filter_In in Ht. destruct (H t (proj1 Ht)) as (F1 & F2 & _). lra. }
  exists ((w' + Qsumf (fun t => f' t * u' t) K) / Qsumf f' K). split; [|field; lra].
  apply Qle_shift_div_r; auto.
  assert (S : Qsumf (fun t => f' t * (q - u' t)) K == q * Qsumf f' K - Qsumf (fun t => f' t * u' t) K).
  { clearbody K. clear. induction K as [|t M IH]; [unfold Qsumf; cbn; ring|]. rewrite !Qsumf_cons, IH. ring. }
  lra.
Qed.
Section Carry.
Context (X X' : xgraph) (P P' : qpass) (o o' d d' : option enode) (sim : enode -> enode -> Prop).
Context (Hinj : forall a b k, sim a (ER k) -> sim b (ER k) -> a = b).
Context (HP : NoDup (map (fun e => (x_i e, x_j e)) (xg_edges X))).
Context (Hdest : forall n n', d = Some n -> sim n n' -> d' = Some n').
Context (Hmove : forall e n', In e (xg_edges X) -> x_f e = None -> avoids o e -> sim (x_i e) n' ->
  (exists e', In e' (xg_edges X') /\ x_f e' = None /\ avoids o' e' /\ x_i e' = n' /\ sim (x_j e) (x_j e') /\ leg_cost X' P' d' e' <= leg_cost X P d e) \/
  (sim (x_j e) n' /\ 0 <= leg_cost X P d e)).
Context (Hboard : forall e f n', In e (xg_edges X) -> x_f e = Some f -> 0 < f -> avoids o e -> sim (x_i e) n' ->
  exists e' f', In e' (xg_edges X') /\ x_f e' = Some f' /\ f <= f' /\ avoids o' e' /\ x_i e' = n' /\ (exists k, x_j e' = ER k) /\ sim (x_j e) (x_j e') /\ leg_cost X' P' d' e' <= leg_cost X P d e).
Context (Hwait : forall n n', sim n n' -> 0 <= wait_cost X' P' n' /\ wait_cost X' P' n' <= wait_cost X P n).
Lemma carry n q : strategy_cost X P o d n q -> forall n', sim n n' -> exists q', strategy_cost X' P' o' d' n' q' /\ q' <= q.
Proof.
  induction 1 as [n q E1 E2|e c q He Hf Ha Hc IH Eq|n es q NE ND Hes Hc IH Eq]; intros n' S.
  - exists 0. split; [apply sc_here; [eauto|reflexivity]|lra].
  - destruct (Hmove e n' He Hf Ha S) as [(e' & A1 & A2 & A3 & A4 & A5 & A6)|[A1 A2]]; [|destruct (IH _ A1) as (c' & B1 & B2); exists c'; split; [exact B1|lra]]. destruct (IH _ A5) as (c' & B1 & B2).
    exists (leg_cost X' P' d' e' + c'). split; [|lra]. rewrite <- A4. eapply sc_move; eauto. reflexivity.
  - set (rel := fun (ec : xedge * Q) (ec' : xedge * Q) => In (fst ec') (xg_edges X') /\ x_i (fst ec') = n' /\ (exists f', x_f (fst ec') = Some f' /\ freq_of (fst ec) <= f') /\ avoids o' (fst ec') /\
       ((exists k, x_j (fst ec') = ER k) /\ sim (x_j (fst ec)) (x_j (fst ec'))) /\ strategy_cost X' P' o' d' (x_j (fst ec')) (snd ec') /\ leg_cost X' P' d' (fst ec') + snd ec' <= leg_cost X P d (fst ec) + snd ec).
    assert (EX : forall ec, In ec es -> exists ec', rel ec ec').
    { intros [e c] Hec. destruct (Hes e c Hec) as (A1 & A2 & (f & A3 & A4) & A5). rewrite <- A2 in S. destruct (Hboard e f n' A1 A3 A4 A5 S) as (e' & f' & B1 & B2 & B3 & B4 & B5 & B6 & B7 & B8).
      destruct (IH e c Hec _ B7) as (c' & C1 & C2). exists (e', c'). unfold rel. cbn [fst snd]. repeat split; auto; [|apply B4|apply B4|lra]. exists f'. split; auto. unfold freq_of. rewrite A3. auto. }
    destruct (list_choice rel es EX) as (L & EL & HL). destruct (Hwait n n' S) as [W0 W1].
    assert (SM : forall (h : xedge * Q -> Q), Qsumf h es == Qsumf (fun p => h (fst p)) L) by (intro h; rewrite <- EL; unfold Qsumf; rewrite map_map; reflexivity).
    rewrite !SM in Eq.
    assert (FP : forall p, In p L -> exists f, x_f (fst (fst p)) = Some f /\ 0 < f).
    { intros p Hp. assert (Hin : In (fst p) es) by (rewrite <- EL; apply in_map; auto). destruct (fst p) as [e c]. destruct (Hes e c Hin) as (_ & _ & F & _). exact F. }
    destruct (better_wait L (fun p => freq_of (fst (fst p))) (fun p => freq_of (fst (snd p))) (fun p => leg_cost X P d (fst (fst p)) + snd (fst p)) (fun p => leg_cost X' P' d' (fst (snd p)) + snd (snd p)) (wait_cost X P n) (wait_cost X' P' n') q) as (KN & q' & Q1 & Q2);
      [intros ->; apply NE; rewrite <- EL; reflexivity| |exact W0|exact W1|exact Eq|].
    { intros p Hp. destruct (FP p Hp) as (f & F1 & F2). destruct (HL p Hp) as (_ & _ & (f' & B1 & B2) & _ & _ & _ & B3). unfold freq_of in *. rewrite F1 in *. rewrite B1. auto. }
    set (K := filter _ L) in *. exists q'. split; auto. apply (sc_wait X' P' o' d' n' (map snd K)).
    + destruct K; [congruence|discriminate].
    + rewrite map_map. apply (NoDup_map_inv x_j). rewrite map_map.
      assert (NJ : NoDup (map (fun p => x_j (fst (fst p))) L)).
      { replace (map (fun p => x_j (fst (fst p))) L) with (map x_j (map fst (map fst L))) by (rewrite !map_map; reflexivity). rewrite EL. apply NoDup_map_in; auto.
        intros a b Ha Hb E. apply in_map_iff in Ha, Hb. destruct Ha as ([a1 ca] & <- & Ha), Hb as ([b1 cb] & <- & Hb). cbn [fst] in *.
        destruct (Hes _ _ Ha) as (A1 & A2 & _), (Hes _ _ Hb) as (B1 & B2 & _). apply (NoDup_map_eq _ _ _ _ HP A1 B1). congruence. }
      apply (NoDup_map_filter _ (fun t => Qleb (leg_cost X' P' d' (fst (snd t)) + snd (snd t)) q)) in NJ. fold K in NJ. revert NJ. assert (HK : forall p, In p K -> In p L) by (intros p Hp; apply filter_In in Hp; tauto). clearbody K. clear - HK HL Hinj. intro NJ.
      induction K as [|p K IH]; [constructor|]. cbn [map] in *. inversion NJ as [|? ? N1 N2]; subst. constructor; [|apply IH; auto; intros; apply HK; right; auto].
      intro C. apply N1. apply in_map_iff in C. destruct C as (p' & E & Hp'). apply in_map_iff. exists p'. split; auto.
      destruct (HL p (HK p (or_introl eq_refl))) as (_ & _ & _ & _ & [[k K1] S1] & _), (HL p' (HK p' (or_intror Hp'))) as (_ & _ & _ & _ & [[k' K2] S2] & _). rewrite K1 in *. rewrite E in *. eapply Hinj; eauto.
    + intros e c Hec. apply in_map_iff in Hec. destruct Hec as (p & Ep & Hp). apply filter_In in Hp. destruct Hp as [Hp _]. destruct (HL p Hp) as (B1 & B2 & (f' & B3 & B4) & B5 & _). rewrite Ep in *. cbn [fst] in *.
      repeat split; auto; try apply B5. exists f'. split; auto. destruct (FP p Hp) as (f & F1 & F2). unfold freq_of in B4. rewrite F1 in B4. lra.
    + intros e c Hec. apply in_map_iff in Hec. destruct Hec as (p & Ep & Hp). apply filter_In in Hp. destruct Hp as [Hp _]. destruct (HL p Hp) as (_ & _ & _ & _ & _ & B & _). rewrite Ep in B. exact B.
    + unfold Qsumf in *. rewrite !map_map. exact Q2.
Qed.
End Carry.

(** ** More lines, at least as frequent, in any order *)
(** where the visits of a line start in the list of all of them; [shift] takes the place of a visit among those of the
    lines l to its place among those of the lines l' *)
Definition lkey (x : route * dir) : string * dir := (r_id (fst x), snd x).
Definition llen (x : route * dir) : nat := length (visits (fst x) (snd x)).
Definition lsum (l : list (route * dir)) : nat := fold_right (fun x n => llen x + n)%nat 0%nat l.
Fixpoint off (l : list (route * dir)) (x : route * dir) : nat :=
  match l with
  | [] => 0
  | y :: l' => if (String.eqb (r_id (fst y)) (r_id (fst x)) && dir_eqb (snd y) (snd x))%bool then 0 else llen y + off l' x
  end.
Fixpoint shift (base : nat) (l l' : list (route * dir)) (k : nat) : nat :=
  match l with
  | [] => k
  | x :: t => if (k <? base + llen x)%nat then (off l' x + (k - base))%nat else shift (base + llen x) t l' k
  end.
Lemma off_at x : forall a b, NoDup (map lkey (a ++ x :: b)) -> off (a ++ x :: b) x = lsum a.
Proof.
  induction a as [|y a IH]; intros b N; cbn [app off lsum fold_right].
  - rewrite String.eqb_refl. destruct (snd x); reflexivity.
  - cbn [app map] in N. inversion N as [|? ? N1 N2]; subst. destruct (String.eqb (r_id (fst y)) (r_id (fst x)) && dir_eqb (snd y) (snd x))%bool eqn:E.
    + exfalso. apply N1. apply andb_true_iff in E. destruct E as [E1 E2]. apply String.eqb_eq in E1. assert (E3 : snd y = snd x) by (destruct (snd y), (snd x); auto; discriminate). rewrite map_app, in_app_iff. right. left. unfold lkey. congruence.
    + rewrite IH by auto. reflexivity.
Qed.
Lemma shift_at l' x j : forall a b base, (j < llen x)%nat -> shift base (a ++ x :: b) l' (base + lsum a + j) = (off l' x + j)%nat.
Proof.
  induction a as [|y a IH]; intros b base Hj; cbn [app shift lsum fold_right].
  - replace (base + 0 + j <? base + llen x)%nat with true by (symmetry; apply Nat.ltb_lt; lia). f_equal. lia.
  - fold (lsum a). replace (base + (llen y + lsum a) + j <? base + llen y)%nat with false by (symmetry; apply Nat.ltb_ge; lia). replace (base + (llen y + lsum a) + j)%nat with (base + llen y + lsum a + j)%nat by lia. apply IH; auto.
Qed.
Lemma block_of : forall l k, (k < lsum l)%nat -> exists a x b j, l = a ++ x :: b /\ k = (lsum a + j)%nat /\ (j < llen x)%nat.
Proof.
  induction l as [|y l IH]; cbn [lsum fold_right]; intros k Hk; [lia|]. fold (lsum l) in Hk. destruct (Nat.lt_ge_cases k (llen y)) as [H|H].
  - exists [], y, l, k. auto.
  - destruct (IH (k - llen y)%nat) as (a & x & b & j & E1 & E2 & E3); [lia|]. exists (y :: a), x, b, j. rewrite E1. split; [reflexivity|]. cbn [lsum fold_right]. fold (lsum a). split; [lia|auto].
Qed.
Definition visits_of (l : list (route * dir)) : list (route * dir * Z) := flat_map (fun '(r, d) => map (fun z => (r, d, z)) (visits r d)) l.
Lemma visits_of_len l : length (visits_of l) = lsum l.
Proof. induction l as [|[r d] l IH]; [reflexivity|]. cbn [visits_of flat_map lsum fold_right]. rewrite app_length, map_length. unfold visits_of in IH. rewrite IH. reflexivity. Qed.
Lemma visits_of_at x b j : forall a, (j < llen x)%nat -> nth_error (visits_of (a ++ x :: b)) (lsum a + j) = nth_error (map (fun z => (fst x, snd x, z)) (visits (fst x) (snd x))) j.
Proof.
  intros a Hj. unfold visits_of. rewrite flat_map_app, nth_error_app2 by (fold (visits_of a); rewrite visits_of_len; lia). fold (visits_of a). rewrite visits_of_len. replace (lsum a + j - lsum a)%nat with j by lia. cbn [flat_map]. destruct x as [r d]. cbn [fst snd] in *. apply nth_error_app1. rewrite map_length. exact Hj.
Qed.
Lemma link_len ty base m : length (link ty base m) = m.
Proof. destruct m; [reflexivity|]. cbn [link length]. rewrite map_length, List.seq_length. reflexivity. Qed.
Lemma links_at x b j : forall a base, (j < llen x)%nat -> nth_error (links base (a ++ x :: b)) (lsum a + j) = nth_error (link (r_type (fst x)) (base + lsum a) (llen x)) j.
Proof.
  induction a as [|[r d] a IH]; intros base Hj; cbn [app links lsum fold_right].
  - destruct x as [r d]. rewrite Nat.add_0_r. cbn [Nat.add]. apply nth_error_app1. rewrite link_len. exact Hj.
  - fold (lsum a). change (length (visits r d)) with (llen (r, d)). rewrite nth_error_app2 by (rewrite link_len; lia). rewrite link_len. replace (llen (r, d) + lsum a + j - llen (r, d))%nat with (lsum a + j)%nat by lia. rewrite IH by auto. f_equal. f_equal. lia.
Qed.
Lemma link_shift ty b b' m : forall j, nth_error (link ty b' m) j = option_map (option_map (fun k => b' + (k - b))%nat) (nth_error (link ty b m) j).
Proof.
  destruct m as [|m]; intro j; [destruct j; reflexivity|]. destruct j as [|j]; cbn [link nth_error option_map].
  - destruct ty; cbn [option_map]; try reflexivity. do 2 f_equal. lia.
  - rewrite !nth_error_map. destruct (nth_error (seq b m) j) as [k|] eqn:E.
    + assert (Hj : (j < m)%nat) by (rewrite <- (List.seq_length m b); apply nth_error_Some; congruence). rewrite (nth_error_nth' _ 0%nat) in E by (rewrite List.seq_length; auto). rewrite seq_nth in E by auto. injection E as <-.
      rewrite (nth_error_nth' _ 0%nat) by (rewrite List.seq_length; auto). rewrite seq_nth by auto. cbn [option_map]. do 2 f_equal. lia.
    + assert (Hj : (m <= j)%nat) by (rewrite <- (List.seq_length m b); apply nth_error_None; auto). replace (nth_error (seq b' m) j) with (@None nat) by (symmetry; apply nth_error_None; rewrite List.seq_length; auto). reflexivity.
Qed.
Lemma link_range ty b m j p : nth_error (link ty b m) j = Some (Some p) -> exists i, (i < m)%nat /\ p = (b + i)%nat.
Proof.
  destruct m as [|m]; destruct j as [|j]; cbn [link nth_error]; try discriminate.
  - destruct ty; try discriminate. intro E. injection E as <-. exists m. lia.
  - rewrite nth_error_map. destruct (nth_error (seq b m) j) as [k|] eqn:E; [|discriminate]. cbn [option_map]. intro H. injection H as <-. apply nth_error_In, in_seq in E. exists (k - b)%nat. lia.
Qed.

Section Shift.
Context (l l' : list (route * dir)) (N : NoDup (map lkey l)) (N' : NoDup (map lkey l')) (IN : forall x, In x l -> In x l').
Lemma shift_block a x b j : l = a ++ x :: b -> (j < llen x)%nat -> exists a' b', l' = a' ++ x :: b' /\ shift 0 l l' (lsum a + j) = (lsum a' + j)%nat.
Proof.
  intros E Hj. assert (Hx : In x l') by (apply IN; rewrite E, in_app_iff; right; left; auto). apply in_split in Hx. destruct Hx as (a' & b' & E'). exists a', b'. split; auto.
  pose proof (shift_at l' x j a b 0 Hj) as SA. cbn [Nat.add] in SA. rewrite E, SA. f_equal. rewrite E' in *. apply off_at. exact N'.
Qed.
Lemma shift_visits k v : nth_error (visits_of l) k = Some v -> nth_error (visits_of l') (shift 0 l l' k) = Some v.
Proof.
  intro H. assert (Hk : (k < lsum l)%nat) by (rewrite <- visits_of_len; apply nth_error_Some; congruence). destruct (block_of l k Hk) as (a & x & b & j & E & -> & Hj). destruct (shift_block a x b j E Hj) as (a' & b' & E' & ->).
  rewrite E' , visits_of_at by auto. rewrite <- H, E, visits_of_at by auto. reflexivity.
Qed.
Lemma shift_links k p : nth_error (links 0 l) k = Some p -> (k < lsum l)%nat -> nth_error (links 0 l') (shift 0 l l' k) = Some (option_map (shift 0 l l') p).
Proof.
  intros H Hk. destruct (block_of l k Hk) as (a & x & b & j & E & -> & Hj). destruct (shift_block a x b j E Hj) as (a' & b' & E' & ->).
  rewrite E in H. rewrite links_at in H by auto. rewrite E' at 1. rewrite links_at by auto. cbn [Nat.add] in *. rewrite (link_shift _ (lsum a)), H. cbn [option_map]. f_equal. destruct p as [p|]; [|reflexivity]. cbn [option_map]. f_equal.
  apply link_range in H. destruct H as (i & Hi & ->). destruct (shift_block a x b i E Hi) as (a2 & b2 & E2 & ->).
  replace (lsum a + i - lsum a)%nat with i by lia. f_equal. rewrite E2 in E'. assert (O1 : off (a2 ++ x :: b2) x = lsum a2) by (apply off_at; rewrite <- E2; exact N'). rewrite E' in O1. rewrite off_at in O1; [exact O1|]. rewrite <- E', <- E2. exact N'.
Qed.
End Shift.
Lemma shift_back l l' k : NoDup (map lkey l) -> NoDup (map lkey l') -> (forall x, In x l -> In x l') -> (k < lsum l)%nat -> shift 0 l' l (shift 0 l l' k) = k.
Proof.
  intros N N' IN Hk. destruct (block_of l k Hk) as (a & x & b & j & E & -> & Hj). destruct (shift_block l l' N' IN a x b j E Hj) as (a' & b' & E' & ->).
  pose proof (shift_at l x j a' b' 0 Hj) as SA. cbn [Nat.add] in SA. rewrite E' at 1. rewrite SA. f_equal. rewrite E in *. apply off_at. exact N.
Qed.
Lemma lines_keys rs : NoDup (map r_id rs) -> NoDup (map lkey (lines rs)).
Proof.
  induction rs as [|r rs IH]; intro N; [constructor|]. cbn [map] in N. inversion N as [|? ? N1 N2]; subst. cbn [lines flat_map app map].
  assert (NI : forall d, ~ In (r_id r, d) (map lkey (lines rs))).
  { intros d C. apply in_map_iff in C. destruct C as ([r' d'] & E & C). unfold lkey in E. cbn [fst snd] in E. injection E as E _. apply N1. rewrite <- E. apply in_map. unfold lines in C. apply in_flat_map in C. destruct C as (r1 & C1 & C2). destruct C2 as [C2|[C2|[]]]; injection C2 as <- _; auto. }
  constructor; [intros [C|C]; [discriminate C|exact (NI DI C)]|]. constructor; [exact (NI DR)|]. apply IH; auto.
Qed.
Lemma lines_incl rs rs' : (forall r, In r rs -> In r rs') -> forall x, In x (lines rs) -> In x (lines rs').
Proof. intros H x Hx. unfold lines in *. apply in_flat_map in Hx. destruct Hx as (r & A & B). apply in_flat_map. exists r. auto. Qed.
Lemma all_visits_incl rs rs' v : (forall r, In r rs -> In r rs') -> In v (all_visits rs) -> In v (all_visits rs').
Proof. intros H Hv. unfold all_visits in *. apply in_flat_map in Hv. destruct Hv as (x & A & B). apply in_flat_map. exists x. split; auto. eapply lines_incl; eauto. Qed.
Lemma ext_input_sub g a b : (forall r, In r a -> In r b) -> ext_input g b -> ext_input g a.
Proof. intros H []. constructor; intros; eauto 6. Qed.
Lemma ride_ext G sv sv' from to final l : (forall z, In z l -> find (fun n => (z =? nd_id n)%Z) sv = find (fun n => (z =? nd_id n)%Z) sv') ->
  forall c p q, ride_distance G sv from to final l c p q = ride_distance G sv' from to final l c p q.
Proof.
  induction l as [|z l IH]; intros H c p q; [reflexivity|]. cbn [ride_distance]. assert (IH' := IH (fun z Hz => H z (or_intror Hz))).
  rewrite (H z (or_introl eq_refl)). destruct (z =? from)%Z; auto. destruct (z =? to)%Z; auto. destruct c; auto. destruct (find _ sv'); auto.
Qed.

Section Better.
Context (G : geo) (g : graph) (rs rs' : list route) (TP TP' : Q) (freq freq' : option (list (string * Q))) (X X' : xgraph).
Context (Hincl : forall r, In r rs -> In r rs') (NDr : NoDup (map r_id rs)) (NDr' : NoDup (map r_id rs')).
Context (I' : ext_input g rs').
Context (HX : build_ext G g rs TP freq = Ok X) (HX' : build_ext G g rs' TP' freq' = Ok X').
Let I : ext_input g rs := ext_input_sub g rs rs' Hincl I'.
Let F := facts_of _ _ _ _ _ _ I HX.
Let F' := facts_of _ _ _ _ _ _ I' HX'.
Let pi : nat -> nat := shift 0 (lines rs) (lines rs').
Lemma pi_inj a b : (a < length (all_visits rs))%nat -> (b < length (all_visits rs))%nat -> pi a = pi b -> a = b.
Proof.
  intros A B E. change (all_visits rs) with (visits_of (lines rs)) in *. rewrite visits_of_len in *. pose proof (lines_keys _ NDr) as K. pose proof (lines_keys _ NDr') as K'. pose proof (lines_incl _ _ Hincl) as L.
  rewrite <- (shift_back _ _ a K K' L A), <- (shift_back _ _ b K K' L B). fold pi. rewrite E. reflexivity.
Qed.
Lemma pre_rn k rn : nth_error (xg_rnodes X) k = Some rn -> exists rn' s s' st, nth_error (xg_rnodes X') (pi k) = Some rn' /\
  rn_route rn' = rn_route rn /\ rn_dir rn' = rn_dir rn /\ rn_prev rn' = option_map pi (rn_prev rn) /\ rn_stop rn = Some s /\ rn_stop rn' = Some s' /\
  nth_error (xg_stops X) s = Some st /\ nth_error (xg_stops X') s' = Some st /\ sn_mode st = r_mode (rn_route rn) /\ In (rn_route rn) rs.
Proof.
  intro H. assert (H1 := H). rewrite (ef_rn _ _ _ _ _ _ F) in H1. destruct (rns_visit g rs I k rn H1) as (r & d & z & s & st & nd & A1 & A2 & A3 & A4 & A5 & A6 & A7 & A8 & A9 & A10 & A11).
  assert (V : nth_error (all_visits rs') (pi k) = Some (r, d, z)) by (apply (shift_visits _ _ (lines_keys _ NDr') (lines_incl _ _ Hincl)); auto).
  destruct (nth_error (xg_rnodes X') (pi k)) as [rn'|] eqn:E'.
  2:{ apply nth_error_None in E'. rewrite (ef_rn _ _ _ _ _ _ F') in E'. rewrite rns_len in E'. apply nth_error_None in E'. congruence. }
  assert (H2 := E'). rewrite (ef_rn _ _ _ _ _ _ F') in H2. destruct (rns_visit g rs' I' (pi k) rn' H2) as (r' & d' & z' & s' & st' & nd' & B1 & B2 & B3 & B4 & B5 & B6 & B7 & B8 & B9 & B10 & B11).
  assert (Ev : (r', d', z') = (r, d, z)) by congruence. injection Ev as -> -> ->.
  assert (En : nd' = nd) by (eapply at_id_unique; [apply (xi_ids _ _ I)| |]; (split; [eapply nth_error_In; eassumption|eassumption])). subst nd'.
  assert (Est : st' = st).
  { destruct st as [m c], st' as [m' c']. cbn [sn_mode sn_city] in *. f_equal; [congruence|].
    assert (Nn : NoDup (g_nodes g)) by (apply (NoDup_map_inv nd_id), (xi_ids _ _ I)). rewrite NoDup_nth_error in Nn. apply Nn; [apply nth_error_Some; congruence|congruence]. }
  subst st'. exists rn', s, s', st. rewrite (ef_stops _ _ _ _ _ _ F), (ef_stops _ _ _ _ _ _ F'). repeat split; auto; try congruence.
  assert (L1 := f_equal (fun l => nth_error l k) (proj2 (proj2 (proj2 (C30_one_stop_per_node_and_mode _ _ _ _ _ _ I HX))))).
  assert (L2 := f_equal (fun l => nth_error l (pi k)) (proj2 (proj2 (proj2 (C30_one_stop_per_node_and_mode _ _ _ _ _ _ I' HX'))))). cbn beta in L1, L2.
  rewrite nth_error_map, H in L1. rewrite nth_error_map, E' in L2. cbn [option_map] in L1, L2. unfold pi at 1 in L2.
  rewrite (shift_links _ _ (lines_keys _ NDr') (lines_incl _ _ Hincl) _ _ (eq_sym L1)) in L2; [injection L2 as L2; exact L2|]. rewrite <- visits_of_len. apply nth_error_Some. change (nth_error (all_visits rs) k <> None). congruence.
Qed.
Lemma stop_same s s' st : nth_error (xg_stops X') s = Some st -> nth_error (xg_stops X') s' = Some st -> s = s'.
Proof.
  intros A B. pose proof (proj1 (C30_one_stop_per_node_and_mode _ _ _ _ _ _ I' HX')) as N. apply NoDup_map_inv in N. rewrite NoDup_nth_error in N. apply N; [apply nth_error_Some; congruence|congruence].
Qed.
Lemma pre_place k rn rn' : nth_error (xg_rnodes X) k = Some rn -> nth_error (xg_rnodes X') (pi k) = Some rn' -> rn_place X' rn' = rn_place X rn.
Proof.
  intros A B. destruct (pre_rn k rn A) as (rn'' & s & s' & st & C1 & _ & _ & _ & C2 & C3 & C4 & C5 & _). assert (rn'' = rn') by congruence. subst rn''.
  unfold rn_place, stop_place. rewrite C2, C3, C4, C5, (ef_graph _ _ _ _ _ _ F), (ef_graph _ _ _ _ _ _ F'). reflexivity.
Qed.
Definition same_node (n n' : enode) : Prop :=
  match n, n' with
  | EC c, EC c' => c = c'
  | ER k, ER k' => k' = pi k
  | ES s, ES s' => exists st, nth_error (xg_stops X) s = Some st /\ nth_error (xg_stops X') s' = Some st
  | _, _ => False
  end.
Lemma pre_xnode_ES s s' : is_xnode X (ES s) -> same_node (ES s) (ES s') -> is_xnode X' (ES s').
Proof.
  intros (k & rn & A & B) (st & C & D). destruct (pre_rn k rn A) as (rn' & s1 & s1' & st1 & E1 & _ & _ & _ & E2 & E3 & E4 & E5 & _).
  exists (pi k), rn'. split; auto. assert (s1 = s) by congruence. subst s1. assert (st1 = st) by congruence. subst st1. rewrite (stop_same _ _ _ E5 D) in E3. exact E3.
Qed.
Lemma pre_xnode n : is_xnode X n -> exists n', same_node n n' /\ is_xnode X' n'.
Proof.
  destruct n as [c|s|k].
  - intros (k & rn & s & st & A & B & C & D). exists (EC c). split; [reflexivity|]. destruct (pre_rn k rn A) as (rn' & s1 & s1' & st1 & E1 & _ & _ & _ & E2 & E3 & E4 & E5 & _).
    assert (s1 = s) by congruence. subst s1. exists (pi k), rn', s1', st1. repeat split; auto. congruence.
  - intros A. destruct A as (k & rn & A & B). destruct (pre_rn k rn A) as (rn' & s1 & s1' & st1 & E1 & _ & _ & _ & E2 & E3 & E4 & E5 & _).
    assert (s1 = s) by congruence. subst s1. exists (ES s1'). split; [exists st1; auto|]. exists (pi k), rn'. auto.
  - intros (rn & A). exists (ER (pi k)). split; [reflexivity|]. destruct (pre_rn k rn A) as (rn' & s1 & s1' & st1 & E1 & _). exists rn'. auto.
Qed.
(** no line of the first service has an intermediate node at which only the new service stops *)
Context (Hsame : forall r d z, In r rs -> In z (nodes_of r d) -> stopped_at rs' z -> stopped_at rs z).
Lemma find_same r d z : In r rs -> In z (nodes_of r d) ->
  find (fun n => (z =? nd_id n)%Z) (map (fun '(c, _) => gnode g c) (xg_nodes X)) = find (fun n => (z =? nd_id n)%Z) (map (fun '(c, _) => gnode g c) (xg_nodes X')).
Proof.
  intros Hr Hz. destruct (served_nodes _ _ _ _ _ _ I HX) as [A1 A2]. destruct (served_nodes _ _ _ _ _ _ I' HX') as [B1 B2].
  assert (SP : forall sv, (forall n, In n sv -> In n (g_nodes g)) -> match find (fun n => (z =? nd_id n)%Z) sv with Some n => In z (map nd_id sv) /\ at_id g z n | None => ~ In z (map nd_id sv) end).
  { intros sv Hsv. destruct (find _ sv) as [n|] eqn:E.
    - apply find_some in E. destruct E as [E1 E2]. apply Z.eqb_eq in E2. split; [rewrite E2; apply in_map; auto|split; auto].
    - intro C. apply in_map_iff in C. destruct C as (n & C1 & C2). eapply find_none in E; eauto. cbn beta in E. rewrite C1, Z.eqb_refl in E. discriminate. }
  pose proof (SP _ A1) as P1. pose proof (SP _ B1) as P2. destruct (find _ (map _ (xg_nodes X))) as [n|], (find _ (map _ (xg_nodes X'))) as [n'|]; auto.
  - f_equal. eapply at_id_unique; [apply (xi_ids _ _ I)|apply P1|apply P2].
  - destruct P1 as [P1 _]. exfalso. apply P2, B2. apply A2 in P1. destruct P1 as (r1 & d1 & V). exists r1, d1. eapply all_visits_incl; eauto.
  - destruct P2 as [P2 _]. exfalso. apply P1, A2. apply B2 in P2. eauto.
Qed.
Lemma pre_gnode k rn : nth_error (xg_rnodes X) k = Some rn ->
  rn_gnode g (stop_list g rs') (bnodes g (stop_list g rs') 0 (lines rs')) (pi k) = rn_gnode g (stop_list g rs) (bnodes g (stop_list g rs) 0 (lines rs)) k.
Proof.
  intro H. destruct (pre_rn k rn H) as (rn' & _ & _ & _ & H' & _). destruct (rn_gnode_place _ _ _ _ _ _ I HX k rn H) as (m & A1 & _ & A2). destruct (rn_gnode_place _ _ _ _ _ _ I' HX' (pi k) rn' H') as (m' & B1 & _ & B2).
  rewrite (pre_place k rn rn' H H') in B1. assert (E := eq_trans (eq_sym A1) B1). injection E as E _. eapply at_id_unique; [apply (xi_ids _ _ I)|split; [exact B2|reflexivity]|split; [exact A2|exact E]].
Qed.
Lemma pre_time p k rn rp : nth_error (xg_rnodes X) k = Some rn -> nth_error (xg_rnodes X) p = Some rp ->
  rtime G g rs' (xg_nodes X') (pi p) (pi k) = rtime G g rs (xg_nodes X) p k.
Proof.
  intros Hk Hp. destruct (pre_rn k rn Hk) as (rn' & s & s' & st & H' & E1 & E2 & _ & _ & _ & _ & _ & _ & Hr). unfold rtime.
  rewrite (pre_gnode k rn Hk), (pre_gnode p rp Hp), (at_X _ _ _ _ _ _ I HX k rn Hk), (at_X _ _ _ _ _ _ I' HX' (pi k) rn' H'), E1, E2.
  rewrite (proj1 (stop_mode_at _ _ _ _ _ _ I HX k rn Hk)), (proj1 (stop_mode_at _ _ _ _ _ _ I' HX' (pi k) rn' H')), E1. f_equal. symmetry. apply ride_ext. intros z Hz. eapply find_same; eauto.
Qed.
Context (HG : hyper_graph X) (HG' : hyper_graph X').
Lemma xnode_X n : In n (xnodes X) <-> is_xnode X n.
Proof. apply (C30_nodes_exact _ _ _ _ _ _ I HX). Qed.
Lemma xnode_X' n : In n (xnodes X') <-> is_xnode X' n.
Proof. apply (C30_nodes_exact _ _ _ _ _ _ I' HX'). Qed.
Lemma pre_city z n : find_city X z = Some n -> find_city X' z = Some n.
Proof.
  intro E. pose proof (find_city_spec X z) as S. rewrite E in S. destruct n as [c| |]; try contradiction. destruct S as [S1 S2].
  apply (served_unique X' z); auto; [apply find_city_spec|]. split.
  - apply xnode_X'. apply xnode_X in S1. destruct (pre_xnode _ S1) as ([c'| |] & A & B); try contradiction. cbn in A. subst c'. exact B.
  - rewrite (ef_graph _ _ _ _ _ _ F'). rewrite (ef_graph _ _ _ _ _ _ F) in S2. exact S2.
Qed.
Lemma pre_none z c : find_city X' z = Some (EC c) -> In (EC c) (xnodes X) -> find_city X z = Some (EC c).
Proof.
  intros E H. pose proof (find_city_spec X' z) as S. rewrite E in S. destruct S as [_ S]. apply (served_unique X z); auto; [apply find_city_spec|]. split; auto.
  rewrite (ef_graph _ _ _ _ _ _ F). rewrite (ef_graph _ _ _ _ _ _ F') in S. exact S.
Qed.
Lemma pre_avoids z e e' : In e (xg_edges X) -> avoids (find_city X z) e -> same_node (x_i e) (x_i e') -> same_node (x_j e) (x_j e') -> avoids (find_city X' z) e'.
Proof.
  intros He [A1 A2] S1 S2. destruct (hg_ends X HG e He) as [N1 N2].
  assert (K : forall n n', same_node n n' -> In n (xnodes X) -> find_city X z <> Some n -> find_city X' z <> Some n').
  { intros n n' S N D C. pose proof (find_city_spec X' z) as Sp. rewrite C in Sp. destruct n' as [c| |]; try contradiction. destruct n as [c0| |]; try contradiction. cbn in S. subst c0.
    apply D. apply pre_none; auto. }
  split; eauto.
Qed.
Context (P P' : qpass) (HTP : 0 <= TP') (HTP' : TP' <= TP).
Context (Hf : forall r, In r rs -> route_frequency rs freq (r_id r) <= route_frequency rs' freq' (r_id r)).
Context (Hm : forall r, In r rs -> 0 <= m_tat (r_mode r) /\ 0 <= m_d (r_mode r)).
Context (Hth : forall s st, In (ES s) (xnodes X) -> nth_error (xg_stops X) s = Some st -> 0 <= m_theta (sn_mode st)).
Context (Pa0 : 0 <= q_pa P' / q_pv P') (Pa : q_pa P' / q_pv P' <= q_pa P / q_pv P) (Pw0 : 0 <= q_pw P' / q_pv P') (Pw : q_pw P' / q_pv P' <= q_pw P / q_pv P).
Lemma is_xnode_ER k : is_xnode X (ER k) -> exists rn, nth_error (xg_rnodes X) k = Some rn.
Proof. intros (rn & H). eauto. Qed.
Lemma mono_div a b c d e : 0 <= a -> c / e <= b / d -> a * c / e <= a * b / d.
Proof. intros A H. unfold Qdiv in *. rewrite <- !Qmult_assoc. rewrite (Qmult_comm a), (Qmult_comm a). apply Qmult_le_compat_r; auto. Qed.
Lemma stop_mode_of n s st : n = ES s -> In n (xnodes X) -> nth_error (xg_stops X) s = Some st -> 0 <= m_tat (sn_mode st) /\ 0 <= m_theta (sn_mode st).
Proof.
  intros -> Hs Es. destruct (xnode_ES _ _ _ _ _ _ I HX s Hs) as (st' & nd & r & E1 & _ & E2 & Hr). assert (st' = st) by congruence. subst st'. split; [rewrite E2; apply Hm; auto|eauto].
Qed.
Lemma better_cost zo zd n q : strategy_cost X P (find_city X zo) (find_city X zd) n q -> forall n', In n (xnodes X) -> same_node n n' ->
  exists q', strategy_cost X' P' (find_city X' zo) (find_city X' zd) n' q' /\ q' <= q.
Proof.
  intros S n' Hn Sn. refine (carry X X' P P' (find_city X zo) (find_city X' zo) (find_city X zd) (find_city X' zd) (fun n n' => In n (xnodes X) /\ same_node n n') _ (hg_pairs X HG) _ _ _ _ n q S n' (conj Hn Sn)); clear n q S n' Hn Sn.
  - intros a b k [Ha Sa] [Hb Sb]. destruct a as [| |a]; try contradiction. destruct b as [| |b]; try contradiction. cbn in Sa, Sb. apply xnode_X in Ha, Hb. destruct Ha as [ra Ha], Hb as [rb Hb]. f_equal.
    rewrite (ef_rn _ _ _ _ _ _ F) in Ha, Hb. apply pi_inj; [| |congruence]; rewrite <- (rns_len g); apply nth_error_Some; congruence.
  - intros n n' E [Hn Sn]. rewrite (pre_city zd n E). pose proof (find_city_spec X zd) as Sp. rewrite E in Sp. destruct n as [c| |]; try contradiction. destruct n' as [c'| |]; try contradiction. cbn in Sn. congruence.
  - intros e n' He Hfe Ha [Hi Si]. left. destruct (hg_ends X HG e He) as [_ Hj].
    assert (FIN : forall ty t f l j', In (n', j', t, f) l -> (forall e, In e (number ty l) -> In e (xg_edges X')) -> f = None -> same_node (x_j e) j' ->
      (forall k, leg_cost X' P' (find_city X' zd) (mkX ty k n' j' t f) <= leg_cost X P (find_city X zd) e) ->
      exists e', In e' (xg_edges X') /\ x_f e' = None /\ avoids (find_city X' zo) e' /\ x_i e' = n' /\ (In (x_j e) (xnodes X) /\ same_node (x_j e) (x_j e')) /\ leg_cost X' P' (find_city X' zd) e' <= leg_cost X P (find_city X zd) e).
    { intros ty t f l j' Hin Hs -> Sj Hle. apply In_nth_error in Hin. destruct Hin as [k Hin].
      assert (He' : In (mkX ty k n' j' t None) (xg_edges X')) by (apply Hs, number_In; exists k, n', j', t, None; auto).
      exists (mkX ty k n' j' t None). split; auto. split; auto. split; [eapply pre_avoids; [exact He|exact Ha| |]; cbn [x_i x_j]; auto|]. cbn [x_i x_j]. auto. }
    assert (He2 := He). rewrite (edges_split _ _ _ _ _ _ I HX) in He2. destruct He2 as [He2|[He2|[He2|He2]]]; apply number_In2 in He2; destruct He2 as [Ty He2].
    + rewrite (a_In _ _ _ _ _ _ I HX) in He2. destruct He2 as (c & s & st & A1 & A2 & A3 & A4 & A5 & A6).
      assert (Hs : exists s', same_node (ES s) (ES s') /\ is_xnode X' (ES s') /\ nth_error (xg_stops X') s' = Some st).
      { destruct (pre_xnode _ A1) as ([|s'|] & B1 & B2); try contradiction. destruct B1 as (st' & B1 & B3). assert (st' = st) by congruence. subst st'. exists s'. split; [exists st; auto|auto]. }
      destruct Hs as (s' & B1 & B2 & B3).
      assert (LE : forall i j k, leg_cost X' P' (find_city X' zd) (mkX ACCESS k i j (m_tat (sn_mode st) / 60) None) <= leg_cost X P (find_city X zd) e).
      { intros i j k. unfold leg_cost. rewrite Ty, A4. cbn [x_type x_t]. apply mono_div; auto. unfold Qdiv. apply Qmult_le_0_compat; [|discriminate]. apply xnode_X in A1. eapply stop_mode_of; eauto. }
      destruct A6 as [[Ei Ej]|[Ei Ej]].
      * rewrite Ei in Si. destruct n' as [c'| |]; try contradiction. cbn in Si. subst c'.
        eapply (FIN ACCESS (m_tat (sn_mode st) / 60) None _ (ES s')); [apply (a_In _ _ _ _ _ _ I' HX'); exists c, s', st; repeat (split; auto)|intros; apply (edges_split _ _ _ _ _ _ I' HX'); auto|reflexivity|rewrite Ej; exact B1|intro; apply LE].
      * rewrite Ei in Si. destruct n' as [|s1|]; try contradiction. assert (s1 = s') by (destruct Si as (st' & C1 & C2); apply (stop_same s1 s' st); auto; congruence). subst s1.
        eapply (FIN ACCESS (m_tat (sn_mode st) / 60) None _ (EC c)); [apply (a_In _ _ _ _ _ _ I' HX'); exists c, s', st; repeat (split; auto)|intros; apply (edges_split _ _ _ _ _ _ I' HX'); auto|reflexivity|rewrite Ej; reflexivity|intro; apply LE].
    + rewrite (b_In _ _ _ _ _ _ I HX) in He2. destruct He2 as (k & rn & s & _ & _ & _ & _ & _ & _ & E). congruence.
    + rewrite (l_In _ _ _ _ _ _ I HX) in He2. destruct He2 as (k & rn & s & A1 & A2 & A3 & Ei & Ej & Et & _).
      rewrite Ei in Si. destruct n' as [| |k']; try contradiction. cbn in Si. subst k'.
      destruct (pre_rn k rn A1) as (rn' & s1 & s' & st & B1 & B2 & B3 & B4 & B5 & B6 & B7 & B8 & B9 & B10). assert (s1 = s) by congruence. subst s1.
      eapply (FIN ALIGHTING (TP' / 60) None _ (ES s')); [apply (l_In _ _ _ _ _ _ I' HX'); exists (pi k), rn', s'; repeat (split; auto)|intros; apply (edges_split _ _ _ _ _ _ I' HX'); auto|reflexivity|rewrite Ej; exists st; auto|].
      * unfold can_alight in *. rewrite B2, B3, (pre_place k rn rn' A1 B1). exact A3.
      * intro k0. unfold leg_cost. rewrite Ty, Ej, Et. cbn [x_type x_j x_t]. assert (T : TP' / 60 <= TP / 60) by (unfold Qdiv; apply Qmult_le_compat_r; [auto|discriminate]).
        assert (T0 : 0 <= TP' / 60) by (unfold Qdiv; apply Qmult_le_0_compat; [auto|discriminate]).
        unfold stop_is_at. rewrite B7, B8. destruct (find_city X zd) as [nd|] eqn:Ed.
        -- rewrite (pre_city zd nd Ed). destruct nd as [c| |]; auto. destruct (sn_city st =? c)%nat; auto. apply Qle_refl.
        -- destruct (find_city X' zd) as [[c| |]|]; auto. destruct (sn_city st =? c)%nat; auto. eapply Qle_trans; eauto.
    + rewrite (r_In _ _ _ _ _ _ I HX) in He2. destruct He2 as (k & rn & p & A1 & A2 & Ei & Ej & Et & _).
      rewrite Ei in Si. destruct n' as [| |p']; try contradiction. cbn in Si. subst p'.
      destruct (pre_rn k rn A1) as (rn' & s & s' & st & B1 & B2 & B3 & B4 & _).
      assert (A3 : exists rp, nth_error (xg_rnodes X) p = Some rp) by (rewrite Ei in Hi; apply xnode_X in Hi; apply is_xnode_ER; auto). destruct A3 as [rp A3].
      eapply (FIN ROUTE (rtime G g rs' (xg_nodes X') (pi p) (pi k)) None _ (ER (pi k))); [apply (r_In _ _ _ _ _ _ I' HX'); exists (pi k), rn', (pi p); repeat (split; auto); rewrite B4, A2; reflexivity|intros; apply (edges_split _ _ _ _ _ _ I' HX'); auto|reflexivity|rewrite Ej; reflexivity|].
      intro k0. unfold leg_cost. rewrite Ty, Et. cbn [x_type x_t]. rewrite (pre_time p k rn rp A1 A3). apply Qle_refl.
  - intros e f n' He Hfe Hf0 Ha [Hi Si]. destruct (hg_ends X HG e He) as [_ Hj]. assert (He2 := He). rewrite (edges_split _ _ _ _ _ _ I HX) in He2.
    destruct He2 as [He2|[He2|[He2|He2]]]; apply number_In2 in He2; destruct He2 as [Ty He2].
    + rewrite (a_In _ _ _ _ _ _ I HX) in He2. destruct He2 as (c & s & st & _ & _ & _ & _ & E & _). congruence.
    + rewrite (b_In _ _ _ _ _ _ I HX) in He2. destruct He2 as (k & rn & s & A1 & A2 & A3 & Ei & Ej & Et & Ef).
      rewrite Ei in Si. destruct n' as [|s1|]; try contradiction.
      destruct (pre_rn k rn A1) as (rn' & s0 & s' & st & B1 & B2 & B3 & B4 & B5 & B6 & B7 & B8 & B9 & B10). assert (s0 = s) by congruence. subst s0.
      assert (s1 = s') by (destruct Si as (st' & C1 & C2); apply (stop_same s1 s' st); auto; congruence). subst s1.
      set (fr' := match freq' with Some f => f | None => default_frequencies rs' end) in *.
      assert (Hin : In (ES s', ER (pi k), 0, Some (dget0 String.eqb 0 fr' (r_id (rn_route rn')) / m_d (r_mode (rn_route rn')))) (b_list g rs' fr' (xg_nodes X'))).
      { apply (b_In _ _ _ _ _ _ I' HX'). exists (pi k), rn', s'. repeat (split; auto). unfold can_board in *. rewrite B2, B3, (pre_place k rn rn' A1 B1). exact A3. }
      apply In_nth_error in Hin. destruct Hin as [i Hin].
      eexists (mkX BOARDING i (ES s') (ER (pi k)) 0 (Some _)), _. cbn [x_i x_j x_f].
      assert (He' : In (mkX BOARDING i (ES s') (ER (pi k)) 0 (Some (dget0 String.eqb 0 fr' (r_id (rn_route rn')) / m_d (r_mode (rn_route rn'))))) (xg_edges X')).
      { apply (edges_split _ _ _ _ _ _ I' HX'). right. left. apply number_In. eexists i, _, _, _, _. split; [exact Hin|reflexivity]. }
      split; [exact He'|]. split; [reflexivity|]. split.
      { rewrite Hfe in Ef. injection Ef as ->. rewrite B2. unfold Qdiv. apply Qmult_le_compat_r; [|apply Qinv_le_0_compat, Hm; auto].
        specialize (Hf _ B10). unfold fr'. clear - Hf. destruct freq, freq'; rewrite ?default_freq; exact Hf. }
      split; [eapply pre_avoids; [exact He|exact Ha| |]; cbn [x_i x_j]; [rewrite Ei; exact Si|rewrite Ej; reflexivity]|].
      split; [auto|]. split; [eauto|]. split; [split; auto; rewrite Ej; reflexivity|]. unfold leg_cost. rewrite Ty, Et. cbn [x_type x_t]. apply Qle_refl.
    + rewrite (l_In _ _ _ _ _ _ I HX) in He2. destruct He2 as (k & rn & s & _ & _ & _ & _ & _ & _ & E). congruence.
    + rewrite (r_In _ _ _ _ _ _ I HX) in He2. destruct He2 as (k & rn & p & _ & _ & _ & _ & _ & E). congruence.
  - intros n n' [Hn Sn]. destruct n as [|s|], n' as [|s'|]; try contradiction; cbn [wait_cost]; try (split; apply Qle_refl).
    destruct Sn as (st & E1 & E2). rewrite E1, E2. destruct (stop_mode_of _ s st eq_refl Hn E1) as [_ T]. split; [|apply mono_div; auto].
    unfold Qdiv in *. rewrite <- Qmult_assoc. apply Qmult_le_0_compat; auto.
Qed.
Lemma better_access zo n n' : In n (xnodes X) -> same_node n n' -> access_cost X' P' (find_city X' zo) n' <= access_cost X P (find_city X zo) n.
Proof.
  intros Hn Sn. destruct n as [|s|], n' as [|s'|]; try contradiction; cbn [access_cost]; try apply Qle_refl.
  destruct Sn as (st & E1 & E2). rewrite E1, E2. destruct (find_city X zo) as [c|] eqn:Ec.
  - rewrite (pre_city zo c Ec). destruct c as [c| |]; try apply Qle_refl. destruct (sn_city st =? c)%nat; [|apply Qle_refl].
    apply mono_div; auto. unfold Qdiv. apply Qmult_le_0_compat; [|discriminate]. eapply stop_mode_of; eauto.
  - destruct (find_city X' zo) as [c|] eqn:Ec'; [|apply Qle_refl]. destruct c as [c| |]; try apply Qle_refl. destruct (Nat.eqb_spec (sn_city st) c) as [E|]; [|apply Qle_refl].
    exfalso. rewrite (pre_none zo c Ec') in Ec; [discriminate|]. apply xnode_X. apply xnode_X in Hn. destruct Hn as (k & rn & A & B). exists k, rn, s, st. auto.
Qed.
End Better.

(** ** C75 *)
(** [keeps_lines rs rs']: the lines rs keep running in rs', which may have further lines, in any order, and no line of rs
    runs through a node at which only the further lines stop *)
Definition keeps_lines (rs rs' : list route) : Prop := NoDup (map r_id rs) /\ NoDup (map r_id rs') /\ (forall r, In r rs -> In r rs') /\
  forall r d z, In r rs -> In z (nodes_of r d) -> stopped_at rs' z -> stopped_at rs z.
Theorem C75_better_service : forall G g rs rs' TP TP' freq freq' X X' P P' zo zd fuel R R',
  ext_input g rs' -> keeps_lines rs rs' -> build_ext G g rs TP freq = Ok X -> build_ext G g rs' TP' freq' = Ok X' ->
  (forall q, 0 <= geo_sqrt G q) ->
  (forall r, In r rs' -> 0 <= m_tat (r_mode r) /\ 0 <= m_v (r_mode r) /\ 0 <= m_d (r_mode r)) ->
  (forall id, 0 <= route_frequency rs freq id /\ 0 <= route_frequency rs' freq' id) ->
  weights X P -> weights X' P' -> (length (xnodes X) <= fuel)%nat -> (length (xnodes X') <= fuel)%nat ->
  (* not less frequent, no dearer transfers, walking or waiting *)
  (forall r, In r rs -> route_frequency rs freq (r_id r) <= route_frequency rs' freq' (r_id r)) ->
  0 <= TP' -> TP' <= TP -> q_pa P' / q_pv P' <= q_pa P / q_pv P -> q_pw P' / q_pv P' <= q_pw P / q_pv P ->
  build_hyperpath fuel X P (find_city X zo) (find_city X zd) = Ok R ->
  build_hyperpath fuel X' P' (find_city X' zo) (find_city X' zd) = Ok R' ->
  forall s z m q, In (ES s) (xnodes X) -> stop_place X s = Some (z, m) -> hr_lab R (ES s) = Some q ->
  exists s' q', In (ES s') (xnodes X') /\ stop_place X' s' = Some (z, m) /\ hr_lab R' (ES s') = Some q' /\ q' <= q.
Proof.
  intros G g rs rs' TP TP' freq freq' X X' P P' zo zd fuel R R' I' (N1 & N2 & Hin & Hs) HX HX' HQ HM HF W W' L L' Hf T0 T1 Pa Pw HR HR' s z m q Hn Pl Lq.
  assert (I := ext_input_sub _ _ _ Hin I').
  assert (HG : hyper_graph X).
  { eapply (built_graph_is_hyper_graph G g rs TP freq); eauto; [eapply Qle_trans; eauto|intro id; apply HF]. }
  assert (HG' : hyper_graph X') by (eapply (built_graph_is_hyper_graph G g rs' TP' freq'); eauto; intro id; apply HF).
  destruct (C35_labels_minimal X P (find_city X zo) (find_city X zd) fuel HG W L) as (R1 & E1 & M1). assert (R1 = R) by congruence. subst R1.
  destruct (C35_labels_minimal X' P' (find_city X' zo) (find_city X' zd) fuel HG' W' L') as (R1 & E2 & M2). assert (R1 = R') by congruence. subst R1.
  specialize (M1 _ Hn). rewrite Lq in M1. destruct M1 as [M1 _].
  assert (Hn' := Hn). apply (xnode_X G g rs rs' TP freq X Hin I' HX) in Hn'. destruct (pre_xnode G g rs rs' TP TP' freq freq' X X' Hin N2 I' HX HX' _ Hn') as ([|s'|] & Sn & Xn); try contradiction.
  apply (xnode_X' G g rs' TP' freq' X' I' HX') in Xn.
  assert (Hm : forall r, In r rs -> 0 <= m_tat (r_mode r) /\ 0 <= m_d (r_mode r)).
  { intros r Hr. destruct (HM r (Hin r Hr)) as (A & _ & B). auto. }
  assert (Pa0 : 0 <= q_pa P' / q_pv P') by (apply Qle_shift_div_l; [apply (wg_pv _ _ W')|rewrite Qmult_0_l; apply (wg_pa _ _ W')]).
  assert (Pw0 : 0 <= q_pw P' / q_pv P') by (apply Qle_shift_div_l; [apply (wg_pv _ _ W')|rewrite Qmult_0_l; apply (wg_pw _ _ W')]).
  destruct (better_cost G g rs rs' TP TP' freq freq' X X' Hin N1 N2 I' HX HX' Hs HG HG' P P' T0 T1 Hf Hm (wg_theta _ _ W) Pa Pw0 Pw zo zd _ _ M1 (ES s') Hn Sn) as (q1 & S1 & Q1).
  pose proof (better_access G g rs rs' TP TP' freq freq' X X' Hin N2 I' HX HX' HG HG' P P' Hm (wg_theta _ _ W) Pa zo (ES s) (ES s') Hn Sn) as AC.
  assert (Pl' : stop_place X' s' = Some (z, m)).
  { unfold stop_place in *. destruct Sn as (st & M3 & M4). rewrite M3 in Pl. rewrite M4. rewrite (ef_graph _ _ _ _ _ _ (facts_of _ _ _ _ _ _ I HX)) in Pl. rewrite (ef_graph _ _ _ _ _ _ (facts_of _ _ _ _ _ _ I' HX')). exact Pl. }
  specialize (M2 _ Xn). destruct (hr_lab R' (ES s')) as [q'|] eqn:Eq'; [|exfalso; eapply M2; eauto]. destruct M2 as [_ M2]. specialize (M2 _ S1).
  exists s', q'. repeat split; auto. set (a := access_cost X P _ _) in *. set (a' := access_cost X' P' _ _) in *. clearbody a a'. lra.
Qed.
Print Assumptions C75_better_service.

(** who could travel still can *)
Theorem C75_still_connected : forall G g rs rs' TP TP' freq freq' X X' P P' zo zd,
  ext_input g rs' -> keeps_lines rs rs' -> build_ext G g rs TP freq = Ok X -> build_ext G g rs' TP' freq' = Ok X' ->
  (forall q, 0 <= geo_sqrt G q) ->
  (forall r, In r rs' -> 0 <= m_tat (r_mode r) /\ 0 <= m_v (r_mode r) /\ 0 <= m_d (r_mode r)) ->
  (forall id, 0 <= route_frequency rs freq id /\ 0 <= route_frequency rs' freq' id) ->
  weights X P -> weights X' P' ->
  (forall r, In r rs -> route_frequency rs freq (r_id r) <= route_frequency rs' freq' (r_id r)) ->
  0 <= TP' -> TP' <= TP -> q_pa P' / q_pv P' <= q_pa P / q_pv P -> q_pw P' / q_pv P' <= q_pw P / q_pv P ->
  connected X P zo zd -> connected X' P' zo zd.
Proof.
  intros G g rs rs' TP TP' freq freq' X X' P P' zo zd I' (N1 & N2 & Hin & Hs) HX HX' HQ HM HF W W' Hf T0 T1 Pa Pw (c & dest & s & st & q & S1 & S2 & Hn & Es & Ec & Sc).
  assert (I := ext_input_sub _ _ _ Hin I').
  assert (HG : hyper_graph X).
  { eapply (built_graph_is_hyper_graph G g rs TP freq); eauto; [eapply Qle_trans; eauto|intro id; apply HF]. }
  assert (HG' : hyper_graph X') by (eapply (built_graph_is_hyper_graph G g rs' TP' freq'); eauto; intro id; apply HF).
  assert (Hm : forall r, In r rs -> 0 <= m_tat (r_mode r) /\ 0 <= m_d (r_mode r)).
  { intros r Hr. destruct (HM r (Hin r Hr)) as (A & _ & B). auto. }
  assert (Pw0 : 0 <= q_pw P' / q_pv P') by (apply Qle_shift_div_l; [apply (wg_pv _ _ W')|rewrite Qmult_0_l; apply (wg_pw _ _ W')]).
  assert (Eo : find_city X zo = Some (EC c)) by (apply (served_unique X zo); auto; apply find_city_spec).
  assert (Ed : find_city X zd = dest) by (apply (served_unique X zd); auto; apply find_city_spec).
  assert (Hn' := Hn). apply (xnode_X G g rs rs' TP freq X Hin I' HX) in Hn'. destruct (pre_xnode G g rs rs' TP TP' freq freq' X X' Hin N2 I' HX HX' _ Hn') as ([|s'|] & Sn & Xn); try contradiction.
  apply (xnode_X' G g rs' TP' freq' X' I' HX') in Xn. rewrite <- Eo, <- Ed in Sc.
  destruct (better_cost G g rs rs' TP TP' freq freq' X X' Hin N1 N2 I' HX HX' Hs HG HG' P P' T0 T1 Hf Hm (wg_theta _ _ W) Pa Pw0 Pw zo zd _ _ Sc (ES s') Hn Sn) as (q1 & Sq & Q1).
  pose proof (pre_city G g rs rs' TP TP' freq freq' X X' Hin N2 I' HX HX' HG' zo _ Eo) as Eo'.
  destruct Sn as (st' & M3 & M4). assert (st' = st) by congruence. subst st'.
  exists c, (find_city X' zd), s', st, q1. split; [rewrite <- Eo'; apply find_city_spec|]. split; [apply find_city_spec|]. do 3 (split; [assumption|]). rewrite <- Eo'. exact Sq.
Qed.
Print Assumptions C75_still_connected.

(** the same lines, more frequent *)
Theorem C75_more_frequent : forall G g rs TP freq freq' X X' P zo zd fuel R R',
  ext_input g rs -> NoDup (map r_id rs) -> build_ext G g rs TP freq = Ok X -> build_ext G g rs TP freq' = Ok X' ->
  (forall q, 0 <= geo_sqrt G q) -> 0 <= TP ->
  (forall r, In r rs -> 0 <= m_tat (r_mode r) /\ 0 <= m_v (r_mode r) /\ 0 <= m_d (r_mode r)) ->
  weights X P -> weights X' P -> (length (xnodes X) <= fuel)%nat -> (length (xnodes X') <= fuel)%nat ->
  (forall id, 0 <= route_frequency rs freq id /\ route_frequency rs freq id <= route_frequency rs freq' id) ->
  build_hyperpath fuel X P (find_city X zo) (find_city X zd) = Ok R ->
  build_hyperpath fuel X' P (find_city X' zo) (find_city X' zd) = Ok R' ->
  forall s z m q, In (ES s) (xnodes X) -> stop_place X s = Some (z, m) -> hr_lab R (ES s) = Some q ->
  exists s' q', In (ES s') (xnodes X') /\ stop_place X' s' = Some (z, m) /\ hr_lab R' (ES s') = Some q' /\ q' <= q.
Proof.
  intros G g rs TP freq freq' X X' P zo zd fuel R R' I ND HX HX' HQ T HM W W' L L' HF HR HR'.
  apply (C75_better_service G g rs rs TP TP freq freq' X X' P P zo zd fuel); auto; try apply Qle_refl.
  - repeat (split; auto).
  - intro id. destruct (HF id). split; auto. eapply Qle_trans; eauto.
  - intros r _. apply HF.
Qed.
Print Assumptions C75_more_frequent.

(** ** C78 *)
Lemma place_unique G g rs TP freq X s s' p : ext_input g rs -> build_ext G g rs TP freq = Ok X -> stop_place X s = Some p -> stop_place X s' = Some p -> s = s'.
Proof.
  intros I HX E E'. pose proof (proj1 (C30_one_stop_per_node_and_mode _ _ _ _ _ _ I HX)) as N. unfold stop_place in *.
  destruct (nth_error (xg_stops X) s) as [a|] eqn:Ea; [|discriminate]. destruct (nth_error (xg_stops X) s') as [b|] eqn:Eb; [|discriminate].
  destruct (nth_error (g_nodes (xg_graph X)) (sn_city a)) as [na|] eqn:Na; [|discriminate]. destruct (nth_error (g_nodes (xg_graph X)) (sn_city b)) as [nb|] eqn:Nb; [|discriminate].
  injection E as <-. injection E' as E1 E2. rewrite (ef_graph _ _ _ _ _ _ (facts_of _ _ _ _ _ _ I HX)) in Na, Nb.
  assert (C : sn_city b = sn_city a).
  { pose proof (xi_ids _ _ I) as NI. rewrite NoDup_nth_error in NI. apply NI; [rewrite map_length; apply nth_error_Some; congruence|]. rewrite !nth_error_map, Na, Nb. cbn [option_map]. congruence. }
  rewrite NoDup_nth_error in N. apply N; [rewrite map_length; apply nth_error_Some; congruence|]. rewrite !nth_error_map, Ea, Eb. cbn [option_map]. congruence.
Qed.
(** The order in which the lines are listed does not change what the search announces at the stops, nor who can travel. *)
Lemma same_lines rs rs' : Permutation rs rs' -> NoDup (map r_id rs) -> keeps_lines rs rs'.
Proof.
  intros PM ND. split; auto. split; [eapply Permutation_NoDup; [apply Permutation_map; exact PM|exact ND]|]. split; [intros r Hr; eapply Permutation_in; eauto|].
  intros r d z _ _ (r' & d' & V). exists r', d'. eapply all_visits_incl; [|exact V]. intros r0 Hr. eapply Permutation_in; [apply Permutation_sym; exact PM|exact Hr].
Qed.
Lemma ext_input_perm g rs rs' : Permutation rs rs' -> ext_input g rs -> ext_input g rs'.
Proof. intros PM I. apply (ext_input_sub g rs' rs); auto. intros r Hr. eapply Permutation_in; [apply Permutation_sym; exact PM|exact Hr]. Qed.
Theorem C78_order_of_lines : forall G g rs rs' TP freq freq' X X' P zo zd fuel R R',
  ext_input g rs -> NoDup (map r_id rs) -> Permutation rs rs' -> build_ext G g rs TP freq = Ok X -> build_ext G g rs' TP freq' = Ok X' ->
  (forall r, In r rs -> route_frequency rs freq (r_id r) == route_frequency rs' freq' (r_id r)) ->
  (forall q, 0 <= geo_sqrt G q) -> 0 <= TP ->
  (forall r, In r rs -> 0 <= m_tat (r_mode r) /\ 0 <= m_v (r_mode r) /\ 0 <= m_d (r_mode r)) ->
  (forall id, 0 <= route_frequency rs freq id /\ 0 <= route_frequency rs' freq' id) ->
  weights X P -> weights X' P -> (length (xnodes X) <= fuel)%nat -> (length (xnodes X') <= fuel)%nat ->
  build_hyperpath fuel X P (find_city X zo) (find_city X zd) = Ok R ->
  build_hyperpath fuel X' P (find_city X' zo) (find_city X' zd) = Ok R' ->
  forall s z m, In (ES s) (xnodes X) -> stop_place X s = Some (z, m) ->
  exists s', In (ES s') (xnodes X') /\ stop_place X' s' = Some (z, m) /\
    match hr_lab R (ES s), hr_lab R' (ES s') with Some q, Some q' => q == q' | None, None => True | _, _ => False end.
Proof.
  intros G g rs rs' TP freq freq' X X' P zo zd fuel R R' I ND PM HX HX' HE HQ T HM HF W W' L L' HR HR' s z m Hn Pl.
  assert (I' := ext_input_perm g rs rs' PM I). assert (K := same_lines rs rs' PM ND). assert (K' : keeps_lines rs' rs) by (apply same_lines; [apply Permutation_sym; auto|apply K]).
  assert (MEM : forall r, In r rs' -> In r rs) by (intros r Hr; apply K'; auto).
  assert (Hn' := Hn). apply (xnode_X G g rs rs' TP freq X (proj1 (proj2 (proj2 K))) I' HX) in Hn'. destruct (pre_xnode G g rs rs' TP TP freq freq' X X' (proj1 (proj2 (proj2 K))) (proj1 (proj2 K)) I' HX HX' _ Hn') as ([|s'|] & Sn & Xn); try contradiction.
  apply (xnode_X' G g rs' TP freq' X' I' HX') in Xn.
  assert (Pl' : stop_place X' s' = Some (z, m)).
  { unfold stop_place in *. destruct Sn as (st & N1 & N2). rewrite N1 in Pl. rewrite N2. rewrite (ef_graph _ _ _ _ _ _ (facts_of _ _ _ _ _ _ I HX)) in Pl. rewrite (ef_graph _ _ _ _ _ _ (facts_of _ _ _ _ _ _ I' HX')). exact Pl. }
  exists s'. split; auto. split; auto.
  assert (U : forall a, stop_place X a = Some (z, m) -> a = s) by (intros a Ha; exact (place_unique _ _ _ _ _ _ _ _ _ I HX Ha Pl)).
  assert (U' : forall a, stop_place X' a = Some (z, m) -> a = s') by (intros a Ha; exact (place_unique _ _ _ _ _ _ _ _ _ I' HX' Ha Pl')).
  assert (FW : forall q, hr_lab R (ES s) = Some q -> exists q', hr_lab R' (ES s') = Some q' /\ q' <= q).
  { intros q Eq. destruct (C75_better_service G g rs rs' TP TP freq freq' X X' P P zo zd fuel R R') with (s := s) (z := z) (m := m) (q := q) as (a & q' & A1 & A2 & A3 & A4); auto; try apply Qle_refl.
    - intros r Hr. rewrite (HE r Hr). apply Qle_refl.
    - rewrite (U' a A2) in A3. eauto. }
  assert (BW : forall q, hr_lab R' (ES s') = Some q -> exists q', hr_lab R (ES s) = Some q' /\ q' <= q).
  { intros q Eq. destruct (C75_better_service G g rs' rs TP TP freq' freq X' X P P zo zd fuel R' R) with (s := s') (z := z) (m := m) (q := q) as (a & q' & A1 & A2 & A3 & A4); auto; try apply Qle_refl.
    - intro id. destruct (HF id). auto.
    - intros r Hr. rewrite (HE r (MEM r Hr)). apply Qle_refl.
    - rewrite (U a A2) in A3. eauto. }
  destruct (hr_lab R (ES s)) as [q|].
  - destruct (FW q eq_refl) as (q' & E' & Q1). rewrite E' in *. destruct (BW q' eq_refl) as (q2 & E2 & Q2). injection E2 as <-. apply Qle_antisym; auto.
  - destruct (hr_lab R' (ES s')) as [q'|]; auto. destruct (BW q' eq_refl) as (q & E & _). discriminate.
Qed.
Print Assumptions C78_order_of_lines.

Theorem C78_who_can_travel : forall G g rs rs' TP freq freq' X X' P zo zd,
  ext_input g rs -> NoDup (map r_id rs) -> Permutation rs rs' -> build_ext G g rs TP freq = Ok X -> build_ext G g rs' TP freq' = Ok X' ->
  (forall r, In r rs -> route_frequency rs freq (r_id r) == route_frequency rs' freq' (r_id r)) ->
  (forall q, 0 <= geo_sqrt G q) -> 0 <= TP ->
  (forall r, In r rs -> 0 <= m_tat (r_mode r) /\ 0 <= m_v (r_mode r) /\ 0 <= m_d (r_mode r)) ->
  (forall id, 0 <= route_frequency rs freq id /\ 0 <= route_frequency rs' freq' id) ->
  weights X P -> weights X' P -> (connected X P zo zd <-> connected X' P zo zd).
Proof.
  intros G g rs rs' TP freq freq' X X' P zo zd I ND PM HX HX' HE HQ T HM HF W W'.
  assert (I' := ext_input_perm g rs rs' PM I). assert (K := same_lines rs rs' PM ND). assert (K' : keeps_lines rs' rs) by (apply same_lines; [apply Permutation_sym; auto|apply K]).
  assert (MEM : forall r, In r rs' -> In r rs) by (intros r Hr; apply K'; auto). split.
  - apply (C75_still_connected G g rs rs' TP TP freq freq' X X' P P zo zd); auto; try apply Qle_refl. intros r Hr. rewrite (HE r Hr). apply Qle_refl.
  - apply (C75_still_connected G g rs' rs TP TP freq' freq X' X P P zo zd); auto; try apply Qle_refl; [intro id; destruct (HF id); auto|]. intros r Hr. rewrite (HE r (MEM r Hr)). apply Qle_refl.
Qed.
Print Assumptions C78_who_can_travel.

(** Adding a line may nevertheless lengthen the trips of people who do not use it: the ride of an express is measured through the
    intermediate nodes at which some vehicle stops. *)
Definition ex_local : route := mkRoute "l" ex_bus [2;4]%Z [4;2]%Z [2;4]%Z [4;2]%Z CUSTOM.
Definition built (r : res xgraph) : xgraph := match r with Ok X => X | Err _ => mkXgraph empty_graph [] [] [] [] end.
Definition ex_XE : xgraph := Eval vm_compute in built (build_ext ex_geo ex_g34 [ex_tang_express] 16 None).
Definition ex_XEL : xgraph := Eval vm_compute in built (build_ext ex_geo ex_g34 ([ex_tang_express] ++ [ex_local]) 16 None).
Lemma ex_XE_built : build_ext ex_geo ex_g34 [ex_tang_express] 16 None = Ok ex_XE.
Proof. vm_compute. reflexivity. Qed.
Lemma ex_XEL_built : build_ext ex_geo ex_g34 ([ex_tang_express] ++ [ex_local]) 16 None = Ok ex_XEL.
Proof. vm_compute. reflexivity. Qed.
Lemma ex_XE_input : ext_input ex_g34 [ex_tang_express].
Proof. ext_input_tac. Qed.
Lemma ex_XEL_input : ext_input ex_g34 ([ex_tang_express] ++ [ex_local]).
Proof. ext_input_tac. Qed.
Lemma ex_XE_weights : weights ex_XE ex_P.
Proof. eapply built_graph_weights; [exact ex_XE_input|exact ex_XE_built|modes_tac|reflexivity|discriminate|discriminate|]. left. split; [reflexivity|modes_tac]. Qed.
Lemma ex_XEL_weights : weights ex_XEL ex_P.
Proof. eapply built_graph_weights; [exact ex_XEL_input|exact ex_XEL_built|modes_tac|reflexivity|discriminate|discriminate|]. left. split; [reflexivity|modes_tac]. Qed.
Definition label_at (X : xgraph) (P : qpass) (zo zd : Z) (n : enode) : option Q :=
  match build_hyperpath 60 X P (find_city X zo) (find_city X zd) with Ok R => option_map Qred (hr_lab R n) | Err _ => None end.
Theorem C75_more_lines_refuted : exists G g rs extra TP X X' P zo zd fuel R R' s s' z m q q',
  ext_input g (rs ++ extra) /\ build_ext G g rs TP None = Ok X /\ build_ext G g (rs ++ extra) TP None = Ok X' /\
  (forall q, 0 <= geo_sqrt G q) /\ weights X P /\ weights X' P /\ (length (xnodes X) <= fuel)%nat /\ (length (xnodes X') <= fuel)%nat /\
  (forall r d, In r extra -> ~ In zo (stops_of r d) /\ ~ In zd (stops_of r d)) /\
  build_hyperpath fuel X P (find_city X zo) (find_city X zd) = Ok R /\
  build_hyperpath fuel X' P (find_city X' zo) (find_city X' zd) = Ok R' /\
  stop_place X s = Some (z, m) /\ stop_place X' s' = Some (z, m) /\ z = zo /\
  hr_lab R (ES s) = Some q /\ hr_lab R' (ES s') = Some q' /\ q < q' /\
  (* and no other mode is available there *)
  forall s1 m1, In (ES s1) (xnodes X') -> stop_place X' s1 = Some (z, m1) -> s1 = s'.
Proof.
  exists ex_geo, ex_g34, [ex_tang_express], [ex_local], 16, ex_XE, ex_XEL, ex_P, 1%Z, 3%Z, 60%nat. eexists _, _, 0%nat, 0%nat, 1%Z, ex_bus, _, _.
  split; [exact ex_XEL_input|]. split; [exact ex_XE_built|]. split; [exact ex_XEL_built|]. split; [exact ex_sqrt_nonneg|].
  split; [exact ex_XE_weights|]. split; [exact ex_XEL_weights|]. split; [vm_compute; lia|]. split; [vm_compute; lia|].
  split; [intros r d [<-|[]]; destruct d; vm_compute; split; intuition discriminate|].
  split; [vm_compute; reflexivity|]. split; [vm_compute; reflexivity|]. split; [vm_compute; reflexivity|]. split; [vm_compute; reflexivity|]. split; [reflexivity|].
  split; [vm_compute; reflexivity|]. split; [vm_compute; reflexivity|]. split; [vm_compute; reflexivity|].
  intros s1 m1 H E. vm_compute in H. repeat (destruct H as [H|H]; [try discriminate H; try (injection H as <-; vm_compute in E; (reflexivity || discriminate E))|]). contradiction.
Qed.
Print Assumptions C75_more_lines_refuted.

(** the premises hold together: the line t at 5 vehicles per hour, then at 6 with an express beside it, cheaper transfers and
    cheaper waiting *)
Definition ex_f5 : option (list (string * Q)) := Some [("t"%string, 5)].
Definition ex_f6 : option (list (string * Q)) := Some [("te"%string, 3); ("t"%string, 6)].
Definition ex_Pw : qpass := mkPass 4 (274#100) (274#100) (822#100) 16 1 1 1 1.
Definition ex_XT : xgraph := Eval vm_compute in built (build_ext ex_geo ex_g34 [ex_tang] 16 ex_f5).
Definition ex_XTE : xgraph := Eval vm_compute in built (build_ext ex_geo ex_g34 ([ex_tang] ++ [ex_tang_express]) 12 ex_f6).
Lemma ex_keeps : keeps_lines [ex_tang] ([ex_tang] ++ [ex_tang_express]).
Proof.
  split; [vm_compute; repeat constructor; cbn; intuition discriminate|]. split; [vm_compute; repeat constructor; cbn; intuition discriminate|]. split; [intros r [<-|[]]; left; auto|]. intros r d z [<-|[]] Hz _. destruct d; [exists ex_tang, DI|exists ex_tang, DR]; cbn in *; intuition (subst; tauto).
Qed.
Example C75_ex : ext_input ex_g34 ([ex_tang] ++ [ex_tang_express]) /\ keeps_lines [ex_tang] ([ex_tang] ++ [ex_tang_express]) /\
  build_ext ex_geo ex_g34 [ex_tang] 16 ex_f5 = Ok ex_XT /\ build_ext ex_geo ex_g34 ([ex_tang] ++ [ex_tang_express]) 12 ex_f6 = Ok ex_XTE /\
  weights ex_XT ex_P /\ weights ex_XTE ex_Pw /\
  (forall id, 0 <= route_frequency [ex_tang] ex_f5 id /\ 0 <= route_frequency ([ex_tang] ++ [ex_tang_express]) ex_f6 id) /\
  (forall r, In r [ex_tang] -> route_frequency [ex_tang] ex_f5 (r_id r) <= route_frequency ([ex_tang] ++ [ex_tang_express]) ex_f6 (r_id r)) /\
  label_at ex_XT ex_P 1 3 (ES 0) = Some (43 # 25) /\ label_at ex_XTE ex_Pw 1 3 (ES 0) = Some (41 # 45).
Proof.
  assert (I : ext_input ex_g34 ([ex_tang] ++ [ex_tang_express])) by ext_input_tac. assert (I1 : ext_input ex_g34 [ex_tang]) by ext_input_tac.
  assert (B1 : build_ext ex_geo ex_g34 [ex_tang] 16 ex_f5 = Ok ex_XT) by (vm_compute; reflexivity).
  assert (B2 : build_ext ex_geo ex_g34 ([ex_tang] ++ [ex_tang_express]) 12 ex_f6 = Ok ex_XTE) by (vm_compute; reflexivity).
  split; [exact I|]. split; [exact ex_keeps|]. split; [exact B1|]. split; [exact B2|].
  split; [eapply built_graph_weights; [exact I1|exact B1|modes_tac|reflexivity|discriminate|discriminate|]; left; split; [reflexivity|modes_tac]|].
  split; [eapply built_graph_weights; [exact I|exact B2|modes_tac|reflexivity|discriminate|discriminate|]; left; split; [reflexivity|modes_tac]|].
  split; [intro id; unfold route_frequency, ex_f5, ex_f6, dget0; cbn [dget]; repeat match goal with |- context [String.eqb ?a ?b] => destruct (String.eqb a b) end; split; vm_compute; discriminate|].
  split; [intros r [<-|[]]; vm_compute; discriminate|].
  split; vm_compute; reflexivity.
Qed.
(** the express alone, and with a local line that nobody from 1 to 3 can use *)
Example C75_refuted_ex : label_at ex_XE ex_P 1 3 (ES 0) = Some (11 # 20) /\ label_at ex_XEL ex_P 1 3 (ES 0) = Some (13 # 20).
Proof. split; vm_compute; reflexivity. Qed.
(** two lines listed in both orders, with the frequencies listed in both orders *)
Definition ex_XO : xgraph := Eval vm_compute in built (build_ext ex_geo ex_g34 [ex_tang; ex_tang_express] 16 (Some [("t"%string, 5); ("te"%string, 3)])).
Definition ex_XO' : xgraph := Eval vm_compute in built (build_ext ex_geo ex_g34 [ex_tang_express; ex_tang] 16 (Some [("te"%string, 3); ("t"%string, 5)])).
Example C78_ex : ext_input ex_g34 [ex_tang; ex_tang_express] /\ NoDup (map r_id [ex_tang; ex_tang_express]) /\ Permutation [ex_tang; ex_tang_express] [ex_tang_express; ex_tang] /\
  build_ext ex_geo ex_g34 [ex_tang; ex_tang_express] 16 (Some [("t"%string, 5); ("te"%string, 3)]) = Ok ex_XO /\
  build_ext ex_geo ex_g34 [ex_tang_express; ex_tang] 16 (Some [("te"%string, 3); ("t"%string, 5)]) = Ok ex_XO' /\
  (forall r, In r [ex_tang; ex_tang_express] -> route_frequency [ex_tang; ex_tang_express] (Some [("t"%string, 5); ("te"%string, 3)]) (r_id r) == route_frequency [ex_tang_express; ex_tang] (Some [("te"%string, 3); ("t"%string, 5)]) (r_id r)) /\
  weights ex_XO ex_P /\ weights ex_XO' ex_P /\ xg_edges ex_XO <> xg_edges ex_XO' /\ xg_rnodes ex_XO <> xg_rnodes ex_XO' /\
  exists q, label_at ex_XO ex_P 1 3 (ES 0) = Some q /\ label_at ex_XO' ex_P 1 3 (ES 0) = Some q /\ 0 < q.
Proof.
  assert (I : ext_input ex_g34 [ex_tang; ex_tang_express]) by ext_input_tac. assert (I1 : ext_input ex_g34 [ex_tang_express; ex_tang]) by ext_input_tac.
  assert (B1 : build_ext ex_geo ex_g34 [ex_tang; ex_tang_express] 16 (Some [("t"%string, 5); ("te"%string, 3)]) = Ok ex_XO) by (vm_compute; reflexivity).
  assert (B2 : build_ext ex_geo ex_g34 [ex_tang_express; ex_tang] 16 (Some [("te"%string, 3); ("t"%string, 5)]) = Ok ex_XO') by (vm_compute; reflexivity).
  split; [exact I|]. split; [vm_compute; repeat constructor; cbn; intuition discriminate|]. split; [apply perm_swap|]. split; [exact B1|]. split; [exact B2|].
  split; [intros r [<-|[<-|[]]]; vm_compute; reflexivity|].
  split; [eapply built_graph_weights; [exact I|exact B1|modes_tac|reflexivity|discriminate|discriminate|]; left; split; [reflexivity|modes_tac]|].
  split; [eapply built_graph_weights; [exact I1|exact B2|modes_tac|reflexivity|discriminate|discriminate|]; left; split; [reflexivity|modes_tac]|].
  split; [vm_compute; intro C; discriminate C|]. split; [vm_compute; intro C; discriminate C|].
  eexists. split; [vm_compute; reflexivity|]. split; vm_compute; reflexivity.
Qed.
