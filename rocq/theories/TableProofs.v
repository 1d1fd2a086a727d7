(** * TableProofs: sums and entries of the boarding, alighting and load tables *)
From Coq Require Import String List ZArith QArith Bool Lia Lqa Qfield.
From Verif Require Import PyBase PyFacts Graph Mode Route ExtGraph ExtSpec ExtProofs Hyperpath HyperSpec Assignment AssignSpec FlowSpec.
Import ListNotations.
Local Open Scope Q_scope.

Lemma dir_spec : forall a b : dir, dir_eqb a b = true <-> a = b.
Proof. intros [] []; cbn; split; congruence. Qed.
Definition here (r r' : string) (d d' : dir) (s s' : nat) : bool := (r' =? r)%string && dir_eqb d' d && Nat.eqb s' s.

Lemma dset_sum {K V} (eqb : K -> K -> bool) (SP : forall a b, eqb a b = true <-> a = b) (h : K * V -> Q) dflt : (forall k, h (k, dflt) == 0) ->
  forall l k v, Qsumf h (dset eqb l k v) == Qsumf h l + h (k, v) - h (k, dget0 eqb dflt l k).
Proof.
  intros H0. induction l as [|[k' v'] l IH]; intros k v; cbn [dset].
  - unfold dget0. cbn [dget]. rewrite H0. unfold Qsumf. cbn. ring.
  - unfold dget0. cbn [dget]. destruct (eqb k k') eqn:E.
    + apply SP in E. subst k'. rewrite !Qsumf_cons. ring.
    + rewrite !Qsumf_cons, IH. unfold dget0. ring.
Qed.
Lemma dget0_dset {K V} (eqb : K -> K -> bool) (SP : forall a b, eqb a b = true <-> a = b) (dflt : V) l k v k' :
  dget0 eqb dflt (dset eqb l k v) k' = if eqb k' k then v else dget0 eqb dflt l k'.
Proof.
  unfold dget0. destruct (eqb k' k) eqn:E.
  - apply SP in E. subst k'. rewrite (dget_dset_same eqb SP). auto.
  - rewrite (dget_dset_other eqb SP); auto. intro; subst. assert (eqb k k = true) by (apply SP; auto). congruence.
Qed.
Lemma trow_tset t r d s q r' d' : trow (tset t r d s q) r' d' = if ((r' =? r)%string && dir_eqb d' d)%bool then dset Nat.eqb (trow t r d) s q else trow t r' d'.
Proof.
  unfold trow, tset. rewrite (dget0_dset String.eqb Seqb_spec). destruct (r' =? r)%string eqn:E; cbn [andb]; auto. apply String.eqb_eq in E. subst r'.
  rewrite (dget0_dset dir_eqb dir_spec). destruct (dir_eqb d' d) eqn:E; auto.
Qed.
Lemma tget_tadd t r d s q r' d' s' : tget (tadd t r d s q) r' d' s' == tget t r' d' s' + (if here r r' d d' s s' then q else 0).
Proof.
  unfold tget at 1, tadd. rewrite trow_tset. unfold here. destruct ((r' =? r)%string && dir_eqb d' d)%bool eqn:E; cbn [andb]; [|fold (tget t r' d' s'); ring].
  apply andb_true_iff in E. destruct E as [E1 E2]. apply String.eqb_eq in E1. apply dir_spec in E2. subst r' d'. rewrite (dget0_dset Nat.eqb Neqb_spec). destruct (Nat.eqb s' s) eqn:E3; [apply Nat.eqb_eq in E3; subst s'; reflexivity|fold (tget t r d s'); ring].
Qed.
Definition row_sum (t : tab) (r : string) (d : dir) : Q := Qsumf snd (trow t r d).
Lemma row_sum_tadd t r d s q r' d' : row_sum (tadd t r d s q) r' d' == row_sum t r' d' + (if ((r' =? r)%string && dir_eqb d' d)%bool then q else 0).
Proof.
  unfold row_sum, tadd. rewrite trow_tset. destruct ((r' =? r)%string && dir_eqb d' d)%bool eqn:E; [|ring].
  apply andb_true_iff in E. destruct E as [E1 E2]. apply String.eqb_eq in E1. apply dir_spec in E2. subst r' d'. rewrite (dset_sum Nat.eqb Neqb_spec snd 0) by (intros; reflexivity). cbn [snd]. fold (tget t r d s). ring.
Qed.
Lemma table_sum_tadd W t r d s q : table_sum W (tadd t r d s q) == table_sum W t + W r d s * q.
Proof.
  unfold table_sum, tadd, tset. rewrite (dset_sum String.eqb Seqb_spec _ []) by (intros; unfold Qsumf; reflexivity).
  cbv beta iota. rewrite (dset_sum dir_eqb dir_spec _ []) by (intros; unfold Qsumf; reflexivity). cbv beta iota.
  rewrite (dset_sum Nat.eqb Neqb_spec _ 0) by (intros; ring). fold (trow t r d). unfold tget. ring.
Qed.

(** dividing by the frequency *)
Definition scale (f : fdict) (r : string) (q : Q) : Q := if Qeqb (freq f r) 0 then q else q / freq f r.
Lemma dget_map {K V W} (eqb : K -> K -> bool) (SP : forall a b, eqb a b = true <-> a = b) (g : K -> V -> W) l k : dget eqb (map (fun '(k, v) => (k, g k v)) l) k = option_map (g k) (dget eqb l k).
Proof.
  induction l as [|[k' v'] l IH]; cbn [map dget]; auto. destruct (eqb k k') eqn:E; auto. apply SP in E. subst. auto.
Qed.
Lemma trow_scaled f t r d : trow (per_vehicle f t) r d = map (fun '(s, q) => (s, scale f r q)) (trow t r d).
Proof.
  unfold trow, per_vehicle, dget0. rewrite (dget_map String.eqb Seqb_spec (fun r rows => map (fun '(d0, row) => (d0, map (fun '(s, q) => (s, if Qeqb (freq f r) 0 then q else q / freq f r)) row)) rows) t r).
  destruct (dget String.eqb t r) as [rows|]; cbn [option_map]; [|reflexivity]. rewrite (dget_map dir_eqb dir_spec (fun _ row => map (fun '(s, q) => (s, if Qeqb (freq f r) 0 then q else q / freq f r)) row) rows d).
  destruct (dget dir_eqb rows d); reflexivity.
Qed.
Lemma scale_mult f r q : scale f r q == (if Qeqb (freq f r) 0 then 1 else / freq f r) * q.
Proof. unfold scale. destruct (Qeqb (freq f r) 0); [ring|]. unfold Qdiv. ring. Qed.
Lemma tget_scaled f t r d s : tget (per_vehicle f t) r d s == scale f r (tget t r d s).
Proof.
  unfold tget. rewrite trow_scaled. unfold dget0. rewrite (dget_map Nat.eqb Neqb_spec (fun _ q => scale f r q)). destruct (dget Nat.eqb (trow t r d) s); cbn [option_map]; [reflexivity|]. rewrite scale_mult. ring.
Qed.
Lemma row_sum_scaled f t r d : row_sum (per_vehicle f t) r d == (if Qeqb (freq f r) 0 then 1 else / freq f r) * row_sum t r d.
Proof.
  unfold row_sum. rewrite trow_scaled, Qsumf_map, <- Qsumf_scal. apply Qsumf_ext. intros [s q] _. cbn [snd]. apply scale_mult.
Qed.
Lemma table_sum_scaled W f t : table_sum W (per_vehicle f t) == table_sum (fun r d s => W r d s * (if Qeqb (freq f r) 0 then 1 else / freq f r)) t.
Proof.
  unfold table_sum, per_vehicle. rewrite Qsumf_map. apply Qsumf_ext. intros [r rows] _. rewrite Qsumf_map. apply Qsumf_ext. intros [d row] _. rewrite Qsumf_map. apply Qsumf_ext. intros [s q] _.
  fold (scale f r q). rewrite scale_mult. ring.
Qed.
Lemma table_sum_ext W W' t : (forall r d s, W r d s == W' r d s) -> table_sum W t == table_sum W' t.
Proof. intro H. unfold table_sum. apply Qsumf_ext. intros [r rows] _. apply Qsumf_ext. intros [d row] _. apply Qsumf_ext. intros [s q] _. rewrite H. ring. Qed.
Lemma table_sum_plus W W' t : table_sum (fun r d s => W r d s + W' r d s) t == table_sum W t + table_sum W' t.
Proof. unfold table_sum. rewrite <- Qsumf_plus. apply Qsumf_ext. intros [r rows] _. rewrite <- Qsumf_plus. apply Qsumf_ext. intros [d row] _. rewrite <- Qsumf_plus. apply Qsumf_ext. intros [s q] _. ring. Qed.
