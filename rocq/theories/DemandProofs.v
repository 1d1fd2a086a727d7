(** * DemandProofs: lemmas about the demand model *)
From Coq Require Import String Ascii List ZArith QArith Bool Lia Lqa.
From Verif Require Import PyBase PyFacts PyStr PyStrFacts Graph GraphSpec GraphProofs Demand DemandSpec.
Import ListNotations.
Local Open Scope Q_scope.

(** ** Generic folds *)
Lemma foldM_flat {A B S} (f : S -> B -> res S) (g : A -> list B) l s :
  foldM f (flat_map g l) s = foldM (fun s x => foldM f (g x) s) l s.
Proof.
  revert s. induction l as [|x l IH]; intro s; [reflexivity|].
  simpl. rewrite foldM_app. destruct (foldM f (g x) s); simpl; auto.
Qed.
Lemma foldM_ext_inv {A S} (I : S -> Prop) (f g : S -> A -> res S) l s :
  (forall s x, In x l -> I s -> f s x = g s x) ->
  (forall s x s', In x l -> I s -> g s x = Ok s' -> I s') ->
  I s -> foldM f l s = foldM g l s.
Proof.
  revert s. induction l as [|x l IH]; intros s He Hi Hs; [reflexivity|].
  simpl. rewrite He by (simpl; auto). destruct (g s x) as [s'|e] eqn:E; auto.
  simpl. apply IH; [intros; apply He; simpl; auto | | eapply Hi; simpl; eauto].
  intros s0 x0 s1 Hx0 Hs0 E0. eapply (Hi s0 x0); simpl; eauto.
Qed.

(** ** Sums of dictionaries *)
Definition rsum (r : list (Z * Q)) : Q := Qsum (map snd r).
Definition msum (M : dict2) : Q := Qsum (flat_map (fun r => map snd (snd r)) M).
Lemma msum_cons r M : msum (r :: M) == rsum (snd r) + msum M.
Proof. unfold msum, rsum. simpl. apply Qsum_app. Qed.

Lemma rsum_dset r j old v : dget Z.eqb r j = Some old -> rsum (dset Z.eqb r j v) == rsum r - old + v.
Proof.
  unfold rsum. induction r as [|[k x] r IH]; simpl; [discriminate|].
  destruct (j =? k)%Z eqn:E; intro H.
  - inversion H; subst. simpl. lra.
  - simpl. rewrite IH by auto. lra.
Qed.
Lemma msum_dset M i row row' : dget Z.eqb M i = Some row ->
  msum (dset Z.eqb M i row') == msum M - rsum row + rsum row'.
Proof.
  induction M as [|[k x] M IH]; simpl; [discriminate|].
  destruct (i =? k)%Z eqn:E; intro H.
  - inversion H; subst. rewrite !msum_cons. simpl. lra.
  - rewrite !msum_cons. simpl. rewrite IH by auto. lra.
Qed.
Lemma msum_snoc M r : msum (M ++ [r]) == msum M + rsum (snd r).
Proof. unfold msum. rewrite flat_map_app, Qsum_app. simpl. rewrite app_nil_r. reflexivity. Qed.

(** ** Total trips invariant *)
Definition sum_ok (D : demand) : Prop := dm_total D == msum (dm_matrix D).

Lemma change_ok D o d v D' : change_vij D o d v = (D', None) ->
  0 <= v /\ exists old, dict2_get (dm_matrix D) o d = Some old /\
    D' = mkDemand (dm_nodes D) (dm_n D) (dict2_set (dm_matrix D) o d v) (dm_total D - old + v).
Proof.
  unfold change_vij, dict2_get. destruct (Qltb v 0) eqn:Ev; [discriminate|]. qb.
  destruct (dget Z.eqb (dm_matrix D) o) as [[|c row]|] eqn:Er; try discriminate.
  destruct (dget Z.eqb (c :: row) d) as [old|] eqn:Ec; [|discriminate].
  intro H. inversion H; subst. split; auto. eauto.
Qed.
Lemma change_err D o d v D' e : change_vij D o d v = (D', Some e) -> D' = D.
Proof.
  unfold change_vij. destruct (Qltb v 0); [congruence|].
  destruct (dget Z.eqb (dm_matrix D) o) as [[|c row]|]; try congruence.
  destruct (dget Z.eqb (c :: row) d); congruence.
Qed.

Lemma dict2_set_sum M o d v old : dict2_get M o d = Some old ->
  msum (dict2_set M o d v) == msum M - old + v.
Proof.
  unfold dict2_get, dict2_set, dget0. destruct (dget Z.eqb M o) as [row|] eqn:E; [|discriminate].
  intro H. rewrite (msum_dset _ _ _ _ E), (rsum_dset _ _ _ _ H). lra.
Qed.

Lemma change_sum_ok D o d v : sum_ok D -> sum_ok (fst (change_vij D o d v)).
Proof.
  intro H. destruct (change_vij D o d v) as [D' [e|]] eqn:E; simpl.
  - apply change_err in E. subst. auto.
  - apply change_ok in E. destruct E as (_ & old & Ho & ->). unfold sum_ok in *. simpl.
    rewrite (dict2_set_sum _ _ _ _ _ Ho), H. reflexivity.
Qed.
Lemma dtouch_row_sum M o : msum (dtouch Z.eqb [] M o) == msum M.
Proof.
  unfold dtouch. destruct (dget Z.eqb M o); [reflexivity|]. rewrite msum_snoc. unfold rsum. simpl. lra.
Qed.
Lemma dtouch_get {V} (dflt : V) M o : dget Z.eqb (dtouch Z.eqb dflt M o) o = Some (dget0 Z.eqb dflt M o).
Proof.
  unfold dtouch, dget0. destruct (dget Z.eqb M o) eqn:E; auto.
  rewrite <- dset_keys_notin with (eqb := Z.eqb).
  - apply dget_dset_same. apply Zeqb_spec.
  - apply Zeqb_spec.
  - apply (dget_None Z.eqb Zeqb_spec). auto.
Qed.
Lemma read_sum_ok D o d : sum_ok D -> sum_ok (fst (read_cell D o d)).
Proof.
  unfold sum_ok. intro H. simpl.
  assert (E : dget Z.eqb (dtouch Z.eqb [] (dm_matrix D) o) o = Some (dget0 Z.eqb [] (dm_matrix D) o))
    by apply dtouch_get.
  rewrite (msum_dset _ _ _ _ E), dtouch_row_sum, H.
  unfold dget0 at 2. rewrite E.
  assert (X : rsum (dtouch Z.eqb 0 (dget0 Z.eqb [] (dm_matrix D) o) d) == rsum (dget0 Z.eqb [] (dm_matrix D) o)).
  { unfold dtouch. destruct (dget Z.eqb (dget0 Z.eqb [] (dm_matrix D) o) d); [reflexivity|].
    unfold rsum. rewrite map_app, Qsum_app. simpl. lra. }
  rewrite X. lra.
Qed.
Lemma dstep_sum_ok D op : sum_ok D -> sum_ok (dstep D op).
Proof.
  intro H. destruct op; simpl.
  - apply change_sum_ok; auto.
  - unfold sum_ok in *. simpl. rewrite dtouch_row_sum. auto.
  - apply read_sum_ok; auto.
Qed.

(** the default matrix: all zeros *)
Definition zeros (M : dict2) : Prop := forall r c, In r M -> In c (snd r) -> snd c == 0.
Lemma dset_In {V} (d : list (Z * V)) k v x : In x (dset Z.eqb d k v) -> In x d \/ x = (k, v).
Proof.
  induction d as [|[k' v'] d IH]; simpl; [intros [H|[]]; auto|].
  destruct (Z.eqb_spec k k'); simpl; intros [H|H]; subst; auto.
  apply IH in H. destruct H; auto.
Qed.
Lemma zeros_set M o d : zeros M -> zeros (dict2_set M o d 0).
Proof.
  intros Z r c Hr Hc. unfold dict2_set in Hr.
  assert (K : In r M \/ r = (o, dset Z.eqb (dget0 Z.eqb [] M o) d 0)).
  { apply dset_In in Hr. auto. }
  destruct K as [K|K]; [eapply Z; eauto|]. subst. simpl in Hc.
  apply dset_In in Hc.
  assert (K : In c (dget0 Z.eqb [] M o) \/ c = (d, 0)) by auto.
  destruct K as [K|K]; [|subst; reflexivity].
  unfold dget0 in K. destruct (dget Z.eqb M o) as [row|] eqn:E; [|contradiction].
  apply (dget_In Z.eqb Zeqb_spec) in E. eapply Z; eauto. 
Qed.
Lemma default_zeros nodes : zeros (default_matrix nodes).
Proof.
  unfold default_matrix.
  assert (G : forall l M, zeros M ->
     zeros (fold_left (fun M o => fold_left (fun M d => dict2_set M (nd_id o) (nd_id d) 0) nodes M) l M)).
  { induction l as [|o l IH]; intros M H; simpl; auto. apply IH.
    assert (G' : forall l M, zeros M -> zeros (fold_left (fun M d => dict2_set M (nd_id o) (nd_id d) 0) l M)).
    { induction l0 as [|d l0 IH0]; intros M0 H0; simpl; auto. apply IH0. apply zeros_set; auto. }
    apply G'; auto. }
  apply G. intros r c [].
Qed.
Lemma zeros_sum M : zeros M -> msum M == 0.
Proof.
  intro Z. induction M as [|r M IH]; [reflexivity|].
  rewrite msum_cons, IH by (intros r' c Hr; apply Z; simpl; auto).
  unfold rsum. change (Qsum (map snd (snd r))) with (Qsumf snd (snd r)).
  rewrite Qsumf_zero; [lra|]. intros c Hc. apply (Z r c); simpl; auto.
Qed.
Lemma new_sum_ok nodes n : sum_ok (new_demand nodes n).
Proof. unfold sum_ok. simpl. rewrite zeros_sum; [reflexivity|apply default_zeros]. Qed.

Lemma drun_sum_ok nodes n ops : sum_ok (drun (new_demand nodes n) ops).
Proof.
  unfold drun. assert (G : forall l D, sum_ok D -> sum_ok (fold_left dstep l D)).
  { induction l; simpl; auto. intros D H. apply IHl. apply dstep_sum_ok. auto. }
  apply G. apply new_sum_ok.
Qed.

(** ** Which cells exist *)
Lemma default_get nodes i j :
  dict2_get (default_matrix nodes) i j =
  if zmem i (map nd_id nodes) && zmem j (map nd_id nodes) then Some 0 else None.
Proof.
  unfold default_matrix.
  assert (G' : forall o l M i j, dict2_get (fold_left (fun M d => dict2_set M o (nd_id d) 0) l M) i j =
     if (i =? o)%Z && zmem j (map nd_id l) then Some 0 else dict2_get M i j).
  { intros o l. induction l as [|d l IH]; intros M i' j'; simpl; [rewrite andb_false_r; auto|].
    rewrite IH, dict2_get_set. destruct (i' =? o)%Z, (j' =? nd_id d)%Z, (zmem j' (map nd_id l)); auto. }
  assert (G : forall l M i j,
    dict2_get (fold_left (fun M o => fold_left (fun M d => dict2_set M (nd_id o) (nd_id d) 0) nodes M) l M) i j =
    if zmem i (map nd_id l) && zmem j (map nd_id nodes) then Some 0 else dict2_get M i j).
  { induction l as [|o l IH]; intros M i' j'; simpl; auto.
    rewrite IH, G'. destruct (i' =? nd_id o)%Z, (zmem i' (map nd_id l)), (zmem j' (map nd_id nodes)); auto. }
  rewrite G. reflexivity.
Qed.

(** row keys: no row is empty in the default matrix when there is a node *)
Definition std_keys (nodes : list node) (M : dict2) : Prop :=
  forall i, match dget Z.eqb M i with
            | Some row => In i (map nd_id nodes) /\
                          forall j, (exists v, dget Z.eqb row j = Some v) <-> In j (map nd_id nodes)
            | None => ~ In i (map nd_id nodes)
            end.
Lemma default_rows nodes i row : dget Z.eqb (default_matrix nodes) i = Some row ->
  In i (map nd_id nodes).
Proof.
  unfold default_matrix.
  assert (G' : forall o l M, (exists row, dget Z.eqb (fold_left (fun M d => dict2_set M o (nd_id d) 0) l M) i = Some row) ->
     i = o \/ exists row, dget Z.eqb M i = Some row).
  { intros o l. induction l as [|d l IH]; intros M H; simpl in H; auto.
    apply IH in H. destruct H as [|[r H]]; auto. unfold dict2_set in H.
    destruct (Z.eq_dec i o); auto. rewrite dget_dset_other in H by (auto; apply Zeqb_spec). eauto. }
  assert (G : forall l M,
    (exists row, dget Z.eqb (fold_left (fun M o => fold_left (fun M d => dict2_set M (nd_id o) (nd_id d) 0) nodes M) l M) i = Some row) ->
    In i (map nd_id l) \/ exists row, dget Z.eqb M i = Some row).
  { induction l as [|o l IH]; intros M H; simpl in *; auto.
    apply IH in H. destruct H as [|H]; auto. apply G' in H. destruct H; auto. }
  intro H. destruct (G nodes [] (ex_intro _ _ H)) as [|[r Hr]]; auto. discriminate.
Qed.
Lemma default_std nodes : std_keys nodes (default_matrix nodes).
Proof.
  intro i. destruct (dget Z.eqb (default_matrix nodes) i) as [row|] eqn:E.
  - pose proof (default_rows _ _ _ E) as Hi. split; auto. intro j.
    pose proof (default_get nodes i j) as D. unfold dict2_get in D. rewrite E in D. rewrite D.
    apply zmem_In in Hi. rewrite Hi. simpl. rewrite <- zmem_In.
    destruct (zmem j (map nd_id nodes)); split; eauto; try discriminate. intros [v H]; discriminate.
  - intro Hi. pose proof (default_get nodes i i) as D. unfold dict2_get in D. rewrite E in D.
    apply zmem_In in Hi. rewrite Hi in D. discriminate.
Qed.
Lemma std_set nodes M o d v : std_keys nodes M -> In o (map nd_id nodes) -> In d (map nd_id nodes) ->
  std_keys nodes (dict2_set M o d v).
Proof.
  intros S Ho Hd i. unfold dict2_set. destruct (Z.eq_dec i o).
  - subst. rewrite dget_dset_same by apply Zeqb_spec. split; auto. intro j.
    specialize (S o). unfold dget0. destruct (dget Z.eqb M o) as [row|] eqn:E; [|contradiction].
    destruct S as [_ S]. destruct (Z.eq_dec j d).
    + subst. rewrite dget_dset_same by apply Zeqb_spec. split; eauto.
    + rewrite dget_dset_other by (auto; apply Zeqb_spec). apply S.
  - rewrite dget_dset_other by (auto; apply Zeqb_spec). apply S.
Qed.

(** the decision rule of change_vij on standard keys *)
Lemma std_cell nodes M i j : std_keys nodes M ->
  (exists v, dict2_get M i j = Some v) <-> In i (map nd_id nodes) /\ In j (map nd_id nodes).
Proof.
  intro S. unfold dict2_get. specialize (S i). destruct (dget Z.eqb M i) as [row|].
  - rewrite (proj2 S j). tauto.
  - split; [intros [v H]; discriminate|tauto].
Qed.
Lemma change_rule nodes D o d v : std_keys nodes (dm_matrix D) ->
  change_vij D o d v =
  if Qltb v 0 then (D, Some TripsValueIsNotValidException)
  else if negb (zmem o (map nd_id nodes)) then (D, Some OriginIdDoesNotFoundException)
  else match dict2_get (dm_matrix D) o d with
       | None => (D, Some DestinationIdDoesNotFoundException)
       | Some old => (mkDemand (dm_nodes D) (dm_n D) (dict2_set (dm_matrix D) o d v) (dm_total D - old + v), None)
       end.
Proof.
  intro S. unfold change_vij, dict2_get. destruct (Qltb v 0); auto. specialize (S o).
  destruct (dget Z.eqb (dm_matrix D) o) as [row|] eqn:E.
  - destruct S as [Ho S]. rewrite (proj2 (zmem_In _ _) Ho). simpl.
    destruct row as [|c row]; auto. exfalso. apply S in Ho. destruct Ho as [w Hw]. discriminate.
  - rewrite (proj2 (zmem_nIn _ _) S). reflexivity.
Qed.

Definition dinv (nodes : list node) (n : Z) (D : demand) : Prop :=
  dm_nodes D = nodes /\ dm_n D = n /\ std_keys nodes (dm_matrix D) /\ sum_ok D.
Lemma new_dinv nodes n : dinv nodes n (new_demand nodes n).
Proof. split; [auto|]. split; [auto|]. split; [apply default_std|apply new_sum_ok]. Qed.
Lemma change_dinv nodes n D o d v : dinv nodes n D -> dinv nodes n (fst (change_vij D o d v)).
Proof.
  intros (H1 & H2 & H3 & H4). pose proof (change_sum_ok D o d v H4) as H5.
  destruct (change_vij D o d v) as [D' [e|]] eqn:E; simpl in *.
  - apply change_err in E. subst. split; auto.
  - apply change_ok in E. destruct E as (_ & old & Ho & ->).
    assert (K : In o (map nd_id nodes) /\ In d (map nd_id nodes)) by (eapply std_cell; eauto).
    split; [auto|]. split; [auto|]. split; [|auto]. simpl. apply std_set; tauto.
Qed.

(** ** Writing a list of cells *)
Definition put (D : demand) (t : Z * Z * Q) : res demand :=
  let '(o, d, v) := t in change_vij_r D o d v.
Definition tkey (t : Z * Z * Q) : Z * Z := fst t.

Lemma change_r_ok nodes n D o d v : dinv nodes n D -> In o (map nd_id nodes) -> In d (map nd_id nodes) -> 0 <= v ->
  exists D', change_vij_r D o d v = Ok D' /\ dinv nodes n D' /\
    forall i j, cell D' i j = if ((i =? o) && (j =? d))%Z then Some v else cell D i j.
Proof.
  intros I Ho Hd Hv. pose proof (change_dinv _ _ _ o d v I) as I'.
  unfold change_vij_r. destruct I as (H1 & H2 & H3 & H4).
  rewrite (change_rule nodes) in * by auto.
  rewrite (proj2 (Qltb_ge v 0) Hv) in *. rewrite (proj2 (zmem_In _ _) Ho) in *. simpl negb in *.
  destruct (proj2 (std_cell nodes (dm_matrix D) o d H3) (conj Ho Hd)) as [old E]. rewrite E in *.
  cbv iota in *. eexists; split; [reflexivity|]. split; [exact I'|].
  intros i j. unfold cell. simpl. apply dict2_get_set.
Qed.
Lemma put_cells nodes n l : forall D, dinv nodes n D ->
  (forall o d v, In (o, d, v) l -> In o (map nd_id nodes) /\ In d (map nd_id nodes) /\ 0 <= v) ->
  NoDup (map tkey l) ->
  exists D', foldM put l D = Ok D' /\ dinv nodes n D' /\
    (forall o d v, In (o, d, v) l -> cell D' o d = Some v) /\
    (forall o d, ~ In (o, d) (map tkey l) -> cell D' o d = cell D o d).
Proof.
  induction l as [|[[o d] v] l IH]; intros D I H N.
  - exists D. repeat split; auto; try apply I. intros o d v [].
  - simpl in N. inversion N as [|? ? N1 N2]; subst.
    destruct (H o d v) as (Ho & Hd & Hv); [simpl; auto|].
    destruct (change_r_ok nodes n D o d v I Ho Hd Hv) as (D1 & E1 & I1 & C1).
    destruct (IH D1 I1) as (D' & E & I' & Ca & Cb); auto.
    { intros; apply H; simpl; auto. }
    exists D'. simpl. rewrite E1. simpl. split; auto. split; auto. split.
    + intros o' d' v' [X|X]; [|auto]. inversion X; subst. rewrite Cb by auto. rewrite C1.
      rewrite !Z.eqb_refl. reflexivity.
    + intros o' d' X. simpl in X. rewrite Cb by tauto. rewrite C1.
      destruct (Z.eqb_spec o' o), (Z.eqb_spec d' d); simpl; auto. subst. tauto.
Qed.

(** ** Shape of the default matrix when ids are distinct *)
Lemma default_shape nodes : NoDup (map nd_id nodes) ->
  default_matrix nodes = map (fun o => (nd_id o, map (fun d => (nd_id d, 0)) nodes)) nodes.
Proof.
  intro N. unfold default_matrix.
  assert (G' : forall o l row M, ~ In o (map fst M) -> NoDup (map fst row ++ map nd_id l) ->
    fold_left (fun M d => dict2_set M o (nd_id d) 0) l (M ++ [(o, row)]) = M ++ [(o, row ++ map (fun d => (nd_id d, 0)) l)]).
  { intros o l. induction l as [|d l IH]; intros row M Ho Nd; simpl; [rewrite app_nil_r; auto|].
    assert (Dg : dget Z.eqb (M ++ [(o, row)]) o = Some row).
    { rewrite <- (dset_keys_notin Z.eqb Zeqb_spec) by auto. apply dget_dset_same. apply Zeqb_spec. }
    assert (St : dict2_set (M ++ [(o, row)]) o (nd_id d) 0 = M ++ [(o, row ++ [(nd_id d, 0)])]).
    { unfold dict2_set, dget0. rewrite Dg. rewrite (dset_keys_notin Z.eqb Zeqb_spec row).
      2: { simpl in Nd. apply NoDup_remove_2 in Nd. intro C. apply Nd. apply in_or_app. auto. }
      clear - Ho. induction M as [|[k x] M IH]; simpl in *; [rewrite Z.eqb_refl; auto|].
      destruct (Z.eqb_spec o k); [subst; tauto|]. f_equal. apply IH. tauto. }
    rewrite St, IH; auto.
    - rewrite <- app_assoc. reflexivity.
    - rewrite map_app, <- app_assoc. simpl. auto. }
  assert (G : forall l done, NoDup (map nd_id (done ++ l)) -> nodes <> [] ->
    fold_left (fun M o => fold_left (fun M d => dict2_set M (nd_id o) (nd_id d) 0) nodes M) l
      (map (fun o => (nd_id o, map (fun d => (nd_id d, 0)) nodes)) done) =
    map (fun o => (nd_id o, map (fun d => (nd_id d, 0)) nodes)) (done ++ l)).
  { induction l as [|o l IH]; intros done Nd NE; simpl; [rewrite app_nil_r; auto|].
    assert (Ho : ~ In (nd_id o) (map fst (map (fun o => (nd_id o, map (fun d => (nd_id d, 0)) nodes)) done))).
    { rewrite map_map. simpl. rewrite map_app in Nd. simpl in Nd. apply NoDup_remove_2 in Nd.
      intro C. apply Nd. apply in_or_app. auto. }
    assert (St : fold_left (fun M d => dict2_set M (nd_id o) (nd_id d) 0) nodes
       (map (fun o => (nd_id o, map (fun d => (nd_id d, 0)) nodes)) done) =
       map (fun o => (nd_id o, map (fun d => (nd_id d, 0)) nodes)) (done ++ [o])).
    { rewrite map_app. cbn [map]. generalize dependent (map (fun o => (nd_id o, map (fun d => (nd_id d, 0)) nodes)) done).
      intros M Ho. clear IH Nd. revert N NE. destruct nodes as [|d ns]; [contradiction|]. intros N _. cbn [fold_left map].
      unfold dict2_set at 2. unfold dget0. rewrite (proj2 (dget_None Z.eqb Zeqb_spec _ _) Ho).
      rewrite (dset_keys_notin Z.eqb Zeqb_spec _ _ _ Ho). cbn [dset].
      rewrite G'; auto. }
    rewrite St, IH; auto.
    - rewrite <- app_assoc. reflexivity.
    - rewrite <- app_assoc. auto. }
  destruct nodes as [|x xs] eqn:En; [reflexivity|]. rewrite <- En in *.
  apply (G nodes []); auto. subst; discriminate.
Qed.

Definition id_pairs (nodes : list node) : list (node * node) := list_prod nodes nodes.

Lemma default_cell_keys nodes : NoDup (map nd_id nodes) ->
  cell_keys (default_matrix nodes) = map (fun p => (nd_id (fst p), nd_id (snd p))) (id_pairs nodes).
Proof.
  intro N. rewrite default_shape by auto. unfold cell_keys, id_pairs.
  assert (G : forall l, flat_map (fun r => map (fun c : Z * Q => (fst r, fst c)) (snd r))
      (map (fun o => (nd_id o, map (fun d => (nd_id d, 0)) nodes)) l)
    = map (fun p => (nd_id (fst p), nd_id (snd p))) (list_prod l nodes)).
  { induction l as [|o l IH]; simpl; auto.
    rewrite map_app. f_equal; auto. rewrite !map_map. reflexivity. }
  apply G.
Qed.

(** key skeleton of a matrix *)
Definition skel (M : dict2) : list (Z * list Z) := map (fun r => (fst r, map fst (snd r))) M.
Lemma dset_skel M i row row' : dget Z.eqb M i = Some row -> map fst row' = map fst row ->
  skel (dset Z.eqb M i row') = skel M.
Proof.
  intros H E. induction M as [|[k x] M IH]; simpl in *; [discriminate|].
  destruct (i =? k)%Z; simpl.
  - inversion H; subst. rewrite E. reflexivity.
  - f_equal. auto.
Qed.
Lemma dict2_set_skel M o d v old : dict2_get M o d = Some old -> skel (dict2_set M o d v) = skel M.
Proof.
  unfold dict2_get, dict2_set, dget0. destruct (dget Z.eqb M o) as [row|] eqn:E; [|discriminate].
  intro H. eapply dset_skel; eauto. apply dset_keys_in; [apply Zeqb_spec|].
  apply (dget_Some_key Z.eqb Zeqb_spec). eauto.
Qed.
Lemma put_skel l : forall D D', foldM put l D = Ok D' -> skel (dm_matrix D') = skel (dm_matrix D).
Proof.
  induction l as [|[[o d] v] l IH]; intros D D' H; simpl in H; [congruence|].
  apply bind_ok in H. destruct H as [D1 [H1 H2]]. rewrite (IH _ _ H2).
  unfold change_vij_r in H1. destruct (change_vij D o d v) as [D2 [e|]] eqn:E; [discriminate|].
  inversion H1; subst. apply change_ok in E. destruct E as (_ & old & Ho & ->). simpl.
  eapply dict2_set_skel; eauto.
Qed.

Definition cellv (D : demand) (i j : Z) : Q := match cell D i j with Some v => v | None => 0 end.

Lemma msum_skel M (ids : list Z) : NoDup ids -> skel M = map (fun o => (o, ids)) ids ->
  msum M == Qsumf (fun o => Qsumf (fun d => match dict2_get M o d with Some v => v | None => 0 end) ids) ids.
Proof.
  intros N S.
  assert (R : forall row, map fst row = ids -> rsum row == Qsumf (fun d => match dget Z.eqb row d with Some v => v | None => 0 end) ids).
  { intros row E. rewrite <- E in *. clear E S ids. unfold rsum. change (Qsum (map snd row)) with (Qsumf snd row).
    rewrite Qsumf_map. apply Qsumf_ext. intros [k v] Hx. simpl.
    rewrite (In_dget Z.eqb Zeqb_spec row k v) by auto. reflexivity. }
  assert (G : forall L Mall, (forall r, In r L -> dget Z.eqb Mall (fst r) = Some (snd r) /\ map fst (snd r) = ids) ->
     msum L == Qsumf (fun o => Qsumf (fun d => match dict2_get Mall o d with Some v => v | None => 0 end) ids) (map fst L)).
  { induction L as [|r L IH]; intros Mall H; simpl; [reflexivity|].
    rewrite msum_cons, (IH Mall) by (intros; apply H; simpl; auto).
    rewrite Qsumf_cons. destruct (H r (or_introl eq_refl)) as [H1 H2].
    unfold dict2_get at 2. rewrite H1, <- (R (snd r) H2). reflexivity. }
  assert (K : map fst M = ids).
  { assert (X : map fst (skel M) = map fst (map (fun o => (o, ids)) ids)) by congruence.
    unfold skel in X. rewrite !map_map in X. simpl in X. rewrite map_id in X.
    change (map (fun x : Z * list (Z * Q) => fst x) M) with (map fst M) in X. auto. }
  rewrite (G M M).
  - rewrite K. reflexivity.
  - intros [k row] Hr. simpl. split.
    + apply In_dget; [apply Zeqb_spec| rewrite K; auto | auto].
    + assert (X : In (k, map fst row) (skel M)).
      { unfold skel. apply in_map_iff. exists (k, row). auto. }
      rewrite S in X. apply in_map_iff in X. destruct X as (o & X & _). inversion X; auto.
Qed.

Lemma skel_default nodes : NoDup (map nd_id nodes) ->
  skel (default_matrix nodes) = map (fun o => (o, map nd_id nodes)) (map nd_id nodes).
Proof.
  intro N. rewrite default_shape by auto. unfold skel. rewrite !map_map. apply map_ext. intro o. simpl.
  rewrite map_map. reflexivity.
Qed.

(** ** Lookup of nodes by id *)
Lemma find_last_unique nodes x : NoDup (map nd_id nodes) -> In x nodes ->
  find_last_node nodes (nd_id x) = Some x.
Proof.
  intros N H. unfold find_last_node.
  assert (G : forall l acc, ~ In (nd_id x) (map nd_id l) ->
    fold_left (fun acc n => if (nd_id n =? nd_id x)%Z then Some n else acc) l acc = acc).
  { induction l as [|y l IH]; intros acc Hn; simpl in *; auto.
    destruct (Z.eqb_spec (nd_id y) (nd_id x)); [tauto|]. apply IH. tauto. }
  apply in_split in H. destruct H as (l1 & l2 & ->). rewrite fold_left_app. simpl.
  rewrite Z.eqb_refl. apply G. rewrite map_app in N. simpl in N. apply NoDup_remove_2 in N.
  intro C. apply N. apply in_or_app. auto.
Qed.

Lemma demand_validator_iff y a alpha beta b :
  demand_validator y a alpha beta = Ok b <-> b = true /\ valid_demand_params y a alpha beta.
Proof.
  unfold demand_validator, valid_demand_params. rewrite !raise_if_iff. rewrite !orb_false_iff.
  split.
  - intros (H1 & (H2 & H3) & (H4 & H5) & (H6 & H7) & H8 & H9). qb. inversion H9. intuition auto; lra.
  - intros (-> & H1 & H2 & H3 & H4 & H5).
    assert (A : Qltb y 0 = false) by (apply Qltb_ge; lra).
    assert (A1 : Qltb 1 a = false) by (apply Qltb_ge; lra).
    assert (A2 : Qltb a 0 = false) by (apply Qltb_ge; lra).
    assert (A3 : Qltb 1 alpha = false) by (apply Qltb_ge; lra).
    assert (A4 : Qltb alpha 0 = false) by (apply Qltb_ge; lra).
    assert (A5 : Qleb 1 beta = false) by (apply Qleb_gt; lra).
    assert (A6 : Qltb beta 0 = false) by (apply Qltb_ge; lra).
    assert (A7 : Qltb 1 (alpha + beta) = false) by (apply Qltb_ge; lra).
    intuition auto.
Qed.

(** ** The parametric demand *)
Definition val (s : shares) (o d : node) : option Q :=
  match nd_kind o, nd_kind d with
  | Periphery, CBD => Some (s_p_cbd s)
  | Periphery, Subcenter => Some (if (nd_zone o =? nd_zone d)%Z then s_p_sc s else s_p_osc s)
  | Subcenter, CBD => Some (s_sc_cbd s)
  | Subcenter, Subcenter => if (nd_zone o =? nd_zone d)%Z then None else Some (s_sc_osc s)
  | _, _ => None
  end.
Definition val_cells (s : shares) (p : node * node) : list (Z * Z * Q) :=
  match val s (fst p) (snd p) with
  | Some v => [(nd_id (fst p), nd_id (snd p), v)]
  | None => []
  end.

Lemma bind_ok_id {A} (r : res A) : (let* x := r in Ok x) = r.
Proof. destruct r; reflexivity. Qed.

Lemma param_cell_val nodes n s D o d : dinv nodes n D -> NoDup (map nd_id nodes) -> In o nodes -> In d nodes ->
  param_cell s D (nd_id o, nd_id d) = foldM put (val_cells s (o, d)) D.
Proof.
  intros (H1 & _) N Ho Hd. unfold param_cell. rewrite H1, !find_last_unique by auto.
  unfold val_cells, val. simpl. unfold same_zone, is_kind.
  destruct (nd_kind o), (nd_kind d); simpl; try reflexivity; rewrite ?bind_ok_id; try reflexivity;
    destruct (nd_zone o =? nd_zone d)%Z; simpl; rewrite ?bind_ok_id; try reflexivity.
Qed.

Lemma id_pairs_NoDup nodes : NoDup (map nd_id nodes) ->
  NoDup (map (fun p => (nd_id (fst p), nd_id (snd p))) (id_pairs nodes)).
Proof.
  intro N. unfold id_pairs.
  assert (G : forall l, NoDup (map nd_id l) ->
     NoDup (map (fun p => (nd_id (fst p), nd_id (snd p))) (list_prod l nodes))).
  { induction l as [|o l IH]; intro Nl; simpl; [constructor|].
    inversion Nl; subst. rewrite map_app. apply NoDup_app; auto.
    - rewrite map_map. simpl. change (fun x : node => (nd_id o, nd_id x)) with (fun x : node => (fun k => (nd_id o, k)) (nd_id x)).
      rewrite <- (map_map nd_id (fun k => (nd_id o, k))). apply NoDup_map_inj; auto. intros; congruence.
    - intros [i j] Ha Hb. rewrite map_map in Ha. apply in_map_iff in Ha. destruct Ha as (x & Ea & _).
      apply in_map_iff in Hb. destruct Hb as ([p q] & Eb & Hp). apply in_prod_iff in Hp.
      simpl in *. inversion Ea; inversion Eb; subst. apply H1. replace (nd_id o) with (nd_id p) by congruence. apply in_map. tauto. }
  apply G; auto.
Qed.

Lemma NoDup_sub_flat s l :
  NoDup (map (fun p => (nd_id (fst p), nd_id (snd p))) l) ->
  NoDup (map tkey (flat_map (val_cells s) l)) /\
  (forall k, In k (map tkey (flat_map (val_cells s) l)) -> In k (map (fun p => (nd_id (fst p), nd_id (snd p))) l)).
Proof.
  induction l as [|[o d] l IH]; intro N; simpl; [split; [constructor|tauto]|].
  simpl in N. inversion N; subst. destruct (IH H2) as [IH1 IH2]. rewrite map_app.
  unfold val_cells at 1 3. simpl. destruct (val s o d) as [v|]; simpl.
  - split; [constructor; auto|]. intros k [K|K]; auto.
  - split; auto.
Qed.

Lemma param_demand_run nodes n s : NoDup (map nd_id nodes) ->
  (forall o d v, In o nodes -> In d nodes -> val s o d = Some v -> 0 <= v) ->
  exists D, foldM (param_cell s) (cell_keys (default_matrix nodes)) (new_demand nodes n) = Ok D /\
    dinv nodes n D /\ skel (dm_matrix D) = map (fun o => (o, map nd_id nodes)) (map nd_id nodes) /\
    forall o d, In o nodes -> In d nodes ->
      cell D (nd_id o) (nd_id d) = Some (match val s o d with Some v => v | None => 0 end).
Proof.
  intros N Hv. rewrite default_cell_keys by auto.
  assert (E : foldM (param_cell s) (map (fun p => (nd_id (fst p), nd_id (snd p))) (id_pairs nodes)) (new_demand nodes n)
            = foldM put (flat_map (val_cells s) (id_pairs nodes)) (new_demand nodes n)).
  { rewrite foldM_flat.
    assert (M : forall l D, (forall p, In p l -> In (fst p) nodes /\ In (snd p) nodes) -> dinv nodes n D ->
       foldM (param_cell s) (map (fun p => (nd_id (fst p), nd_id (snd p))) l) D =
       foldM (fun D p => foldM put (val_cells s p) D) l D).
    { induction l as [|[o d] l IH]; intros D Hl I; [reflexivity|]. cbn [map foldM fst snd].
      destruct (Hl (o, d)) as [Ho Hd]; [simpl; auto|]. simpl in Ho, Hd.
      rewrite (param_cell_val nodes n) by auto.
      destruct (foldM put (val_cells s (o, d)) D) as [D1|e] eqn:E1; [|reflexivity]. simpl.
      apply IH; [intros; apply Hl; simpl; auto|].
      unfold val_cells in E1. simpl in E1. destruct (val s o d) as [v|] eqn:Ev; simpl in E1; [|congruence].
      rewrite bind_ok_id in E1.
      destruct (change_r_ok nodes n D (nd_id o) (nd_id d) v I) as (D2 & E2 & I2 & _);
        try (apply in_map; auto). { eauto. } congruence. }
    apply M; [|apply new_dinv]. intros [o d] Hp. apply in_prod_iff in Hp. auto. }
  rewrite E.
  destruct (NoDup_sub_flat s (id_pairs nodes) (id_pairs_NoDup nodes N)) as [Nk Sub].
  destruct (put_cells nodes n (flat_map (val_cells s) (id_pairs nodes)) (new_demand nodes n)) as (D & ED & I & Ca & Cb); auto.
  - apply new_dinv.
  - intros o d v Hin. apply in_flat_map in Hin. destruct Hin as ([a b] & Hp & Hx).
    apply in_prod_iff in Hp. unfold val_cells in Hx. simpl in Hx. destruct (val s a b) as [w|] eqn:Ew; [|contradiction].
    destruct Hx as [Hx|[]]. inversion Hx; subst. split; [apply in_map; tauto|]. split; [apply in_map; tauto|].
    apply (Hv a b); tauto.
  - exists D. split; auto. split; auto. split.
    + rewrite (put_skel _ _ _ ED). apply skel_default. auto.
    + intros o d Ho Hd. destruct (val s o d) as [v|] eqn:Ev.
      * apply Ca. apply in_flat_map. exists (o, d). split; [apply in_prod_iff; auto|].
        unfold val_cells. simpl. rewrite Ev. simpl. auto.
      * rewrite Cb.
        -- unfold cell. simpl. rewrite default_get.
           rewrite (proj2 (zmem_In (nd_id o) _)) by (apply in_map; auto).
           rewrite (proj2 (zmem_In (nd_id d) _)) by (apply in_map; auto). reflexivity.
        -- intro C. apply in_map_iff in C. destruct C as ([[i j] v] & Ek & Hin). unfold tkey in Ek. simpl in Ek.
           inversion Ek; subst. apply in_flat_map in Hin. destruct Hin as ([a b] & Hp & Hx).
           apply in_prod_iff in Hp. unfold val_cells in Hx. simpl in Hx.
           destruct (val s a b) as [w|] eqn:Ew; [|contradiction]. destruct Hx as [Hx|[]]. inversion Hx; subst.
           assert (a = o). { 
             pose proof (find_last_unique nodes a N ltac:(tauto)) as F1.
             pose proof (find_last_unique nodes o N Ho) as F2. congruence. }
           assert (b = d). { pose proof (find_last_unique nodes b N ltac:(tauto)) as F1.
             pose proof (find_last_unique nodes d N Hd) as F2. congruence. }
           subst. congruence.
Qed.

Lemma Qofnat_eq n : Qofnat n = inject_Z (Z.of_nat n).
Proof. reflexivity. Qed.
Lemma Qofnat_ne0 n : (0 < n)%nat -> ~ Qofnat n == 0.
Proof. intros H C. pose proof (Qofnat_pos n H). lra. Qed.
Lemma inject_pred n : (1 <= n)%nat -> inject_Z (Z.of_nat n - 1) == Qofnat n - 1.
Proof.
  intro H. unfold Qofnat. replace (Z.of_nat n - 1)%Z with (Z.of_nat n + (-1))%Z by lia.
  rewrite inject_Z_plus. reflexivity.
Qed.

Lemma Qofnat_ge2 n : (2 <= n)%nat -> 0 < Qofnat n - 1.
Proof.
  intro H. rewrite <- inject_pred by lia. change 0 with (inject_Z 0). rewrite <- Zlt_Qlt. lia.
Qed.
Lemma Qdiv_zero x d : d == 0 -> x / d == 0.
Proof. intro H. unfold Qdiv. rewrite H. change (/ 0) with 0. ring. Qed.

Lemma shares_spec n y a alpha beta : (1 <= n)%nat -> valid_demand_params y a alpha beta ->
  exists s, compute_shares (Z.of_nat n) y a alpha beta = Ok s /\
    (forall o d, match val s o d with Some v => v | None => 0 end == documented_trips n y a alpha beta o d) /\
    0 <= s_p_cbd s /\ 0 <= s_p_sc s /\ 0 <= s_p_osc s /\ 0 <= s_sc_cbd s /\ 0 <= s_sc_osc s.
Proof.
  intros Hn (Hy & Ha & Hal & Hb & Hab). unfold compute_shares.
  assert (NZ : (Z.of_nat n =? 0)%Z = false) by (apply Z.eqb_neq; lia). rewrite NZ.
  rewrite <- Qofnat_eq. rewrite (qdiv_ok y (Qofnat n)) by (apply Qofnat_ne0; lia).
  assert (Yz : 0 <= y / Qofnat n).
  { apply Qle_shift_div_l; [apply Qofnat_pos; lia|lra]. }
  destruct (Z.ltb_spec 1 (Z.of_nat n)) as [L|L].
  - assert (N1 : Nat.eqb n 1 = false) by (apply Nat.eqb_neq; lia).
    rewrite (qdiv_ok alpha) by lra. rewrite (qdiv_ok (1 - alpha - beta)) by lra. cbn [bind].
    assert (P1 : 0 < inject_Z (Z.of_nat n - 1)).
    { change 0 with (inject_Z 0). rewrite <- Zlt_Qlt. lia. }
    rewrite qdiv_ok by lra. cbn [bind]. rewrite qdiv_ok by lra. cbn [bind].
    eexists; split; [reflexivity|]. split.
    + intros o d. unfold val, documented_trips. rewrite N1. simpl.
      pose proof (inject_pred n Hn) as IP.
      destruct (nd_kind o), (nd_kind d); try reflexivity; destruct (nd_zone o =? nd_zone d)%Z;
        try reflexivity; rewrite IP; try reflexivity.
    + simpl.
      assert (G : 0 <= (1 - alpha - beta) / (1 - beta)) by (apply Qle_shift_div_l; lra).
      assert (A : 0 <= alpha / (1 - beta)) by (apply Qle_shift_div_l; lra).
      repeat split.
      * apply Qmult_le_0_compat; [lra|]. apply Qmult_le_0_compat; lra.
      * apply Qmult_le_0_compat; [lra|]. apply Qmult_le_0_compat; lra.
      * apply Qle_shift_div_l; auto. ring_simplify (0 * inject_Z (Z.of_nat n - 1)).
        apply Qmult_le_0_compat; [lra|]. apply Qmult_le_0_compat; lra.
      * apply Qmult_le_0_compat; [|lra]. apply Qmult_le_0_compat; lra.
      * apply Qle_shift_div_l; auto. ring_simplify (0 * inject_Z (Z.of_nat n - 1)).
        apply Qmult_le_0_compat; [|lra]. apply Qmult_le_0_compat; lra.
  - assert (n = 1%nat) by lia. subst n. cbn [bind].
    eexists; split; [reflexivity|]. split.
    + intros o d. unfold val, documented_trips. cbn [s_p_cbd s_p_sc s_p_osc s_sc_cbd s_sc_osc Nat.eqb].
      destruct (nd_kind o), (nd_kind d); try reflexivity; destruct (nd_zone o =? nd_zone d)%Z;
        try reflexivity; try (rewrite (Qdiv_zero _ (Qofnat 1 - 1)) by reflexivity; ring);
        change (Qofnat 1) with 1; ring.
    + simpl. repeat split.
      * apply Qmult_le_0_compat; [lra|]. apply Qmult_le_0_compat; lra.
      * apply Qmult_le_0_compat; [lra|]. apply Qmult_le_0_compat; lra.
      * lra.
      * apply Qmult_le_0_compat; [|lra]. apply Qmult_le_0_compat; lra.
      * lra.
Qed.

Lemma Qsumf_flat2 (f : node -> Q) (A B : nat -> node) l :
  Qsumf f (flat_map (fun z => [A z; B z]) l) == Qsumf (fun z => f (A z) + f (B z)) l.
Proof.
  induction l as [|z l IH]; simpl; [reflexivity|]. rewrite !Qsumf_cons, IH. lra.
Qed.
Lemma Qsumf_one l z x w : NoDup l -> In z l ->
  Qsumf (fun z' : nat => if Nat.eqb z z' then x else w) l == x + (Qofnat (length l) - 1) * w.
Proof.
  induction l as [|a l IH]; intros N H; [contradiction|]. inversion N; subst.
  rewrite Qsumf_cons. cbn [length]. rewrite Qofnat_S. destruct H as [H|H].
  - subst. rewrite Nat.eqb_refl.
    rewrite (Qsumf_ext _ (fun _ => w)).
    + rewrite Qsumf_const. ring.
    + intros b Hb. destruct (Nat.eqb_spec z b); [subst; contradiction|reflexivity].
  - rewrite IH by auto. destruct (Nat.eqb_spec z a); [subst; contradiction|]. ring.
Qed.

Section Layout.
  Variables (n : nat) (nodes : list node) (y a alpha beta : Q).
  Hypothesis (Hn : (1 <= n)%nat).
  Hypothesis (V : valid_demand_params y a alpha beta).
  Variables (c : node) (P S : nat -> node).
  Hypothesis En : nodes = c :: flat_map (fun z => [P z; S z]) (seq 1 n).
  Hypothesis Kc : nd_kind c = CBD.
  Hypothesis Kz : forall z, In z (seq 1 n) ->
       nd_kind (P z) = Periphery /\ nd_kind (S z) = Subcenter /\
       nd_zone (P z) = Z.of_nat z /\ nd_zone (S z) = Z.of_nat z.
  Notation T := (documented_trips n y a alpha beta).

  Lemma row_c : Qsumf (T c) nodes == 0.
  Proof. apply Qsumf_zero. intros x _. unfold documented_trips. rewrite Kc. reflexivity. Qed.

  Lemma zeqb_nat x z : (Z.of_nat x =? Z.of_nat z)%Z = Nat.eqb x z.
  Proof. destruct (Nat.eqb_spec x z), (Z.eqb_spec (Z.of_nat x) (Z.of_nat z)); auto; lia. Qed.

  Lemma row_P z : In z (seq 1 n) -> Qsumf (T (P z)) nodes == a * (y / Qofnat n).
  Proof.
    intro Hz. destruct (Kz z Hz) as (K1 & K2 & K3 & K4). rewrite En, Qsumf_cons, Qsumf_flat2.
    rewrite (Qsumf_ext _ (fun z' => if Nat.eqb z z'
        then (if Nat.eqb n 1 then 1 - alpha else beta) * (a * (y / Qofnat n))
        else (1 - alpha - beta) * (a * (y / Qofnat n)) / (Qofnat n - 1))).
    - rewrite Qsumf_one by (auto using seq_NoDup). rewrite seq_length.
      unfold documented_trips. rewrite K1, Kc.
      destruct (Nat.eqb_spec n 1) as [E|E].
      + rewrite E. rewrite (Qdiv_zero _ (Qofnat 1 - 1)) by reflexivity. ring.
      + assert (X : ~ Qofnat n - 1 == 0).
        { pose proof (Qofnat_ge2 n ltac:(lia)). lra. }
        field; repeat split; solve [exact X | apply Qofnat_ne0; lia | lra].
    - intros z' Hz'. destruct (Kz z' Hz') as (L1 & L2 & L3 & L4).
      unfold documented_trips. rewrite K1, L1, L2, K3, L4, zeqb_nat. destruct (Nat.eqb z z'); ring.
  Qed.

  Lemma row_S z : In z (seq 1 n) -> Qsumf (T (S z)) nodes == (1 - a) * (y / Qofnat n).
  Proof.
    intro Hz. destruct (Kz z Hz) as (K1 & K2 & K3 & K4). rewrite En, Qsumf_cons, Qsumf_flat2.
    rewrite (Qsumf_ext _ (fun z' => if Nat.eqb z z' then 0
        else (1 - a) * (y / Qofnat n) * ((1 - alpha - beta) / (1 - beta)) / (Qofnat n - 1))).
    - rewrite Qsumf_one by (auto using seq_NoDup). rewrite seq_length.
      unfold documented_trips. rewrite K2, Kc. destruct V as (_ & _ & _ & Hb & _).
      destruct (Nat.eqb_spec n 1) as [E|E].
      + rewrite E. rewrite (Qdiv_zero _ (Qofnat 1 - 1)) by reflexivity. ring.
      + assert (X : ~ Qofnat n - 1 == 0).
        { pose proof (Qofnat_ge2 n ltac:(lia)). lra. }
        field; repeat split; solve [exact X | apply Qofnat_ne0; lia | lra].
    - intros z' Hz'. destruct (Kz z' Hz') as (L1 & L2 & L3 & L4).
      unfold documented_trips. rewrite K2, L1, L2, K4, L4, zeqb_nat. destruct (Nat.eqb z z'); ring.
  Qed.

  Lemma total_T : Qsumf (fun o => Qsumf (T o) nodes) nodes == y.
  Proof.
    enough (X : forall l, l = nodes -> Qsumf (fun o => Qsumf (T o) nodes) l == y) by auto.
    intros l El. rewrite En in El. rewrite El, Qsumf_cons, row_c, Qsumf_flat2.
    rewrite (Qsumf_ext _ (fun _ => y / Qofnat n)).
    - rewrite Qsumf_const, seq_length. field. apply Qofnat_ne0. lia.
    - intros z Hz. rewrite row_P, row_S by auto. ring.
  Qed.
End Layout.

(** a parametric city has the layout *)
Lemma parametric_layout G P C : build_from_parameters G P = Ok C ->
  city_layout (Z.to_nat (p_n P)) (g_nodes (c_graph C)).
Proof.
  intro H. destruct (city_facts _ _ _ H) as (Va & _ & c & Pf & Sf & Sh & HC & HP & HS). split.
  - assert (E : map nd_id (g_nodes (c_graph C)) = map Z.of_nat (seq 0 (length (g_nodes (c_graph C))))).
    { apply nth_error_ext. intro i. rewrite !nth_error_map.
      destruct (nth_error (g_nodes (c_graph C)) i) as [nd|] eqn:Ei.
      - pose proof (city_id_ref _ _ _ _ _ H Ei) as I. simpl. rewrite I.
        assert (L : (i < length (g_nodes (c_graph C)))%nat) by (apply nth_error_Some; congruence).
        rewrite nth_error_nth' with (d := 0%nat) by (rewrite seq_length; auto).
        rewrite seq_nth by auto. reflexivity.
      - apply nth_error_None in Ei. rewrite (proj2 (nth_error_None _ _)); auto. rewrite seq_length. auto. }
    rewrite E. apply NoDup_map_inj; [intros; lia | apply seq_NoDup].
  - rewrite (sh_nodes _ _ _ _ _ Sh). unfold city_nodes.
    exists c, (fun z => Pf (pred z)), (fun z => Sf (pred z)). split.
    + f_equal. rewrite <- seq_shift.
      generalize (seq 0 (Z.to_nat (p_n P))). intro l. induction l; simpl; auto. f_equal. f_equal. auto.
    + split; [apply HC|]. intros z Hz. apply in_seq in Hz. 
      destruct (HP (pred z)) as (A1 & _ & A3 & _). destruct (HS (pred z)) as (B1 & _ & B3 & _).
      rewrite A1, A3, B1, B3. repeat split; auto; lia.
Qed.

(** ** build_from_content *)
Definition content_triples (nodes : list node) (m : list (list Q)) : list (Z * Z * Q) :=
  flat_map (fun ir => map (fun jv => (nd_id (fst ir), nd_id (fst jv), snd jv)) (combine nodes (snd ir)))
           (combine nodes m).

Lemma foldM_seq {A S} (f : S -> nat -> res S) (g : S -> A -> res S) (l : list A) : forall k s,
  (forall s j x, nth_error l j = Some x -> f s (k + j)%nat = g s x) ->
  foldM f (seq k (length l)) s = foldM g l s.
Proof.
  induction l as [|x l IH]; intros k s H; [reflexivity|]. simpl.
  rewrite <- (H s 0%nat x eq_refl). rewrite Nat.add_0_r. destruct (f s k) as [s'|e]; [|reflexivity]. simpl.
  apply IH. intros s0 j y Hj. rewrite <- (H s0 (Datatypes.S j) y Hj). f_equal. lia.
Qed.
Lemma foldM_ok_each {A S} (f : S -> A -> res S) l : forall s s', foldM f l s = Ok s' ->
  forall x, In x l -> exists s1 s2, f s1 x = Ok s2.
Proof.
  induction l as [|x l IH]; intros s s' H y Hy; [contradiction|]. simpl in H. apply bind_ok in H.
  destruct H as [s1 [H1 H2]]. destruct Hy as [->|Hy]; eauto.
Qed.
Lemma nth_error_combine {A B} (l : list A) (m : list B) j a b :
  nth_error (combine l m) j = Some (a, b) <-> nth_error l j = Some a /\ nth_error m j = Some b.
Proof.
  revert m j. induction l as [|x l IH]; intros [|z m] [|j]; simpl; try (split; [discriminate|intros [? ?]; discriminate]).
  - split; [intro H; inversion H; auto | intros [H1 H2]; congruence].
  - apply IH.
Qed.

Lemma content_iff1 nodes n m D : demand_from_content nodes n m = Ok D -> square_nonneg (length nodes) m.
Proof.
  unfold demand_from_content. intro H. apply raise_if_ok in H. destruct H as [H1 H2].
  apply negb_false_iff, Nat.eqb_eq in H1. split; auto. intros row Hr.
  apply In_nth_error in Hr. destruct Hr as [i Hi].
  assert (Li : (i < length m)%nat) by (apply nth_error_Some; congruence).
  destruct (foldM_ok_each _ _ _ _ H2 i) as (s1 & s2 & E); [apply in_seq; lia|].
  unfold content_row in E. unfold py_nth in E at 1. rewrite Hi in E. cbn [bind] in E. apply raise_if_ok in E.
  destruct E as [E1 E2]. apply negb_false_iff, Nat.eqb_eq in E1. split; auto. intros v Hv.
  apply In_nth_error in Hv. destruct Hv as [j Hj].
  assert (Lj : (j < length row)%nat) by (apply nth_error_Some; congruence).
  destruct (foldM_ok_each _ _ _ _ E2 j) as (t1 & t2 & F); [apply in_seq; lia|].
  unfold content_cell in F. apply bind_ok in F. destruct F as [o [_ F]]. apply bind_ok in F. destruct F as [d [_ F]].
  unfold py_nth in F. rewrite Hj in F. cbn [bind] in F. apply raise_if_ok in F. destruct F as [F _]. qb. auto.
Qed.

Lemma content_as_put nodes n m : square_nonneg (length nodes) m ->
  demand_from_content nodes n m = foldM put (content_triples nodes m) (new_demand nodes n).
Proof.
  intros [L H]. unfold demand_from_content. rewrite L, Nat.eqb_refl. simpl. unfold content_triples.
  rewrite foldM_flat.
  assert (Lc : length (combine nodes m) = length nodes) by (rewrite combine_length; lia).
  rewrite <- Lc. apply foldM_seq. intros D i [o row] Hi. simpl.
  apply nth_error_combine in Hi. destruct Hi as [Ho Hr].
  unfold content_row, py_nth. rewrite Hr. cbn [bind].
  destruct (H row) as [Lr Hv]; [eapply nth_error_In; eauto|]. rewrite Lr, Nat.eqb_refl. simpl.
  assert (Lc' : length (map (fun jv : node * Q => (nd_id o, nd_id (fst jv), snd jv)) (combine nodes row)) = length nodes).
  { rewrite map_length, combine_length. lia. }
  rewrite <- Lc'. apply foldM_seq. intros D' j t Hj. rewrite nth_error_map in Hj.
  destruct (nth_error (combine nodes row) j) as [[d v]|] eqn:Ej; [|discriminate]. simpl in Hj. inversion Hj; subst.
  apply nth_error_combine in Ej. destruct Ej as [Hd Hjv].
  unfold content_cell, py_nth. rewrite Nat.add_0_l, Ho, Hd, Hjv. cbn [bind].
  rewrite (proj2 (Qltb_ge v 0)); [reflexivity|]. apply Hv. eapply nth_error_In; eauto.
Qed.

Lemma content_triples_In nodes m o d v : In (o, d, v) (content_triples nodes m) <->
  exists i j no nd' row, nth_error nodes i = Some no /\ nth_error nodes j = Some nd' /\ nth_error m i = Some row /\
    nth_error row j = Some v /\ o = nd_id no /\ d = nd_id nd'.
Proof.
  unfold content_triples. rewrite in_flat_map. split.
  - intros ([no row] & H1 & H2). apply In_nth_error in H1. destruct H1 as [i Hi]. apply nth_error_combine in Hi.
    apply in_map_iff in H2. destruct H2 as ([nd' w] & E & H2). apply In_nth_error in H2. destruct H2 as [j Hj].
    apply nth_error_combine in Hj. simpl in *. inversion E; subst. exists i, j, no, nd', row. intuition.
  - intros (i & j & no & nd' & row & H1 & H2 & H3 & H4 & -> & ->). exists (no, row). split.
    + apply nth_error_In with i. apply nth_error_combine. auto.
    + apply in_map_iff. exists (nd', v). split; auto. apply nth_error_In with j. apply nth_error_combine. auto.
Qed.

Lemma content_triples_NoDup nodes m : NoDup (map nd_id nodes) -> NoDup (map tkey (content_triples nodes m)).
Proof.
  intro N. unfold content_triples.
  assert (G : forall l (m : list (list Q)), NoDup (map nd_id l) ->
    NoDup (map tkey (flat_map (fun ir => map (fun jv => (nd_id (fst ir), nd_id (fst jv), snd jv)) (combine nodes (snd ir))) (combine l m)))
    /\ forall k, In k (map tkey (flat_map (fun ir => map (fun jv => (nd_id (fst ir), nd_id (fst jv), snd jv)) (combine nodes (snd ir))) (combine l m)))
         -> In (fst k) (map nd_id l)).
  { induction l as [|o l IH]; intros [|row m'] Nl; simpl; try (split; [constructor|tauto]).
    inversion Nl; subst. destruct (IH m' H2) as [I1 I2]. rewrite map_app, map_map. split.
    - apply NoDup_app; auto.
      + clear - N. revert row. induction nodes as [|d ns IHn]; intros [|v row]; simpl; try constructor.
        * inversion N; subst. intro C. apply in_map_iff in C. destruct C as ([d' v'] & E & C). unfold tkey in E. simpl in E.
          apply in_combine_l in C. inversion E. apply H1. apply in_map_iff. exists d'. auto.
        * inversion N; subst. apply IHn. auto.
      + intros k Ha Hb. apply I2 in Hb. apply in_map_iff in Ha. destruct Ha as (x & E & _). subst k.
        unfold tkey in Hb. simpl in Hb. contradiction.
    - intros k Hk. apply in_app_or in Hk. destruct Hk as [Hk|Hk]; [|right; auto].
      apply in_map_iff in Hk. destruct Hk as (x & E & _). subst k. left. reflexivity. }
  apply (G nodes m N).
Qed.

Lemma Qsum_flat_map {A} (g : A -> list Q) l : Qsum (flat_map g l) == Qsumf (fun x => Qsum (g x)) l.
Proof. induction l; simpl; [reflexivity|]. rewrite Qsum_app, IHl, Qsumf_cons. reflexivity. Qed.

Lemma put_total nodes n l : forall D D', dinv nodes n D ->
  (forall o d v, In (o, d, v) l -> cell D o d = Some 0) -> NoDup (map tkey l) ->
  foldM put l D = Ok D' -> dm_total D' == dm_total D + Qsumf snd l.
Proof.
  induction l as [|[[o d] v] l IH]; intros D D' I Z N H; simpl in H.
  - inversion H; subst. unfold Qsumf. simpl. lra.
  - apply bind_ok in H. destruct H as [D1 [H1 H2]]. simpl in N. inversion N; subst.
    pose proof (change_dinv nodes n D o d v I) as I1.
    unfold change_vij_r in H1. destruct (change_vij D o d v) as [D2 [e|]] eqn:E; [discriminate|].
    inversion H1; subst D2. simpl in I1. apply change_ok in E. destruct E as (_ & old & Ho & ED).
    rewrite (IH D1 D' I1); auto.
    + assert (X : old = 0). { specialize (Z o d v (or_introl eq_refl)). unfold cell in Z. congruence. }
      rewrite Qsumf_cons, ED, X. simpl. lra.
    + intros o' d' v' Hin. rewrite ED. unfold cell. simpl. rewrite dict2_get_set.
      destruct (Z.eqb_spec o' o), (Z.eqb_spec d' d); simpl; try (apply (Z o' d' v'); simpl; auto).
      subst. exfalso. apply H3. apply in_map_iff. exists (o, d, v'). auto.
Qed.

Lemma content_ok nodes n m : NoDup (map nd_id nodes) -> square_nonneg (length nodes) m ->
  exists D, demand_from_content nodes n m = Ok D /\ dinv nodes n D /\
    (forall i j no nd' row v, nth_error nodes i = Some no -> nth_error nodes j = Some nd' ->
       nth_error m i = Some row -> nth_error row j = Some v -> cell D (nd_id no) (nd_id nd') = Some v) /\
    dm_total D == Qsum (concat m).
Proof.
  intros N Sq. rewrite (content_as_put _ _ _ Sq).
  pose proof (content_triples_NoDup nodes m N) as Nk.
  destruct (put_cells nodes n (content_triples nodes m) (new_demand nodes n)) as (D & E & I & Ca & _); auto.
  - apply new_dinv.
  - intros o d v H. apply content_triples_In in H.
    destruct H as (i & j & no & nd' & row & H1 & H2 & H3 & H4 & -> & ->).
    split; [apply in_map; eapply nth_error_In; eauto|]. split; [apply in_map; eapply nth_error_In; eauto|].
    destruct Sq as [_ Sq]. destruct (Sq row) as [_ Hv]; [eapply nth_error_In; eauto|].
    apply Hv. eapply nth_error_In; eauto.
  - exists D. split; auto. split; auto. split.
    + intros i j no nd' row v H1 H2 H3 H4. apply Ca. apply content_triples_In. exists i, j, no, nd', row. repeat split; auto.
    + rewrite (put_total nodes n _ _ _ (new_dinv nodes n)) with (2 := Nk) (3 := E).
      * change (dm_total (new_demand nodes n)) with 0. rewrite Qplus_0_l.
        destruct Sq as [L Sq]. clear - L Sq. unfold content_triples.
        assert (G : forall l (m : list (list Q)), length m = length l -> (forall row, In row m -> length row = length nodes) ->
          Qsumf snd (flat_map (fun ir => map (fun jv => (nd_id (fst ir), nd_id (fst jv), snd jv)) (combine nodes (snd ir))) (combine l m))
          == Qsum (concat m)).
        { induction l as [|o l IH]; intros [|row m'] L' H'; simpl in *; try discriminate; [reflexivity|].
          rewrite Qsumf_app, Qsum_app, IH by auto. rewrite Qsumf_map. simpl.
          assert (R : Qsumf (fun x : node * Q => snd x) (combine nodes row) == Qsum row).
          { assert (Lr : length row = length nodes) by (apply H'; auto). clear - Lr. revert row Lr.
            induction nodes as [|x ns IHn]; intros [|v row] Lr; simpl in *; try discriminate; [reflexivity|].
            rewrite Qsumf_cons. simpl. rewrite IHn by lia. reflexivity. }
          rewrite R. reflexivity. }
        apply G; auto. intros row Hr. apply (Sq row Hr).
      * intros o d v H. apply content_triples_In in H.
        destruct H as (i & j & no & nd' & row & H1 & H2 & H3 & H4 & -> & ->).
        unfold cell. simpl. rewrite default_get.
        rewrite (proj2 (zmem_In (nd_id no) _)) by (apply in_map; eapply nth_error_In; eauto).
        rewrite (proj2 (zmem_In (nd_id nd') _)) by (apply in_map; eapply nth_error_In; eauto). reflexivity.
Qed.

(** ** Text files *)
Definition nonneg (D : demand) : Prop := forall i j v, cell D i j = Some v -> 0 <= v.
Lemma dset_same {V} (M : list (Z * V)) k v : dget Z.eqb M k = Some v -> dset Z.eqb M k v = M.
Proof.
  induction M as [|[k' v'] M IH]; simpl; [discriminate|].
  destruct (k =? k')%Z; intro H; [congruence|]. f_equal. auto.
Qed.
Lemma read_known_id nodes D o d : std_keys nodes (dm_matrix D) -> In o (map nd_id nodes) -> In d (map nd_id nodes) ->
  fst (read_cell D o d) = D.
Proof.
  intros S Ho Hd. destruct D as [ns n M t]. simpl in *. specialize (S o).
  destruct (dget Z.eqb M o) as [row|] eqn:E; [|contradiction]. destruct S as [_ S].
  apply S in Hd. destruct Hd as [v Hv].
  unfold dtouch, dget0. rewrite E, E, Hv. rewrite dset_same by auto. reflexivity.
Qed.
Lemma read_row_known nodes D o : std_keys nodes (dm_matrix D) -> In o (map nd_id nodes) -> read_row D o = D.
Proof.
  intros S Ho. destruct D as [ns n M t]. unfold read_row. simpl in *. specialize (S o).
  unfold dtouch. destruct (dget Z.eqb M o); [reflexivity|contradiction].
Qed.
Lemma changes_inv nodes n ops : known_reads nodes ops ->
  let D := drun (new_demand nodes n) ops in
  dinv nodes n D /\ nonneg D /\ skel (dm_matrix D) = skel (default_matrix nodes).
Proof.
  unfold drun. assert (G : forall ops D, known_reads nodes ops ->
     dinv nodes n D -> nonneg D -> skel (dm_matrix D) = skel (default_matrix nodes) ->
     let D := fold_left dstep ops D in dinv nodes n D /\ nonneg D /\ skel (dm_matrix D) = skel (default_matrix nodes)).
  { clear ops. induction ops as [|op ops IH]; intros D Ch I Nn Sk; simpl; auto.
    assert (Hop := Ch op (or_introl eq_refl)).
    assert (Ch' : known_reads nodes ops) by (intros x Hx; apply Ch; simpl; auto).
    destruct op as [o d v|o|o d]; simpl in Hop |- *.
    2: { rewrite (read_row_known nodes) by (auto; apply I). apply IH; auto. }
    2: { destruct Hop as [Ho Hd]. pose proof (read_known_id nodes D o d) as R. simpl in R. rewrite R by (auto; apply I). apply IH; auto. }
    apply IH; auto.
    - apply change_dinv; auto.
    - destruct (change_vij D o d v) as [D' [e|]] eqn:E; simpl.
      + apply change_err in E. subst. auto.
      + apply change_ok in E. destruct E as (Hv & old & Ho & ->). intros i j w. unfold cell. simpl.
        rewrite dict2_get_set. destruct ((i =? o) && (j =? d))%Z; intro H; [inversion H; subst; auto|eapply Nn; eauto].
    - destruct (change_vij D o d v) as [D' [e|]] eqn:E; simpl.
      + apply change_err in E. subst. auto.
      + apply change_ok in E. destruct E as (Hv & old & Ho & ->). simpl. rewrite <- Sk. eapply dict2_set_skel; eauto. }
  intro Ch. apply G; auto using new_dinv.
  intros i j v. unfold cell. simpl. rewrite default_get. destruct (zmem i (map nd_id nodes) && zmem j (map nd_id nodes)); [|discriminate].
  intro H; inversion H; subst. lra.
Qed.

Lemma not_char_of_get c s : (forall i, String.get i s <> Some c) -> PyStrFacts.sall (PyStrFacts.not_char c) s = true.
Proof.
  intro H. apply PyStrFacts.sall_get. intros i a Hi. unfold PyStrFacts.not_char.
  destruct (Ascii.eqb_spec a c); auto. subst. exfalso. eapply H; eauto.
Qed.

Lemma read_csv_line F o d v : floatio_ok F -> exists v', v' == v /\
  forall D, read_line F D (csv_line F (o, d, v)) = put D (o, d, v').
Proof.
  intro Fo. destruct (Fo v) as [(v' & Ev & Eq) Nc]. exists v'. split; auto. intro D.
  unfold read_line, csv_line.
  assert (Cz : forall z, PyStrFacts.sall (PyStrFacts.not_char ",") (str_of_Z z) = true).
  { intro z. apply PyStrFacts.sall_impl with (p := PyStrFacts.int_char); [|apply PyStrFacts.str_of_Z_chars].
    intros a Ha. unfold PyStrFacts.not_char. rewrite PyStrFacts.int_char_not_comma; auto. }
  simpl String.append. 
  rewrite (PyStrFacts.split_on_cons ","%char (str_of_Z o)) by auto.
  rewrite (PyStrFacts.split_on_cons ","%char (str_of_Z d)) by auto.
  rewrite PyStrFacts.split_on_none.
  - rewrite !PyStrFacts.int_of_str_of_Z, Ev. reflexivity.
  - rewrite PyStrFacts.sall_app. apply andb_true_iff. split; [|reflexivity]. apply not_char_of_get. auto.
Qed.

Lemma read_csv_lines F rows : floatio_ok F -> exists rows',
  Forall2 (fun t t' => tkey t' = tkey t /\ snd t' == snd t) rows rows' /\
  forall D, foldM (read_line F) (map (csv_line F) rows) D = foldM put rows' D.
Proof.
  intro Fo. induction rows as [|[[o d] v] rows IH].
  - exists []. split; auto.
  - destruct IH as (rows' & H1 & H2). destruct (read_csv_line F o d v Fo) as (v' & Eq & H).
    exists ((o, d, v') :: rows'). split; [constructor; auto|].
    intro D. cbn [map foldM]. rewrite H. destruct (put D (o, d, v')); simpl; auto.
Qed.

Lemma Forall2_in_r {A B} (R : A -> B -> Prop) l l' b : Forall2 R l l' -> In b l' -> exists a, In a l /\ R a b.
Proof.
  intro H. induction H; simpl; [tauto|]. intros [->|Hb]; [eauto|]. destruct (IHForall2 Hb) as (a & ? & ?). eauto.
Qed.
Lemma Forall2_in_l {A B} (R : A -> B -> Prop) l l' a : Forall2 R l l' -> In a l -> exists b, In b l' /\ R a b.
Proof.
  intro H. induction H; simpl; [tauto|]. intros [->|Ha]; [eauto|]. destruct (IHForall2 Ha) as (b & ? & ?). eauto.
Qed.

Lemma matrix_rows_keys M : map tkey (matrix_rows M) = cell_keys M.
Proof.
  unfold matrix_rows, cell_keys. induction M as [|r M IH]; simpl; auto.
  rewrite map_app, IH, map_map. reflexivity.
Qed.
Lemma cell_keys_skel M M' : skel M = skel M' -> cell_keys M = cell_keys M'.
Proof.
  assert (E : forall M, cell_keys M = flat_map (fun r => map (fun c => (fst r, c)) (snd r)) (skel M)).
  { induction M0 as [|r M0 IH]; simpl; auto. unfold cell_keys in *. simpl. rewrite IH, map_map. reflexivity. }
  intro H. rewrite !E, H. reflexivity.
Qed.

Lemma skel_cell M ids o d v : NoDup ids -> skel M = map (fun o => (o, ids)) ids ->
  In (o, d, v) (matrix_rows M) <-> dict2_get M o d = Some v.
Proof.
  intros N Sk. unfold matrix_rows, dict2_get. rewrite in_flat_map.
  assert (K : map fst M = ids).
  { assert (X : map fst (skel M) = map fst (map (fun o => (o, ids)) ids)) by congruence.
    unfold skel in X. rewrite !map_map in X. simpl in X. rewrite map_id in X. exact X. }
  assert (R : forall k row, In (k, row) M -> map fst row = ids).
  { intros k row H. assert (X : In (k, map fst row) (skel M)) by (unfold skel; apply in_map_iff; exists (k, row); auto).
    rewrite Sk in X. apply in_map_iff in X. destruct X as (o' & X & _). inversion X; auto. }
  split.
  - intros ([k row] & H1 & H2). apply in_map_iff in H2. destruct H2 as ([k' v'] & E & H2). simpl in *. inversion E; subst.
    rewrite (In_dget Z.eqb Zeqb_spec M o row) by (rewrite ?K; auto).
    apply In_dget; [apply Zeqb_spec| |auto]. rewrite (R o row) by auto. auto.
  - intro H. destruct (dget Z.eqb M o) as [row|] eqn:E; [|discriminate].
    apply (dget_In Z.eqb Zeqb_spec) in E. apply (dget_In Z.eqb Zeqb_spec) in H.
    exists (o, row). split; auto. apply in_map_iff. exists (d, v). auto.
Qed.

Lemma csv_round_trip F nodes n ops : floatio_ok F -> NoDup (map nd_id nodes) -> known_reads nodes ops ->
  let D := drun (new_demand nodes n) ops in
  exists D', demand_from_lines F nodes n (matrix_to_lines F D) = Ok D' /\
    (forall i j, match cell D i j, cell D' i j with
                 | Some v, Some v' => v' == v
                 | None, None => True
                 | _, _ => False end) /\
    dm_total D' == dm_total D.
Proof.
  intros Fo N Ch D. destruct (changes_inv nodes n ops Ch) as (I & Nn & Sk). fold D in I, Nn, Sk.
  rewrite (skel_default nodes N) in Sk.
  unfold demand_from_lines, matrix_to_lines. simpl tl.
  destruct (read_csv_lines F (matrix_rows (dm_matrix D)) Fo) as (rows' & H1 & H2). rewrite H2.
  assert (K : map tkey rows' = map tkey (matrix_rows (dm_matrix D))).
  { clear - H1. induction H1; simpl; auto. destruct H. congruence. }
  assert (Nk : NoDup (map tkey rows')).
  { rewrite K, matrix_rows_keys. rewrite (cell_keys_skel _ (default_matrix nodes)).
    - rewrite default_cell_keys by auto. apply id_pairs_NoDup. auto.
    - rewrite skel_default by auto. auto. }
  assert (Cl : forall o d v', In (o, d, v') rows' -> exists v, cell D o d = Some v /\ v' == v).
  { intros o d v' H. destruct (Forall2_in_r _ _ _ _ H1 H) as ([[o0 d0] v] & Ha & Hb & Hc).
    unfold tkey in Hb. simpl in Hb, Hc. inversion Hb; subst. exists v. split; auto.
    apply (skel_cell _ _ _ _ _ N Sk). auto. }
  destruct (put_cells nodes n rows' (new_demand nodes n)) as (D' & E & I' & Ca & _); auto.
  - apply new_dinv.
  - intros o d v' H. destruct (Cl o d v' H) as (v & Hv & Eq).
    assert (X : In o (map nd_id nodes) /\ In d (map nd_id nodes)).
    { destruct I as (_ & _ & I & _). eapply std_cell; eauto. }
    split; [tauto|]. split; [tauto|]. rewrite Eq. eapply Nn; eauto.
  - exists D'. split; auto.
    assert (R : forall i j, match cell D i j, cell D' i j with
                 | Some v, Some v' => v' == v
                 | None, None => True
                 | _, _ => False end).
    { intros i j. destruct (cell D i j) as [v|] eqn:Ev.
      - assert (X : In (i, j, v) (matrix_rows (dm_matrix D))) by (apply (skel_cell _ _ _ _ _ N Sk); auto).
        destruct (Forall2_in_l _ _ _ _ H1 X) as ([[o d] v'] & Ha & Hb & Hc). unfold tkey in Hb. simpl in Hb, Hc.
        inversion Hb; subst. rewrite (Ca i j v' Ha). auto.
      - destruct (cell D' i j) as [v'|] eqn:Ev'; auto.
        destruct I as (_ & _ & I & _). destruct I' as (_ & _ & I' & _).
        assert (X : In i (map nd_id nodes) /\ In j (map nd_id nodes)) by (eapply (std_cell nodes (dm_matrix D')); eauto).
        apply (std_cell nodes (dm_matrix D)) in X; auto. destruct X as [w Hw]. unfold cell in Ev. congruence. }
    split; auto.
    destruct I as (_ & _ & _ & Is). destruct I' as (_ & _ & _ & Is'). unfold sum_ok in Is, Is'. rewrite Is, Is'.
    rewrite (msum_skel (dm_matrix D) _ N Sk).
    assert (Sk' : skel (dm_matrix D') = map (fun o => (o, map nd_id nodes)) (map nd_id nodes)).
    { rewrite (put_skel _ _ _ E). apply skel_default. auto. }
    rewrite (msum_skel (dm_matrix D') _ N Sk').
    apply Qsumf_ext. intros o _. apply Qsumf_ext. intros d _. specialize (R o d). unfold cell in R.
    destruct (dict2_get (dm_matrix D) o d), (dict2_get (dm_matrix D') o d); auto; try contradiction. reflexivity.
Qed.
