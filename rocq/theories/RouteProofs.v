(** * RouteProofs: lemmas about lines and networks *)
From Coq Require Import String Ascii List ZArith QArith Bool Lia.
From Verif Require Import PyBase PyFacts PyStr PyStrFacts Graph GraphSpec GraphProofs Mode ModeSpec Props_Mode Route Network RouteSpec.
Import ListNotations.
Local Open Scope Z_scope.

(** ** Texts *)
Definition no_comma (w : string) : Prop := sall (not_char ",") w = true.
Lemma no_comma_spec w : no_comma w <-> (forall i a, String.get i w = Some a -> a <> ","%char).
Proof.
  unfold no_comma. rewrite sall_get. unfold not_char. split; intros H i a G.
  - intro C. subst. specialize (H i _ G). rewrite Ascii.eqb_refl in H. discriminate.
  - destruct (Ascii.eqb_spec a ","%char); auto. exfalso. eapply H; eauto.
Qed.
Lemma no_comma_str z : no_comma (str_of_Z z).
Proof.
  unfold no_comma. eapply sall_impl; [|apply str_of_Z_chars]. intros a H. unfold not_char.
  rewrite int_char_not_comma; auto.
Qed.
Lemma split_concat toks : toks <> [] -> (forall w, In w toks -> no_comma w) ->
  split_on "," (String.concat "," toks) = toks.
Proof.
  induction toks as [|w toks IH]; intros N H; [congruence|]. destruct toks as [|w2 toks].
  - simpl. apply split_on_none. apply H. simpl; auto.
  - change (String.concat "," (w :: w2 :: toks)) with (String.append w (String "," (String.concat "," (w2 :: toks)))).
    rewrite split_on_cons by (apply H; simpl; auto). f_equal. apply IH; [congruence|]. intros; apply H; right; auto.
Qed.
Lemma concat_split s : String.concat "," (split_on "," s) = s /\ (forall w, In w (split_on "," s) -> no_comma w) /\ split_on "," s <> [].
Proof.
  induction s as [|a s (IH1 & IH2 & IH3)]; simpl.
  - split; auto. split; [|congruence]. intros w [<-|[]]. reflexivity.
  - destruct (Ascii.eqb_spec a ","%char).
    + subst. destruct (split_on "," s) as [|w ws] eqn:E; [congruence|]. split; [|split; [|congruence]].
      * change (String.append EmptyString (String "," (String.concat "," (w :: ws))) = String "," s). rewrite IH1. reflexivity.
      * intros x [<-|Hx]; [reflexivity|auto].
    + destruct (split_on "," s) as [|w ws] eqn:E; [congruence|]. split; [|split; [|congruence]].
      * destruct ws; simpl in *; f_equal; auto.
      * intros x [<-|Hx]; [|apply IH2; simpl; auto]. unfold no_comma. simpl. unfold not_char at 1.
        destruct (Ascii.eqb_spec a ","%char); [congruence|]. simpl. apply IH2. simpl; auto.
Qed.
Lemma mapM_Forall2 {A B} (f : A -> res B) l ys : mapM f l = Ok ys <-> Forall2 (fun x y => f x = Ok y) l ys.
Proof.
  revert ys. induction l as [|x l IH]; intros ys; simpl.
  - split; [intro H; inversion H; constructor | intro H; inversion H; auto].
  - split.
    + intro H. apply bind_ok in H. destruct H as (y & E & H). apply bind_ok in H. destruct H as (ys' & E' & H).
      inversion H; subst. constructor; auto. apply IH; auto.
    + intro H. inversion H; subst. rewrite H2. simpl. apply IH in H4. rewrite H4. reflexivity.
Qed.
Lemma Forall2_impl' {A B} (P Q : A -> B -> Prop) l m : (forall a b, P a b -> Q a b) -> Forall2 P l m -> Forall2 Q l m.
Proof. induction 2; constructor; auto. Qed.
Lemma parses_iff s l : parses s l <-> blank_arg s = false /\ sequences_to_list s = Ok l.
Proof.
  split.
  - intros (t & toks & -> & N & N2 & -> & Hc & F). destruct (String.concat "," toks) as [|a t] eqn:E; [congruence|].
    split; auto. unfold sequences_to_list. rewrite <- E. rewrite split_concat; auto.
    + apply mapM_Forall2. eapply Forall2_impl'; [|exact F]. simpl. intros x y ->. reflexivity.
    + intros w Hw. apply no_comma_spec. intros; eapply Hc; eauto.
  - intros [B H]. destruct s as [[|a t]|]; try discriminate.
    destruct (concat_split (String a t)) as (E & Hc & N). exists (String a t), (split_on "," (String a t)).
    split; auto. split; [congruence|]. split; auto. split; auto. split.
    + intros w i c Hw Hg. eapply no_comma_spec; eauto.
    + unfold sequences_to_list in H. apply mapM_Forall2 in H. eapply Forall2_impl'; [|exact H]. simpl.
      intros x y Hx. destruct (int_of_str x); congruence.
Qed.

Lemma append_cons a s t : String.append (String a s) t = String a (String.append s t).
Proof. reflexivity. Qed.
Lemma seq_str_aux l acc : acc <> EmptyString ->
  fold_left (fun line z =>
    match line with
    | EmptyString => String.append line (str_of_Z z)
    | _ => String.append line (String.append "," (str_of_Z z))
    end) l acc = match l with [] => acc | _ => String.append acc (String.append "," (String.concat "," (map str_of_Z l))) end.
Proof.
  revert acc. induction l as [|z l IH]; intros acc N; [reflexivity|]. cbn [fold_left].
  destruct acc as [|a acc]; [congruence|]. rewrite IH by (rewrite append_cons; congruence).
  destruct l as [|z2 l]; [reflexivity|]. cbn [map String.concat]. rewrite !append_assoc. reflexivity.
Qed.
Lemma sequences_to_string_concat l : sequences_to_string l = String.concat "," (map str_of_Z l).
Proof.
  destruct l as [|z l]; [reflexivity|]. unfold sequences_to_string. cbn [fold_left]. cbn [String.append].
  rewrite seq_str_aux by apply str_of_Z_nonempty. destruct l; reflexivity.
Qed.
Lemma concat_nonempty l : l <> [] -> String.concat "," (map str_of_Z l) <> EmptyString.
Proof.
  destruct l as [|z l]; [congruence|]. intros _. pose proof (str_of_Z_nonempty z) as N.
  destruct l as [|z2 l]; cbn [map String.concat]; auto. destruct (str_of_Z z); [congruence|]. rewrite append_cons. congruence.
Qed.
Lemma to_list_concat l : sequences_to_list (Some (String.concat "," (map str_of_Z l))) = Ok l.
Proof.
  destruct l as [|z l]; [reflexivity|]. pose proof (concat_nonempty (z :: l) ltac:(congruence)) as N.
  unfold sequences_to_list. destruct (String.concat "," (map str_of_Z (z :: l))) eqn:E; [congruence|]. rewrite <- E.
  rewrite split_concat.
  - apply mapM_Forall2. clear. induction (z :: l) as [|x m IH]; constructor; auto. rewrite int_of_str_of_Z. reflexivity.
  - destruct l; discriminate.
  - intros w Hw. apply in_map_iff in Hw. destruct Hw as (x & <- & _). apply no_comma_str.
Qed.

(** ** Validators *)
Lemma last_nth {A} (l : list A) x : py_nth l (length l - 1) = Ok x <-> exists t, l = t ++ [x].
Proof.
  unfold py_nth. split.
  - intro H. destruct (nth_error l (length l - 1)) as [y|] eqn:E; [|discriminate]. inversion H; subst.
    destruct l as [|a l] using rev_ind; [simpl in E; discriminate|].
    rewrite app_length in E. simpl in E. rewrite nth_error_app2 in E by lia.
    replace (length l + 1 - 1 - length l)%nat with 0%nat in E by lia. simpl in E. inversion E; subst. eauto.
  - intros [t ->]. rewrite app_length. simpl. rewrite nth_error_app2 by lia.
    replace (length t + 1 - 1 - length t)%nat with 0%nat by lia. reflexivity.
Qed.
Lemma stops_validator_iff nodes stops b : stops_validator nodes stops = Ok b <->
  b = true /\ incl stops nodes /\ exists x y, starts nodes x /\ starts stops x /\ ends nodes y /\ ends stops y.
Proof.
  unfold stops_validator. destruct stops as [|s0 st] eqn:Es.
  - split; [discriminate|]. intros (_ & _ & x & y & _ & [t C] & _). discriminate.
  - rewrite <- Es. rewrite raise_if_iff. rewrite negb_false_iff, forallb_forall. split.
    + intros [F H]. apply bind_ok in H. destruct H as (n0 & E0 & H). apply raise_if_iff in H. destruct H as [Q0 H].
      apply bind_ok in H. destruct H as (nl & El & H). apply bind_ok in H. destruct H as (sl & Esl & H).
      apply raise_if_iff in H. destruct H as [Ql H]. apply negb_false_iff in Q0. apply negb_false_iff in Ql.
      apply Z.eqb_eq in Q0. apply Z.eqb_eq in Ql. subst n0 sl. apply last_nth in El. apply last_nth in Esl.
      inversion H; subst b. split; auto. split; [intros x Hx; apply zmem_In; auto|].
      exists s0, nl. unfold starts, ends. split; [|split; [eauto|split; auto]].
      destruct nodes; [discriminate|]. unfold py_nth in E0. simpl in E0. inversion E0; subst. eauto.
    + intros (-> & I & x & y & [t Ht] & [t2 Ht2] & [t3 Ht3] & [t4 Ht4]).
      split; [intros z Hz; apply zmem_In; auto|]. rewrite Es in Ht2. inversion Ht2; subst s0 t2.
      rewrite Ht at 1. unfold py_nth at 1. cbn [nth_error bind]. rewrite Z.eqb_refl. cbn [negb raise_if].
      assert (E1 : py_nth nodes (length nodes - 1) = Ok y) by (apply last_nth; eauto). rewrite E1. cbn [bind].
      assert (E2 : py_nth stops (length stops - 1) = Ok y) by (apply last_nth; eauto). subst stops. rewrite E2. cbn [bind].
      rewrite Z.eqb_refl. reflexivity.
Qed.
Lemma direction_validator_iff ni nr b : direction_validator ni nr = Ok b <->
  b = true /\ exists x y, starts ni x /\ ends ni y /\ starts nr y /\ ends nr x.
Proof.
  unfold direction_validator. destruct ni as [|i0 ti] eqn:Ei.
  { split; [discriminate|]. intros (_ & x & y & [t C] & _). discriminate. }
  destruct nr as [|r0 tr] eqn:Er.
  { split; [discriminate|]. intros (_ & x & y & _ & _ & [t C] & _). discriminate. }
  rewrite <- Ei, <- Er. split.
  - intro H. apply bind_ok in H. destruct H as (rl & Erl & H). apply bind_ok in H. destruct H as (il & Eil & H).
    apply raise_if_iff in H. destruct H as [Hc H]. apply orb_false_iff in Hc. destruct Hc as [H1 H2].
    apply negb_false_iff in H1. apply negb_false_iff in H2. apply Z.eqb_eq in H1. apply Z.eqb_eq in H2. subst rl il.
    apply last_nth in Erl. apply last_nth in Eil. inversion H; subst b. split; auto.
    exists i0, r0. split; [exists ti; exact Ei|]. split; [exact Eil|]. split; [exists tr; exact Er|exact Erl].
  - intros (-> & x & y & [t1 H1] & [t2 H2] & [t3 H3] & [t4 H4]).
    assert (E1 : py_nth nr (length nr - 1) = Ok x) by (apply last_nth; eauto).
    assert (E2 : py_nth ni (length ni - 1) = Ok y) by (apply last_nth; eauto).
    rewrite E1. cbn [bind]. rewrite E2. cbn [bind]. rewrite Ei in H1. rewrite Er in H3.
    inversion H1; inversion H3; subst i0 r0. rewrite !Z.eqb_refl. reflexivity.
Qed.
Lemma occurrences_cons x y l : occurrences x (y :: l) = ((if (x =? y)%Z then 1 else 0) + occurrences x l)%nat.
Proof. unfold occurrences. simpl. destruct (x =? y)%Z; reflexivity. Qed.
Lemma occurrences_0 x l : occurrences x l = 0%nat <-> ~ In x l.
Proof.
  induction l as [|y l IH]; [simpl; unfold occurrences; simpl; tauto|]. rewrite occurrences_cons. simpl.
  destruct (Z.eqb_spec x y); cbn [Nat.add]; split; intro H.
  - discriminate.
  - exfalso. apply H. auto.
  - apply IH in H. intros [C|C]; [congruence|auto].
  - apply IH. tauto.
Qed.
Lemma sequences_validator_iff l b : sequences_validator l = Ok b <-> b = true /\ NoDup l.
Proof.
  unfold sequences_validator. rewrite raise_if_iff, existsb_false.
  assert (G : (forall x, In x l -> (1 <? occurrences x l)%nat = false) <-> NoDup l).
  { induction l as [|y l IH]; [split; [constructor|intros _ x []]|]. split.
    - intro H. constructor.
      + intro C. specialize (H y (or_introl eq_refl)). rewrite occurrences_cons, Z.eqb_refl in H.
        apply Nat.ltb_ge in H. assert (occurrences y l = 0)%nat by lia. apply occurrences_0 in H0. auto.
      + apply IH. intros x Hx. specialize (H x (or_intror Hx)). rewrite occurrences_cons in H.
        apply Nat.ltb_ge in H. apply Nat.ltb_ge. destruct (x =? y); lia.
    - intro N. inversion N; subst. intros x [<-|Hx]; rewrite occurrences_cons.
      + rewrite Z.eqb_refl. apply occurrences_0 in H1. rewrite H1. reflexivity.
      + destruct (Z.eqb_spec x y); [subst; contradiction|]. simpl. apply IH; auto. }
  rewrite G. split; intros [A B]; split; auto; congruence.
Qed.
Lemma starts_inj l x y : starts l x -> starts l y -> x = y.
Proof. intros [t H1] [t' H2]. congruence. Qed.
Lemma ends_inj l x y : ends l x -> ends l y -> x = y.
Proof. intros [t H1] [t' H2]. rewrite H1 in H2. apply app_inj_tail in H2. tauto. Qed.
Lemma route_validator_iff a b c d r : blank_arg a = false -> blank_arg b = false -> blank_arg c = false -> blank_arg d = false ->
  route_validator a b c d = Ok r <-> r = true /\ exists ni nr si sr, parses a ni /\ parses b nr /\ parses c si /\ parses d sr /\ valid_line ni nr si sr.
Proof.
  intros Ba Bb Bc Bd. unfold route_validator. split.
  - intro H. apply bind_ok in H. destruct H as (ni & E1 & H). apply bind_ok in H. destruct H as (nr & E2 & H).
    apply bind_ok in H. destruct H as (si & E3 & H). apply bind_ok in H. destruct H as (sr & E4 & H).
    apply bind_ok in H. destruct H as (b1 & V1 & H). apply bind_ok in H. destruct H as (b2 & V2 & H).
    apply bind_ok in H. destruct H as (b3 & V3 & H). apply bind_ok in H. destruct H as (b4 & V4 & H).
    apply direction_validator_iff in V1. apply stops_validator_iff in V2. apply stops_validator_iff in V3.
    apply sequences_validator_iff in V4. apply sequences_validator_iff in H.
    destruct V1 as (_ & x & y & X1 & X2 & X3 & X4). destruct V2 as (_ & I2 & x2 & y2 & Y1 & Y2 & Y3 & Y4).
    destruct V3 as (_ & I3 & x3 & y3 & Z1 & Z2 & Z3 & Z4). destruct H as [-> N2]. destruct V4 as [_ N1].
    assert (x2 = x) by exact (starts_inj _ _ _ Y1 X1). assert (y2 = y) by exact (ends_inj _ _ _ Y3 X2).
    assert (x3 = y) by exact (starts_inj _ _ _ Z1 X3). assert (y3 = x) by exact (ends_inj _ _ _ Z3 X4). subst.
    split; auto. exists ni, nr, si, sr. rewrite !parses_iff. repeat (split; auto).
    exists x, y. repeat (split; auto).
  - intros (-> & ni & nr & si & sr & P1 & P2 & P3 & P4 & (x & y & X1 & X2 & X3 & X4 & Y1 & Y2 & Z1 & Z2) & N1 & N2 & I1 & I2).
    apply parses_iff in P1. apply parses_iff in P2. apply parses_iff in P3. apply parses_iff in P4.
    destruct P1 as [_ ->], P2 as [_ ->], P3 as [_ ->], P4 as [_ ->]. cbn [bind].
    assert (V1 : direction_validator ni nr = Ok true) by (apply direction_validator_iff; split; auto; exists x, y; auto).
    assert (V2 : stops_validator ni si = Ok true) by (apply stops_validator_iff; repeat (split; auto); exists x, y; auto).
    assert (V3 : stops_validator nr sr = Ok true) by (apply stops_validator_iff; repeat (split; auto); exists y, x; auto).
    assert (V4 : sequences_validator ni = Ok true) by (apply sequences_validator_iff; auto).
    assert (V5 : sequences_validator nr = Ok true) by (apply sequences_validator_iff; auto).
    rewrite V1, V2, V3, V4, V5. reflexivity.
Qed.

(** ** Arcs of a sequence *)
Lemma arcs_of_cons2 a b t : arcs_of (a :: b :: t) = (a, b) :: arcs_of (b :: t).
Proof. reflexivity. Qed.
Lemma arcs_consecutive l a b : In (a, b) (arcs_of l) <-> consecutive l a b.
Proof.
  unfold consecutive. induction l as [|x l IH].
  - simpl. split; [tauto|]. intros ([|] & l2 & C); discriminate.
  - destruct l as [|y l].
    + simpl. split; [tauto|]. intros ([|z [|]] & l2 & C); discriminate.
    + rewrite arcs_of_cons2. split.
      * intros [H|H]; [inversion H; subst; exists [], l; auto|]. apply IH in H. destruct H as (l1 & l2 & E).
        exists (x :: l1), l2. rewrite E. reflexivity.
      * intros ([|z l1] & l2 & E); simpl in E; inversion E; subst; [left; auto|]. right. apply IH. eauto.
Qed.
Lemma edges_validator_iff g l b : edges_validator g l = Ok b <-> b = true /\ on_arcs g l.
Proof.
  unfold edges_validator. rewrite raise_if_iff, existsb_false. unfold on_arcs. split.
  - intros [H E]. inversion E. split; auto. intros a c Hc. apply arcs_consecutive in Hc.
    specialize (H _ Hc). apply negb_false_iff in H. exact H.
  - intros [-> H]. split; auto. intros [a c] Hc. simpl. apply negb_false_iff. apply H. apply arcs_consecutive. auto.
Qed.
Lemma edges_validator_not_false g l : edges_validator g l <> Ok false.
Proof. intro H. apply edges_validator_iff in H. destruct H. discriminate. Qed.
