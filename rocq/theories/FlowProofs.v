(** * FlowProofs: the passengers recorded while a strategy is expanded *)
From Coq Require Import String List ZArith QArith Bool Lia Lqa Qfield.
From Verif Require Import PyBase PyFacts Graph GraphProofs Mode Route ExtGraph ExtSpec ExtProofs Hyperpath HyperSpec HyperProofs HyperOpt Props_Hyper Assignment AssignSpec OdFacts FlowSpec TableProofs.
Import ListNotations.
Local Open Scope Q_scope.

Definition ev : Type := enode * enode * Q.
(** the loop of spread, keeping what it records *)
Fixpoint evs (fuel : nat) (X : xgraph) (f : fdict) (suc : enode -> list xedge) (dest : option enode) (paths : list ev) : res (list ev) :=
  match paths with
  | [] => Ok []
  | (i, j, pax) :: rest =>
      match fuel with
      | O => Err NonTermination
      | S k =>
          let* q := dis_pax X f suc i j pax in
          let* l := evs k X f suc dest (if stop_of_dest X dest j then rest else rest ++ map (fun e => (j, x_j e, q)) (suc j)) in
          Ok ((i, j, q) :: l)
      end
  end.
Definition record_ev (X : xgraph) (t : tables) (e : ev) : tables := record_flow X t (fst (fst e)) (snd (fst e)) (snd e).
Lemma spread_evs X f suc dest : forall fuel paths t, spread fuel X f suc dest paths t = (let* l := evs fuel X f suc dest paths in Ok (fold_left (record_ev X) l t)).
Proof.
  induction fuel as [|k IH]; intros [|[[i j] pax] rest] t; cbn [spread evs bind]; auto. destruct (dis_pax X f suc i j pax) as [q|]; cbn [bind]; auto.
  rewrite IH. destruct (evs k X f suc dest _) as [l|]; cbn [bind]; auto.
Qed.

Section Strategy.
  Context (X : xgraph) (f : fdict) (suc : enode -> list xedge) (dest : option enode) (good : enode -> Prop).
  Hypothesis EDGE : forall n x, In x (suc n) -> x_i x = n /\ edge_shape X x.
  Hypothesis NDUP : forall n, NoDup (map x_j (suc n)).
  Hypothesis GOOD : forall n x, In x (suc n) -> good (x_j x).
  Hypothesis STEP : forall n, good n -> dest <> Some n -> (exists x, suc n = [x] /\ x_f x = None) \/ (suc n <> [] /\ forall x, In x (suc n) -> x_f x <> None).
  Hypothesis RANK : exists rk : enode -> nat, forall n x, In x (suc n) -> (rk (x_j x) < rk n)%nat.
  Hypothesis CITY : exists c, dest = Some (EC c).
  Hypothesis FPOS : forall k, 0 <= freq f (rid X k).
  Hypothesis RUNS : forall n x, In x (suc n) -> x_f x <> None -> exists y k, In y (suc n) /\ x_j y = ER k /\ 0 < freq f (rid X k).

  Lemma sizes : exists sz : enode -> nat, forall n, (1 + list_sum (map (fun x => sz (x_j x)) (suc n)) <= sz n)%nat.
  Proof.
    destruct RANK as (rk & R).
    set (F := fix F (r : nat) (n : enode) : nat := match r with O => 1%nat | S r' => (1 + list_sum (map (fun x => F r' (x_j x)) (suc n)))%nat end).
    assert (ST : forall r n, (rk n <= r)%nat -> F r n = F (rk n) n).
    { assert (ST : forall m r n, (rk n <= m)%nat -> (rk n <= r)%nat -> F r n = F (rk n) n).
      { induction m as [|m IH]; intros r n Hm Hr.
        - assert (E : rk n = 0%nat) by lia. assert (N : suc n = []) by (destruct (suc n) as [|x l] eqn:Es; auto; specialize (R n x ltac:(rewrite Es; left; auto)); lia). rewrite E. destruct r; cbn [F]; auto. rewrite N. reflexivity.
        - destruct (rk n) as [|q] eqn:Eq.
          + assert (N : suc n = []) by (destruct (suc n) as [|x l] eqn:Es; auto; specialize (R n x ltac:(rewrite Es; left; auto)); lia). destruct r; cbn [F]; auto. rewrite N. reflexivity.
          + destruct r as [|r]; [lia|]. cbn [F]. f_equal. f_equal. apply map_ext_in. intros x Hx. pose proof (R n x Hx). rewrite (IH r (x_j x)) by lia. rewrite (IH q (x_j x)) by lia. reflexivity. }
      intros r n Hr. apply (ST (rk n)); lia. }
    exists (fun n => F (rk n) n). intro n. destruct (suc n) as [|x l] eqn:Es.
    - cbn. destruct (rk n); cbn [F]; lia.
    - destruct (rk n) as [|q] eqn:Eq; [specialize (R n x ltac:(rewrite Es; left; auto)); lia|]. cbn [F]. rewrite Es. apply le_n_S. apply Nat.eq_le_incl. f_equal. apply map_ext_in.
      intros y Hy. rewrite <- Es in Hy. pose proof (R n y Hy). symmetry. apply ST. lia.
  Qed.
  Definition sink (n : enode) : Prop := stop_of_dest X dest n = true.
  Definition valid (it : ev) : Prop := let '(i, j, _) := it in ~ sink i /\ exists x, In x (suc i) /\ x_j x = j.
  Lemma facum_gen : forall l a, (forall x, In x l -> exists k, x_j x = ER k) -> exists r, foldM (fun a e => match x_j e with ER k => Ok (a + freq f (rid X k)) | _ => Err AttributeError end) l a = Ok r /\ r == a + lines_freq X f l.
  Proof.
    induction l as [|x l IH]; intros a H; cbn [foldM].
    - exists a. split; auto. unfold lines_freq, Qsumf. cbn. lra.
    - destruct (H x (or_introl eq_refl)) as (k & E). rewrite E. cbn [bind]. destruct (IH (a + freq f (rid X k))) as (r & E1 & E2); [intros; apply H; right; auto|].
      exists r. split; auto. rewrite E2. unfold lines_freq. rewrite Qsumf_cons, E. lra.
  Qed.
  Lemma lines_pos n x : In x (suc n) -> x_f x <> None -> 0 < lines_freq X f (suc n).
  Proof.
    intros Hx Hf. destruct (RUNS n x Hx Hf) as (y & k' & Hy & Ey & Hp). unfold lines_freq. apply in_split in Hy. destruct Hy as (l1 & l2 & ->). rewrite Qsumf_app, Qsumf_cons, Ey.
    assert (NN : forall l, 0 <= Qsumf (fun x => match x_j x with ER k => freq f (rid X k) | _ => 0 end) l) by (intro l; apply Qsumf_nonneg; intros z _; destruct (x_j z); try lra; apply FPOS).
    pose proof (NN l1). pose proof (NN l2). lra.
  Qed.
  Lemma all_board n x s k : In x (suc n) -> x_f x <> None -> x_j x = ER k -> n = ES s -> good n -> dest <> Some n -> forall y, In y (suc n) -> exists k, x_j y = ER k.
  Proof.
    intros Hx Hf Ej En Hg Hd y Hy. destruct (STEP n Hg Hd) as [(z & Ez & Fz)|(_ & A)].
    - exfalso. rewrite Ez in Hx. destruct Hx as [<-|[]]. contradiction.
    - specialize (A y Hy). destruct (EDGE n y Hy) as [Ei Es]. unfold edge_shape in Es. rewrite Ei, En in Es. destruct (x_f y); [|congruence]. destruct (x_j y); try contradiction. eauto.
  Qed.
  Lemma boards i x k s : In x (suc i) -> x_j x = ER k -> i = ES s -> x_f x <> None.
  Proof. intros Hx Ej Ei. destruct (EDGE i x Hx) as [E1 Es]. unfold edge_shape in Es. rewrite E1, Ei, Ej in Es. destruct (x_f x); [discriminate|contradiction]. Qed.
  Lemma dis_ok i j pax x : In x (suc i) -> x_j x = j -> good i -> dest <> Some i -> exists q, dis_pax X f suc i j pax = Ok q /\ q == pax * share X f suc i j.
  Proof.
    intros Hx Ej Hg Hd. unfold dis_pax, share. destruct i as [c|s|p]; try (exists pax; split; [destruct j; reflexivity|destruct j; ring]). destruct j as [c|s'|k]; try (exists pax; split; [reflexivity|ring]).
    pose proof (boards _ _ _ _ Hx Ej eq_refl) as Hf. destruct (facum_gen (suc (ES s)) 0) as (fa & E & Efa); [eapply all_board; eauto|].
    unfold f_acum. rewrite E. cbn [bind]. pose proof (lines_pos (ES s) x Hx Hf) as Lp. rewrite qdiv_ok by lra. cbn [bind]. eexists. split; [reflexivity|]. assert (Efa' : fa == lines_freq X f (suc (ES s))) by lra. rewrite Efa'. reflexivity.
  Qed.
  Lemma share_nonneg i j x : In x (suc i) -> x_j x = j -> 0 <= share X f suc i j.
  Proof.
    intros Hx Ej. unfold share. destruct i as [c|s|p]; try lra. destruct j as [c|s'|k]; try lra. pose proof (boards _ _ _ _ Hx Ej eq_refl) as Hf. pose proof (lines_pos (ES s) x Hx Hf) as Lp.
    apply Qle_shift_div_l; auto. pose proof (FPOS k). lra.
  Qed.
  Lemma share_total n : good n -> dest <> Some n -> Qsumf (fun x => share X f suc n (x_j x)) (suc n) == 1.
  Proof.
    intros Hg Hd. destruct (STEP n Hg Hd) as [(x & Es & Fx)|(Ne & A)].
    - rewrite Es. unfold Qsumf. cbn. assert (E : share X f suc n (x_j x) == 1); [|lra]. unfold share. destruct n as [c|s|p]; try reflexivity. destruct (x_j x) as [c|s'|k] eqn:Ej; try reflexivity.
      exfalso. assert (In x (suc (ES s))) by (rewrite Es; left; auto). apply (boards _ _ _ _ H Ej eq_refl). auto.
    - destruct (suc n) as [|x0 l0] eqn:Es0; [congruence|]. rewrite <- Es0 in *. assert (H0 : In x0 (suc n)) by (rewrite Es0; left; auto). pose proof (A x0 H0) as F0. pose proof (lines_pos n x0 H0 F0) as Lp.
      assert (En : exists s, n = ES s). { destruct (EDGE n x0 H0) as [Ei Sh]. unfold edge_shape in Sh. rewrite Ei in Sh. destruct (x_f x0); [|congruence]. destruct n; try contradiction. eauto. } destruct En as [s En].
      assert (E : Qsumf (fun x => share X f suc n (x_j x)) (suc n) == Qsumf (fun x => / lines_freq X f (suc n) * (match x_j x with ER k => freq f (rid X k) | _ => 0 end)) (suc n)).
      { apply Qsumf_ext. intros x Hx. destruct (EDGE n x Hx) as [Ei Sh]. unfold edge_shape in Sh. rewrite Ei, En in Sh. pose proof (A x Hx). destruct (x_f x); [|congruence]. destruct (x_j x) as [| |k]; try contradiction. subst n. unfold share. field. lra. }
      rewrite E, Qsumf_scal. fold (lines_freq X f (suc n)). field. lra.
  Qed.
  Lemma good_dest i j x : ~ sink i -> In x (suc i) -> x_j x = j -> ~ sink j -> dest <> Some j.
  Proof.
    intros Hi Hx Ej Hj C. destruct CITY as (c & Ec). rewrite Ec in C. inversion C; subst j. destruct (EDGE i x Hx) as [Ei Sh]. unfold edge_shape in Sh. rewrite Ei, <- H0 in Sh.
    destruct (x_f x), i; try contradiction. apply Hi. unfold sink, stop_of_dest. rewrite Ec. simpl. rewrite Sh. apply Nat.eqb_refl.
  Qed.

  Definition ev_from (e : ev) : enode := fst (fst e).
  Definition ev_to (e : ev) : enode := snd (fst e).
  Definition on_edge (i j : enode) (e : ev) : Q := if enode_eqb i (ev_from e) && enode_eqb j (ev_to e) then snd e else 0.
  Definition into (i : enode) (e : ev) : Q := if enode_eqb i (ev_to e) then snd e else 0.
  Definition dis (e : ev) : Q := snd e * share X f suc (ev_from e) (ev_to e).
  Record spread_ok (paths l : list ev) : Prop := mkSO {
    so_valid : forall e, In e l -> valid e;
    so_pos : (forall e, In e paths -> 0 <= snd e) -> forall e, In e l -> 0 <= snd e;
    so_zero : (forall k j q, In (ER k, j, q) paths -> freq f (rid X k) == 0 -> q == 0) ->
        forall i j q, In (i, j, q) l -> (forall k, i = ER k -> freq f (rid X k) == 0 -> q == 0) /\ (forall k, j = ER k -> freq f (rid X k) == 0 -> q == 0);
    so_pot : forall (phi : enode -> Q) c, (forall n, sink n -> phi n == c) ->
        Qsumf (fun e => snd e * (phi (ev_from e) - phi (ev_to e))) l == Qsumf (fun e => dis e * (phi (ev_from e) - c)) paths;
    so_flow : forall i x, In x (suc i) -> ~ sink i ->
        Qsumf (on_edge i (x_j x)) l == Qsumf (fun e => on_edge i (x_j x) (ev_from e, ev_to e, dis e)) paths + share X f suc i (x_j x) * Qsumf (into i) l
  }.
  Lemma on_edge_children i j q x : In x (suc i) -> forall l, NoDup (map x_j l) -> (forall y, In y l -> In y (suc j)) ->
    Qsumf (fun e => on_edge i (x_j x) (ev_from e, ev_to e, dis e)) (map (fun y => (j, x_j y, q)) l) ==
      (if enode_eqb i j && existsb (fun y => enode_eqb (x_j x) (x_j y)) l then share X f suc i (x_j x) * q else 0).
  Proof.
    intros Hx l. induction l as [|y l IH]; intros ND Hl; cbn [map existsb]; [rewrite andb_false_r; unfold Qsumf; cbn; lra|]. rewrite Qsumf_cons. inversion ND; subst.
    rewrite IH; auto; [|intros; apply Hl; right; auto]. unfold on_edge, ev_from, ev_to, dis. cbn [fst snd]. destruct (enode_eqb i j) eqn:Eij; cbn [andb]; [|ring]. apply enode_eqb_eq in Eij. subst j.
    destruct (enode_eqb (x_j x) (x_j y)) eqn:Exy; cbn [orb]; [|ring]. apply enode_eqb_eq in Exy. rewrite <- Exy in *.
    assert (N : existsb (fun y0 => enode_eqb (x_j x) (x_j y0)) l = false). { apply existsb_false. intros z Hz. destruct (enode_eqb (x_j x) (x_j z)) eqn:C; auto. apply enode_eqb_eq in C. exfalso. apply H1. rewrite C. apply in_map. auto. }
    rewrite N. unfold ev_from, ev_to. cbn [fst snd]. ring.
  Qed.
  Lemma evs_ok (sz : enode -> nat) (SZ : forall n, (1 + list_sum (map (fun x => sz (x_j x)) (suc n)) <= sz n)%nat) :
    forall m paths, (list_sum (map (fun e => sz (ev_to e)) paths) <= m)%nat -> (forall e, In e paths -> valid e) -> (forall e, In e paths -> good (ev_from e) /\ dest <> Some (ev_from e)) ->
    exists l, (forall fuel, (m <= fuel)%nat -> evs fuel X f suc dest paths = Ok l) /\ spread_ok paths l.
  Proof.
    induction m as [|m IH]; intros paths Hm HV HG.
    - destruct paths as [|[[i j] q] rest]; [|exfalso; cbn in Hm; pose proof (SZ j); unfold ev_to in Hm; cbn in Hm; lia].
      exists []. split; [intros [|fuel] _; reflexivity|]. split; try (intros; contradiction); intros; unfold Qsumf; cbn; ring.
    - destruct paths as [|[[i j] pax] rest].
      { exists []. split; [intros [|fuel] _; reflexivity|]. split; try (intros; contradiction); intros; unfold Qsumf; cbn; ring. }
      pose proof (HV _ (or_introl eq_refl)) as (Ni & x & Hx & Ej). destruct (HG _ (or_introl eq_refl)) as [Gi Di]. unfold ev_from in Gi, Di. cbn [fst snd] in Gi, Di.
      destruct (dis_ok i j pax x Hx Ej Gi Di) as (q & Eq & Eqv).
      set (kids := if stop_of_dest X dest j then [] else map (fun e => (j, x_j e, q)) (suc j)).
      assert (EK : (if stop_of_dest X dest j then rest else rest ++ map (fun e => (j, x_j e, q)) (suc j)) = rest ++ kids) by (unfold kids; destruct (stop_of_dest X dest j); [rewrite app_nil_r|]; reflexivity).
      assert (Gj : good j) by (rewrite <- Ej; eapply GOOD; eauto).
      assert (Dj : stop_of_dest X dest j = false -> dest <> Some j) by (intro F; eapply good_dest; eauto; unfold sink; congruence).
      destruct (IH (rest ++ kids)) as (l & El & OK).
      { rewrite map_app, list_sum_app. change (sz j + list_sum (map (fun e => sz (ev_to e)) rest) <= S m)%nat in Hm. pose proof (SZ j) as S1.
        assert (LK : (list_sum (map (fun e => sz (ev_to e)) kids) <= list_sum (map (fun x => sz (x_j x)) (suc j)))%nat). { unfold kids. destruct (stop_of_dest X dest j); [cbn; lia|]. rewrite map_map. apply Nat.eq_le_incl. f_equal. }
        clear -Hm S1 LK. lia. }
      { intros e He. apply in_app_or in He. destruct He as [He|He]; [apply HV; right; auto|]. unfold kids in He. destruct (stop_of_dest X dest j) eqn:C; [contradiction|].
        apply in_map_iff in He. destruct He as (y & <- & Hy). split; [unfold sink; congruence|eauto]. }
      { intros e He. apply in_app_or in He. destruct He as [He|He]; [apply HG; right; auto|]. unfold kids in He. destruct (stop_of_dest X dest j) eqn:C; [contradiction|].
        apply in_map_iff in He. destruct He as (y & <- & Hy). unfold ev_from. cbn. auto. }
      exists ((i, j, q) :: l). split.
      { intros [|fuel] Hf; [lia|]. cbn [evs]. rewrite Eq. cbn [bind]. rewrite EK, El by lia. reflexivity. }
      assert (SH : 0 <= share X f suc i j) by (eapply share_nonneg; eauto).
      assert (DIS : forall h : ev, h = (i, j, pax) -> dis h == q) by (intros h ->; unfold dis, ev_from, ev_to; cbn; lra).
      split.
      + intros e [<-|He]; [split; eauto|]. eapply so_valid; eauto.
      + intros Hp e [<-|He].
        * cbn. rewrite Eqv. apply Qmult_le_0_compat; auto. apply (Hp (i, j, pax)). left; auto.
        * eapply (so_pos _ _ OK); eauto. intros e' He'. apply in_app_or in He'. destruct He' as [He'|He']; [apply Hp; right; auto|].
          unfold kids in He'. destruct (stop_of_dest X dest j); [contradiction|]. apply in_map_iff in He'. destruct He' as (y & <- & _). cbn. rewrite Eqv. apply Qmult_le_0_compat; auto. apply (Hp (i, j, pax)). left; auto.
      + intros Hz. assert (Z1 : (forall k, i = ER k -> freq f (rid X k) == 0 -> q == 0) /\ (forall k, j = ER k -> freq f (rid X k) == 0 -> q == 0)).
        { split; intros k -> F0.
          - rewrite Eqv. rewrite (Hz k j pax (or_introl eq_refl) F0). ring.
          - destruct (EDGE i x Hx) as [Ei Sh]. unfold edge_shape in Sh. rewrite Ei, Ej in Sh. rewrite Eqv. destruct (x_f x), i as [c|s|p]; try contradiction.
            + unfold share. rewrite F0. unfold Qdiv. ring.
            + destruct Sh as (R1 & _). rewrite (Hz p (ER k) pax (or_introl eq_refl)); [ring|]. rewrite R1. auto. }
        intros i' j' q' [E|He]; [inversion E; subst; exact Z1|]. eapply (so_zero _ _ OK); eauto. intros k j'' q'' Hin F0. apply in_app_or in Hin. destruct Hin as [Hin|Hin]; [eapply Hz; eauto; right; eauto|].
        unfold kids in Hin. destruct (stop_of_dest X dest j); [contradiction|]. apply in_map_iff in Hin. destruct Hin as (y & E & _). inversion E; subst. apply Z1 with k; auto.
      + intros phi c Hc. rewrite Qsumf_cons, (so_pot _ _ OK phi c Hc). rewrite Qsumf_app, Qsumf_cons. cbv beta. change (ev_from (i, j, q)) with i. change (ev_to (i, j, q)) with j. change (ev_from (i, j, pax)) with i. change (snd (i, j, q)) with q. rewrite (DIS _ eq_refl).
        assert (K : Qsumf (fun e => dis e * (phi (ev_from e) - c)) kids == q * (phi j - c)).
        { unfold kids. destruct (stop_of_dest X dest j) eqn:C; [unfold Qsumf; cbn; rewrite (Hc j C); ring|]. rewrite Qsumf_map. unfold dis, ev_from, ev_to. cbn [fst snd].
          assert (E : Qsumf (fun x0 => q * share X f suc j (x_j x0) * (phi j - c)) (suc j) == q * (phi j - c) * Qsumf (fun x0 => share X f suc j (x_j x0)) (suc j)) by (rewrite <- Qsumf_scal; apply Qsumf_ext; intros; ring).
          rewrite E, (share_total j Gj (Dj eq_refl)). ring. }
        rewrite K. ring.
      + intros i' x' Hx' Ns. rewrite !Qsumf_cons, (so_flow _ _ OK i' x' Hx' Ns), Qsumf_app.
        assert (K : Qsumf (fun e => on_edge i' (x_j x') (ev_from e, ev_to e, dis e)) kids == share X f suc i' (x_j x') * into i' (i, j, q)).
        { unfold kids, into, ev_to. cbn [fst snd]. destruct (stop_of_dest X dest j) eqn:C.
          - unfold Qsumf. cbn. destruct (enode_eqb i' j) eqn:E; [apply enode_eqb_eq in E; subst i'; exfalso; apply Ns; exact C|ring].
          - rewrite (on_edge_children i' j q x' Hx' (suc j)); auto. destruct (enode_eqb i' j) eqn:E; cbn [andb]; [|ring]. apply enode_eqb_eq in E. subst i'.
            assert (T : existsb (fun y => enode_eqb (x_j x') (x_j y)) (suc j) = true) by (apply existsb_exists; exists x'; split; auto; apply enode_eqb_eq; auto). rewrite T. reflexivity. }
        rewrite K. assert (E0 : on_edge i' (x_j x') (i, j, q) == on_edge i' (x_j x') (ev_from (i, j, pax), ev_to (i, j, pax), dis (i, j, pax))).
        { unfold on_edge, ev_from, ev_to. cbn [fst snd]. destruct (enode_eqb i' i && enode_eqb (x_j x') j); [symmetry; apply (DIS (i, j, pax) eq_refl)|reflexivity]. }
        rewrite E0. ring.
  Qed.
End Strategy.

(** ** Totals over all the OD pairs *)
Section Total.
  Context (X : xgraph) (P : qpass) (M : dict2) (f : fdict).
  Hypothesis HG : hyper_graph X.
  Hypothesis SHAPE : forall x, In x (xg_edges X) -> edge_shape X x.
  Hypothesis FPOS : forall k, 0 <= freq f (rid X k).

  Definition is_zero_line (n : enode) : Prop := exists k, n = ER k /\ freq f (rid X k) == 0.
  (** the events of one stop of the origin are those of the loop *)
  Definition stop_trace (e : od_entry) (a : list (nat * Q)) (s : nat) (ls : list ev) : Prop :=
    if Qeqb (start_trips e a s) 0 then ls = []
    else exists k, evs k X f (hr_suc (od_res e)) (od_d e) (map (fun x => (ES s, x_j x, start_trips e a s)) (hr_suc (od_res e) (ES s))) = Ok ls.
  (** what the events of one OD pair satisfy *)
  Record od_flow (e : od_entry) (a : list (nat * Q)) (l : list ev) : Prop := mkOF {
    of_edge : forall i j q, In (i, j, q) l -> exists x, In x (xg_edges X) /\ x_i x = i /\ x_j x = j /\ In x (hr_suc (od_res e) i) /\ stop_of_dest X (od_d e) i = false;
    of_pos : (forall s, In s (map fst (od_paths e)) -> 0 <= start_trips e a s) -> forall x, In x l -> 0 <= snd x;
    of_zero : forall i j q, In (i, j, q) l -> is_zero_line i \/ is_zero_line j -> q == 0;
    of_pot : forall phi psi, (forall s, phi (ES s) == psi (sn_city (stop_at (xg_stops X) s))) -> forall c cd, od_o e = Some (EC c) -> od_d e = Some (EC cd) ->
       Qsumf (fun x => snd x * (phi (ev_from x) - phi (ev_to x))) l == assigned_trips e a * (psi c - psi cd);
    of_flow : forall i x, In x (hr_suc (od_res e) i) -> stop_of_dest X (od_d e) i = false ->
       Qsumf (on_edge i (x_j x)) l == share X f (hr_suc (od_res e)) i (x_j x) *
          ((match i with ES s => if existsb (Nat.eqb s) (map fst (od_paths e)) then start_trips e a s else 0 | _ => 0 end) + Qsumf (into i) l);
    of_trace : exists lss, l = concat lss /\ Forall2 (stop_trace e a) (map fst (od_paths e)) lss
  }.
  Lemma od_events e a c cd : od_ok X P M e c cd -> runs X f e ->
    exists N l, (forall fuel, (N <= fuel)%nat -> forall t, spread_od fuel X f t (e, a) = Ok (fold_left (record_ev X) l t)) /\ od_flow e a l.
  Proof.
    intros O HR. set (suc := hr_suc (od_res e)). set (good := fun n => In n (xnodes X) /\ hr_lab (od_res e) n <> None). pose proof (oo_facts _ _ _ _ _ _ O) as HF.
    assert (EDGE : forall n x, In x (suc n) -> x_i x = n /\ edge_shape X x) by (intros n x Hx; destruct (hf_suc _ _ _ _ _ HF n x Hx) as (A & B & _); auto).
    assert (NDUP : forall n, NoDup (map x_j (suc n))).
    { intro n. apply Props_Predef.NoDup_map_inj_in; [|apply (hf_nodup _ _ _ _ _ HF)]. intros x y Hx Hy E. destruct (hf_suc _ _ _ _ _ HF n x Hx) as (A & B & _), (hf_suc _ _ _ _ _ HF n y Hy) as (A' & B' & _).
      apply (NoDup_map_eq (fun e => (x_i e, x_j e)) (xg_edges X) x y); auto; [apply (hg_pairs X HG)|]. congruence. }
    assert (GOOD : forall n x, In x (suc n) -> good (x_j x)).
    { intros n x Hx. destruct (hf_suc _ _ _ _ _ HF n x Hx) as (A & B & _ & C & _). split; auto. apply (hg_ends X HG); auto. }
    assert (STEP : forall n, good n -> od_d e <> Some n -> (exists x, suc n = [x] /\ x_f x = None) \/ (suc n <> [] /\ forall x, In x (suc n) -> x_f x <> None)).
    { intros n [G1 G2] D. destruct (hr_lab (od_res e) n) as [q|] eqn:El; [|congruence]. destruct (hf_step _ _ _ _ _ HF n q G1 D El) as [(x & E1 & E2 & _)|(E1 & E2 & _)]; [left; eauto|right]. split; auto.
      intros x Hx. destruct (E2 x Hx) as (fr & E3 & _). congruence. }
    pose proof (oo_rank _ _ _ _ _ _ O) as RANK. assert (CITY : exists c, od_d e = Some (EC c)) by (exists cd; apply (oo_dest _ _ _ _ _ _ O)).
    assert (RUNS : forall n x, In x (suc n) -> x_f x <> None -> exists y k, In y (suc n) /\ x_j y = ER k /\ 0 < freq f (rid X k)) by exact HR.
    destruct (sizes suc RANK) as (sz & SZ).
    assert (KEY : forall s, In s (map fst (od_paths e)) -> good (ES s) /\ od_d e <> Some (ES s) /\ stop_of_dest X (od_d e) (ES s) = false /\ sn_city (stop_at (xg_stops X) s) = c).
    { intros s Hs. apply (oo_keys _ _ _ _ _ _ O) in Hs. destruct Hs as (A0 & (st & A1 & A2) & A3). assert (Ec : sn_city (stop_at (xg_stops X) s) = c) by (unfold stop_at; rewrite (nth_error_nth _ _ _ A1); auto).
      split; [split; auto|]. rewrite (oo_dest _ _ _ _ _ _ O). split; [discriminate|]. split; auto. unfold stop_of_dest. rewrite Ec. simpl. apply Nat.eqb_neq. apply (oo_diff _ _ _ _ _ _ O). }
    (* one stop *)
    assert (ONE : forall s, In s (map fst (od_paths e)) -> exists N l, (forall fuel, (N <= fuel)%nat -> forall t, spread_stop fuel X f e a t s = Ok (fold_left (record_ev X) l t)) /\ stop_trace e a s l /\
       exists paths, spread_ok X f suc (od_d e) paths l /\ (forall x, In x paths -> ev_from x = ES s /\ snd x = start_trips e a s) /\
         (paths = [] /\ l = [] /\ start_trips e a s == 0 \/ paths = map (fun x => (ES s, x_j x, start_trips e a s)) (suc (ES s)))).
    { intros s Hs. destruct (KEY s Hs) as (G & D & S0 & Ec). unfold spread_stop, stop_trace. fold (start_trips e a s). destruct (Qeqb (start_trips e a s) 0) eqn:Q0.
      - exists 0%nat, []. split; [intros; reflexivity|]. split; [reflexivity|]. exists []. split; [|split; [intros x []|left; split; auto; split; auto; apply Qeqb_eq; auto]]. split; try (intros; contradiction); intros; unfold Qsumf; cbn; ring.
      - destruct (evs_ok X f suc (od_d e) good EDGE NDUP GOOD STEP CITY FPOS RUNS sz SZ _ (map (fun x => (ES s, x_j x, start_trips e a s)) (suc (ES s))) (le_n _)) as (l & El & OK).
        + intros x Hx. apply in_map_iff in Hx. destruct Hx as (y & <- & Hy). split; [unfold sink; congruence|eauto].
        + intros x Hx. apply in_map_iff in Hx. destruct Hx as (y & <- & Hy). unfold ev_from. cbn. auto.
        + eexists. exists l. split.
          * intros fuel Hf t. rewrite spread_evs. fold suc. rewrite El by exact Hf. reflexivity.
          * split; [eexists; apply El; apply le_n|]. eexists. split; [exact OK|]. split; [|right; reflexivity]. intros x Hx. apply in_map_iff in Hx. destruct Hx as (y & <- & Hy). auto. }
    (* all stops: induction on the list *)
    assert (ALL : forall keys, NoDup keys -> (forall s, In s keys -> In s (map fst (od_paths e))) -> exists N l, (forall fuel, (N <= fuel)%nat -> forall t, foldM (spread_stop fuel X f e a) keys t = Ok (fold_left (record_ev X) l t)) /\
       (exists lss, l = concat lss /\ Forall2 (stop_trace e a) keys lss) /\
       (forall i j q, In (i, j, q) l -> exists x, In x (xg_edges X) /\ x_i x = i /\ x_j x = j /\ In x (suc i) /\ stop_of_dest X (od_d e) i = false) /\
       ((forall s, In s keys -> 0 <= start_trips e a s) -> forall x, In x l -> 0 <= snd x) /\
       (forall i j q, In (i, j, q) l -> is_zero_line i \/ is_zero_line j -> q == 0) /\
       (forall phi psi, (forall s, phi (ES s) == psi (sn_city (stop_at (xg_stops X) s))) ->
           Qsumf (fun x => snd x * (phi (ev_from x) - phi (ev_to x))) l == Qsumf (start_trips e a) keys * (psi c - psi cd)) /\
       (forall i x, In x (suc i) -> stop_of_dest X (od_d e) i = false ->
           Qsumf (on_edge i (x_j x)) l == share X f suc i (x_j x) * ((match i with ES s => if existsb (Nat.eqb s) keys then start_trips e a s else 0 | _ => 0 end) + Qsumf (into i) l))).
    { induction keys as [|s keys IH]; intros ND HK.
      - exists 0%nat, []. split; [intros; reflexivity|]. split; [exists []; split; [reflexivity|constructor]|]. split; [intros; contradiction|]. split; [intros; contradiction|]. split; [intros; contradiction|]. split; [intros; unfold Qsumf; cbn; ring|].
        intros i x _ _. unfold Qsumf. cbn. destruct i; ring.
      - inversion ND as [|? ? Hni ND']; subst. destruct (IH ND') as (N2 & l2 & R2 & (lss2 & T2a & T2b) & V2 & P2 & Z2 & Q2 & F2); [intros; apply HK; right; auto|].
        assert (Hs : In s (map fst (od_paths e))) by (apply HK; left; auto). destruct (KEY s Hs) as (G & D & S0 & Ec). destruct (ONE s Hs) as (N1 & l1 & R1 & T1 & paths & OK & PH & PC).
        exists (Nat.max N1 N2), (l1 ++ l2). split; [|split; [|split; [|split; [|split; [|split]]]]].
        + intros fuel Hf t. cbn [foldM]. rewrite R1 by lia. cbn [bind]. rewrite R2 by lia. rewrite fold_left_app. reflexivity.
        + exists (l1 :: lss2). split; [cbn [concat]; rewrite T2a; reflexivity|constructor; auto].
        + intros i j q H. apply in_app_or in H. destruct H as [H|H]; [|eapply V2; eauto]. destruct (so_valid _ _ _ _ _ _ OK _ H) as (S & x & Hx & Ej). exists x.
          destruct (hf_suc _ _ _ _ _ HF i x Hx) as (A & B & _). split; auto. split; auto. split; auto. split; auto. unfold sink in S. destruct (stop_of_dest X (od_d e) i); congruence.
        + intros Hp x H. apply in_app_or in H. destruct H as [H|H].
          * eapply (so_pos _ _ _ _ _ _ OK); eauto. intros y Hy. destruct (PH y Hy) as [_ ->]. apply Hp. left; auto.
          * eapply P2; eauto. intros; apply Hp; right; auto.
        + intros i j q H Hz. apply in_app_or in H. destruct H as [H|H]; [|eapply Z2; eauto].
          assert (Z0 : forall k j q, In (ER k, j, q) paths -> freq f (rid X k) == 0 -> q == 0) by (intros k j0 q0 Hin _; destruct (PH _ Hin) as [C _]; discriminate C).
          destruct (so_zero _ _ _ _ _ _ OK Z0 i j q H) as [A B]. destruct Hz as [(k & -> & F0)|(k & -> & F0)]; eauto.
        + intros phi psi Hphi. rewrite Qsumf_app, Qsumf_cons, (Q2 phi psi Hphi).
          assert (SK : forall n, sink X (od_d e) n -> phi n == psi cd).
          { intros n Hn. unfold sink, stop_of_dest in Hn. destruct n as [|s'|]; try discriminate. rewrite (oo_dest _ _ _ _ _ _ O) in Hn. simpl in Hn. apply Nat.eqb_eq in Hn. rewrite Hphi, Hn. reflexivity. }
          rewrite (so_pot _ _ _ _ _ _ OK phi (psi cd) SK).
          assert (E : Qsumf (fun e0 => dis X f suc e0 * (phi (ev_from e0) - psi cd)) paths == start_trips e a s * (psi c - psi cd)).
          { destruct PC as [(-> & _ & E0)| ->]; [rewrite E0; unfold Qsumf; cbn; ring|]. rewrite Qsumf_map. unfold dis, ev_from, ev_to. cbn [fst snd].
            assert (E1 : Qsumf (fun x => start_trips e a s * share X f suc (ES s) (x_j x) * (phi (ES s) - psi cd)) (suc (ES s)) == start_trips e a s * (phi (ES s) - psi cd) * Qsumf (fun x => share X f suc (ES s) (x_j x)) (suc (ES s))) by (rewrite <- Qsumf_scal; apply Qsumf_ext; intros; ring).
            rewrite E1, (share_total X f suc (od_d e) good EDGE STEP FPOS RUNS (ES s) G D), Hphi, Ec. ring. }
          rewrite E. ring.
        + intros i x Hx Hi. rewrite !Qsumf_app, (F2 i x Hx Hi). assert (Ns : ~ sink X (od_d e) i) by (unfold sink; congruence). rewrite (so_flow _ _ _ _ _ _ OK i x Hx Ns).
          assert (E : Qsumf (fun e0 => on_edge i (x_j x) (ev_from e0, ev_to e0, dis X f suc e0)) paths == share X f suc i (x_j x) * (if enode_eqb i (ES s) then start_trips e a s else 0)).
          { destruct PC as [(-> & _ & E0)| ->]; [unfold Qsumf; cbn; destruct (enode_eqb i (ES s)); [rewrite E0|]; ring|]. rewrite (on_edge_children X f suc i (ES s) (start_trips e a s) x Hx (suc (ES s))); auto.
            destruct (enode_eqb i (ES s)) eqn:Ei; cbn [andb]; [|ring]. apply enode_eqb_eq in Ei. subst i.
            assert (T : existsb (fun y => enode_eqb (x_j x) (x_j y)) (suc (ES s)) = true) by (apply existsb_exists; exists x; split; auto; apply enode_eqb_eq; auto). rewrite T. reflexivity. }
          rewrite E. cbn [existsb]. destruct i as [ci|si|ki]; cbn [enode_eqb]; try ring. destruct (Nat.eqb si s) eqn:Es; cbn [orb]; [|ring]. apply Nat.eqb_eq in Es. subst si.
          assert (N : existsb (Nat.eqb s) keys = false) by (apply existsb_false; intros y Hy; apply Nat.eqb_neq; intro; subst; contradiction). rewrite N. ring. }
    destruct (ALL (map fst (od_paths e)) (oo_nodup _ _ _ _ _ _ O) (fun s H => H)) as (N & l & R & TR & V & Pp & Z & Q & F). exists N, l. split; [exact R|]. split; auto.
    intros phi psi Hphi c' cd' E1 E2. rewrite (oo_origin _ _ _ _ _ _ O) in E1. rewrite (oo_dest _ _ _ _ _ _ O) in E2. inversion E1; inversion E2; subst. apply Q; auto.
  Qed.
  Lemma all_events es : (forall e, In e es -> exists c cd, od_ok X P M e c cd) -> (forall e, In e es -> runs X f e) -> forall asg,
    exists N ls, (forall fuel, (N <= fuel)%nat -> forall t, foldM (spread_od fuel X f) (combine es asg) t = Ok (fold_left (record_ev X) (concat ls) t)) /\
      Forall2 (fun ea l => od_flow (fst ea) (snd ea) l) (combine es asg) ls.
  Proof.
    induction es as [|e es IH]; intros HO HR asg; [exists 0%nat, []; split; auto; constructor|]. destruct asg as [|a asg]; [exists 0%nat, []; split; auto; constructor|].
    destruct (HO e (or_introl eq_refl)) as (c & cd & O). destruct (od_events e a c cd O (HR e (or_introl eq_refl))) as (N1 & l1 & R1 & F1).
    destruct (IH (fun x H => HO x (or_intror H)) (fun x H => HR x (or_intror H)) asg) as (N2 & ls & R2 & F2). exists (Nat.max N1 N2), (l1 :: ls). split.
    - intros fuel Hf t. cbn [combine foldM]. rewrite R1 by lia. cbn [bind concat]. rewrite R2 by lia. rewrite fold_left_app. reflexivity.
    - cbn [combine]. constructor; auto.
  Qed.
End Total.

(** more fuel does not change an answer *)
Lemma evs_mono X f suc dest : forall k paths l, evs k X f suc dest paths = Ok l -> forall k', (k <= k')%nat -> evs k' X f suc dest paths = Ok l.
Proof.
  induction k as [|k IH]; intros [|[[i j] pax] rest] l H k' Hk; cbn [evs] in H; try discriminate; try (destruct k'; exact H).
  destruct k' as [|k']; [lia|]. cbn [evs]. destruct (dis_pax X f suc i j pax) as [q|]; cbn [bind] in *; [|discriminate]. apply bind_ok in H. destruct H as (l' & E & H). rewrite (IH _ _ E k') by lia. exact H.
Qed.
Lemma foldM_mono {A B} (F F' : B -> A -> res B) : (forall b x r, F b x = Ok r -> F' b x = Ok r) -> forall l b r, foldM F l b = Ok r -> foldM F' l b = Ok r.
Proof.
  intros H. induction l as [|x l IH]; intros b r E; cbn [foldM] in *; auto. apply bind_ok in E. destruct E as (b' & E1 & E2). rewrite (H _ _ _ E1). cbn [bind]. auto.
Qed.
Lemma spread_mono k k' X f es asg t r : (k <= k')%nat -> foldM (spread_od k X f) (combine es asg) t = Ok r -> foldM (spread_od k' X f) (combine es asg) t = Ok r.
Proof.
  intros Hk. apply foldM_mono. intros b [e a] r' E. unfold spread_od in *. cbn [fst snd] in *. revert E. apply foldM_mono. intros b' s r'' E. unfold spread_stop in *.
  destruct (Qeqb (od_v e * dget0 Nat.eqb 0 a s / 100) 0); auto. rewrite spread_evs in *. apply bind_ok in E. destruct E as (l & E1 & E2). rewrite (evs_mono _ _ _ _ _ _ _ E1 k' Hk). exact E2.
Qed.

(** the effect of the events on a linear quantity of the tables *)
Lemma fold_linear X (L : tables -> Q) (wt : enode -> enode -> Q) (ok : ev -> Prop) :
  (forall t e, ok e -> L (record_ev X t e) == L t + wt (ev_from e) (ev_to e) * snd e) ->
  forall l t, (forall e, In e l -> ok e) -> L (fold_left (record_ev X) l t) == L t + Qsumf (fun e => wt (ev_from e) (ev_to e) * snd e) l.
Proof.
  intro H. induction l as [|e l IH]; intros t Hl; cbn [fold_left]; [unfold Qsumf; cbn; ring|]. rewrite IH by (intros; apply Hl; right; auto). rewrite H by (apply Hl; left; auto). rewrite Qsumf_cons. ring.
Qed.
Lemma Qsumf_concat {A} (h : A -> Q) ls : Qsumf h (concat ls) == Qsumf (Qsumf h) ls.
Proof. induction ls as [|l ls IH]; cbn [concat]; [unfold Qsumf; reflexivity|]. rewrite Qsumf_app, Qsumf_cons, IH. ring. Qed.

(** ** Graphs built from routes *)
Section Built.
  Context (G : geo) (g : graph) (rs : list route) (TP : Q) (fr : option (list (string * Q))) (X : xgraph).
  Hypothesis I : ext_input g rs.
  Hypothesis B : build_ext G g rs TP fr = Ok X.
  Hypothesis HG : hyper_graph X.

  Lemma built_shape x : In x (xg_edges X) -> edge_shape X x.
  Proof.
    intro Hx. destruct (Props_Ext.C31_edges_exact _ _ _ _ _ _ I B) as [J _]. assert (Jx : joins X (x_type x) (x_i x) (x_j x)) by (apply J; eauto).
    pose proof (hg_board X HG x Hx) as HB. unfold edge_shape. remember (x_type x) as ty. remember (x_i x) as i. remember (x_j x) as j.
    destruct Jx as [c s st A1 A2 A3|c s st A1 A2 A3|k rn s A1 A2 A3|k rn s A1 A2 A3|k rn p A1 A2].
    - destruct (x_f x); [destruct HB; discriminate|]. unfold stop_at. rewrite (nth_error_nth _ _ _ A2). auto.
    - destruct (x_f x); [destruct HB; discriminate|]. unfold stop_at. rewrite (nth_error_nth _ _ _ A2). auto.
    - destruct (x_f x); [|contradiction]. unfold rnode_at. rewrite (nth_error_nth _ _ _ A1). auto.
    - destruct (x_f x); [destruct HB; discriminate|]. unfold rnode_at. rewrite (nth_error_nth _ _ _ A1). auto.
    - destruct (x_f x); [destruct HB; discriminate|]. pose proof (Props_Ext.facts_of _ _ _ _ _ _ I B) as F. rewrite (ef_rn _ _ _ _ _ _ F) in A1. destruct (rns_prev g rs I k rn p A1 A2) as (rp & Hrp & Er & Ed).
      rewrite <- (ef_rn _ _ _ _ _ _ F) in A1, Hrp. assert (K1 : rnode_at (xg_rnodes X) k = rn) by (unfold rnode_at; apply nth_error_nth; auto). assert (K2 : rnode_at (xg_rnodes X) p = rp) by (unfold rnode_at; apply nth_error_nth; auto).
      unfold rid, rdir. rewrite K1, K2. split; [congruence|]. split; [congruence|]. split; auto. rewrite (ef_rn _ _ _ _ _ _ F) in Hrp. destruct (rns_visit g rs I p rp Hrp) as (_ & _ & _ & s & _ & _ & _ & _ & _ & _ & _ & Es & _). eauto.
  Qed.
  Hypothesis IDS : NoDup (map r_id rs).
  Hypothesis VIS : forall r d, In r rs -> NoDup (visits r d).
  Lemma visits_nodup : NoDup (map (fun '(r, d, z) => (r_id r, d, z)) (all_visits rs)).
  Proof.
    unfold all_visits, lines. clear I B HG. induction rs as [|r l IH]; [constructor|]. cbn [flat_map app]. cbn [map] in IDS. inversion IDS; subst.
    assert (V0 : forall d, NoDup (map (fun '(r0, d0, z) => (r_id r0, d0, z)) (map (fun z => (r, d, z)) (visits r d)))).
    { intro d. rewrite map_map. apply NoDup_map_inj; [intros x y E; inversion E; auto|]. apply VIS. left; auto. }
    assert (REST : forall d x, In x (map (fun '(r0, d0, z) => (r_id r0, d0, z)) (map (fun z => (r, d, z)) (visits r d))) ->
       ~ In x (map (fun '(r0, d0, z) => (r_id r0, d0, z)) (flat_map (fun '(r0, d0) => map (fun z => (r0, d0, z)) (visits r0 d0)) (flat_map (fun r0 => [(r0, DI); (r0, DR)]) l)))).
    { intros d x Hx Hy. rewrite map_map in Hx. apply in_map_iff in Hx. destruct Hx as (z & E & _). apply in_map_iff in Hy. destruct Hy as (((r' & d') & z') & E' & Hy). apply in_flat_map in Hy. destruct Hy as ((r'' & d'') & Hl & Hy).
      apply in_map_iff in Hy. destruct Hy as (z'' & E'' & _). apply in_flat_map in Hl. destruct Hl as (r0 & Hr0 & Hl). apply H1.
      assert (r_id r = r_id r0) as -> by (destruct Hl as [Hl|[Hl|[]]]; inversion Hl; inversion E''; congruence). apply in_map. auto. }
    rewrite !map_app. apply NoDup_app; [apply V0|apply NoDup_app; [apply V0| |apply REST]|].
    - apply IH; auto. intros r' d Hr. apply VIS. right; auto.
    - intros x Hx Hy. apply in_app_or in Hy. destruct Hy as [Hy|Hy]; [|eapply REST; eauto].
      rewrite map_map in Hx, Hy. apply in_map_iff in Hx, Hy. destruct Hx as (z & E & _), Hy as (z' & E' & _). congruence.
  Qed.
  Lemma rnode_data k rn : nth_error (xg_rnodes X) k = Some rn -> exists z, nth_error (all_visits rs) k = Some (rn_route rn, rn_dir rn, z) /\ rn_place X rn = Some (z, r_mode (rn_route rn)) /\ In (rn_route rn) rs.
  Proof.
    intro Hk. destruct (Props_Ext.C30_one_stop_per_node_and_mode _ _ _ _ _ _ I B) as (_ & _ & PM & _).
    apply (f_equal (fun l => nth_error l k)) in PM. rewrite !nth_error_map, Hk in PM. cbn [option_map] in PM. destruct (nth_error (all_visits rs) k) as [[[r d] z]|] eqn:E; [|discriminate]. cbn [option_map] in PM. injection PM as E1 E2 E3.
    exists z. subst. split; [reflexivity|]. split; auto. apply nth_error_In in E. unfold all_visits, lines in E. apply in_flat_map in E. destruct E as ((r' & d') & Hl & Hz). apply in_flat_map in Hl. destruct Hl as (r0 & Hr0 & Hl).
    apply in_map_iff in Hz. destruct Hz as (z' & E' & _). inversion E'; subst. destruct Hl as [Hl|[Hl|[]]]; inversion Hl; subst; auto.
  Qed.
  Lemma rnode_inj k1 k2 r1 r2 : nth_error (xg_rnodes X) k1 = Some r1 -> nth_error (xg_rnodes X) k2 = Some r2 -> r_id (rn_route r1) = r_id (rn_route r2) -> rn_dir r1 = rn_dir r2 -> rn_stop r1 = rn_stop r2 -> k1 = k2.
  Proof.
    intros H1 H2 E1 E2 E3. destruct (rnode_data _ _ H1) as (z1 & V1 & P1 & _), (rnode_data _ _ H2) as (z2 & V2 & P2 & _).
    assert (z1 = z2) by (unfold rn_place in *; rewrite E3 in P1; congruence). subst z2.
    apply (proj1 (NoDup_nth_error _) visits_nodup).
    - rewrite map_length. apply nth_error_Some. congruence.
    - rewrite !nth_error_map, V1, V2. cbn [option_map]. congruence.
  Qed.
  Lemma links_range : forall l b i p, nth_error (links b l) i = Some (Some p) -> (b <= p)%nat.
  Proof.
    induction l as [|[r d] l IH]; intros b i p H; cbn [links] in H; [destruct i; discriminate|]. destruct (Nat.lt_ge_cases i (length (link (r_type r) b (length (visits r d))))) as [C|C].
    - rewrite nth_error_app1 in H by auto. apply nth_error_In in H. unfold link in H. destruct (length (visits r d)) as [|m]; [contradiction|]. destruct H as [H|H].
      + destruct (r_type r); inversion H; lia.
      + apply in_map_iff in H. destruct H as (x & E & Hx). inversion E; subst. apply in_seq in Hx. lia.
    - rewrite nth_error_app2 in H by auto. apply IH in H. lia.
  Qed.
  Lemma link_inj ty b m i j p : nth_error (link ty b m) i = Some (Some p) -> nth_error (link ty b m) j = Some (Some p) -> i = j /\ (p < b + m)%nat.
  Proof.
    unfold link. destruct m as [|m]; [destruct i; discriminate|].
    assert (T : forall i p, nth_error (map Some (seq b m)) i = Some (Some p) -> p = (b + i)%nat /\ (i < m)%nat).
    { intros i' p' H. rewrite nth_error_map in H. destruct (nth_error (seq b m) i') as [x|] eqn:E; [|discriminate]. inversion H; subst. assert (i' < length (seq b m))%nat by (apply nth_error_Some; congruence). rewrite seq_length in H0.
      rewrite (nth_error_nth' _ 0%nat) in E by (rewrite seq_length; auto). rewrite seq_nth in E by auto. inversion E. auto. }
    destruct i as [|i], j as [|j]; cbn [nth_error]; intros H1 H2.
    - split; auto. destruct ty; inversion H1; lia.
    - apply T in H2. destruct ty; inversion H1; lia.
    - apply T in H1. destruct ty; inversion H2; lia.
    - apply T in H1. apply T in H2. lia.
  Qed.
  Lemma links_inj : forall l b i j p, nth_error (links b l) i = Some (Some p) -> nth_error (links b l) j = Some (Some p) -> i = j.
  Proof.
    induction l as [|[r d] l IH]; intros b i j p Hi Hj; cbn [links] in *; [destruct i; discriminate|]. set (L := link (r_type r) b (length (visits r d))) in *.
    destruct (Nat.lt_ge_cases i (length L)) as [Ci|Ci], (Nat.lt_ge_cases j (length L)) as [Cj|Cj].
    - rewrite nth_error_app1 in Hi, Hj by auto. eapply link_inj; eauto.
    - rewrite nth_error_app1 in Hi by auto. rewrite nth_error_app2 in Hj by auto. apply links_range in Hj. destruct (link_inj _ _ _ _ _ _ Hi Hi). lia.
    - rewrite nth_error_app1 in Hj by auto. rewrite nth_error_app2 in Hi by auto. apply links_range in Hi. destruct (link_inj _ _ _ _ _ _ Hj Hj). lia.
    - rewrite nth_error_app2 in Hi, Hj by auto. pose proof (IH _ _ _ _ Hi Hj). lia.
  Qed.
  Lemma prev_inj k1 k2 r1 r2 p : nth_error (xg_rnodes X) k1 = Some r1 -> nth_error (xg_rnodes X) k2 = Some r2 -> rn_prev r1 = Some p -> rn_prev r2 = Some p -> k1 = k2.
  Proof.
    intros H1 H2 E1 E2. destruct (Props_Ext.C30_one_stop_per_node_and_mode _ _ _ _ _ _ I B) as (_ & _ & _ & LK). apply (links_inj (lines rs) 0 k1 k2 p).
    - rewrite <- LK, nth_error_map, H1. simpl. congruence.
    - rewrite <- LK, nth_error_map, H2. simpl. congruence.
  Qed.
End Built.
