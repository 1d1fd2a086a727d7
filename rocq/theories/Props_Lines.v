(** * Props_Lines: the lines that travellers take at a stop (C83) *)
From Coq Require Import String List ZArith QArith Qfield Bool Lia Lqa.
From Verif Require Import PyBase PyFacts Graph GeoEx Mode Route ExtGraph ExtSpec Hyperpath HyperSpec HyperProofs HyperOpt Props_Ext Props_Cost Props_Hyper.
Import ListNotations.
Local Open Scope Q_scope.

(** a vehicle passes that can be boarded at n and from which the destination can be reached *)
Definition offered (X : xgraph) (o : option enode) (R : hresult) (n : enode) (e : xedge) : Prop :=
  In e (xg_edges X) /\ x_i e = n /\ (exists f, x_f e = Some f /\ 0 < f) /\ avoids o e /\ hr_lab R (x_j e) <> None.
(** the expected cost of the rest of the trip once aboard *)
Definition aboard (R : hresult) (e : xedge) : Q := match hr_lab R (x_j e) with Some t => t | None => 0 end.
(** what boarding saves to someone who counts on L *)
Definition saving (L : Q) (R : hresult) (e : xedge) : Q := if Qltb (aboard R e) L then L - aboard R e else 0.

Section Stop.
Variables (X : xgraph) (P : qpass) (o d : option enode) (fuel : nat) (R : hresult).
Hypothesis (HG : hyper_graph X) (HW : weights X P) (HF : (length (xnodes X) <= fuel)%nat) (HR : build_hyperpath fuel X P o d = Ok R).

Lemma wait_pos n : In n (xnodes X) -> 0 <= wait_cost X P n.
Proof.
  intro Hn. unfold wait_cost. destruct n as [c|s|k]; try lra. destruct (nth_error (xg_stops X) s) as [st|] eqn:E; [|lra]. pose proof (wg_theta _ _ HW s st Hn E) as A. pose proof (wg_pw _ _ HW) as B. pose proof (wg_pv _ _ HW) as C. apply Qle_shift_div_l; [exact C|]. nra.
Qed.
Lemma minimal n q : In n (xnodes X) -> hr_lab R n = Some q -> strategy_cost X P o d n (q - access_cost X P o n) /\ forall q', strategy_cost X P o d n q' -> q - access_cost X P o n <= q'.
Proof.
  intros Hn E. destruct (C35_labels_minimal X P o d fuel HG HW HF) as (R1 & E1 & K). rewrite HR in E1. injection E1 as <-. specialize (K n Hn). rewrite E in K. exact K.
Qed.
Lemma board_leg e : In e (xg_edges X) -> (exists f, x_f e = Some f /\ 0 < f) -> leg_cost X P d e == 0 /\ access_cost X P o (x_j e) = 0 /\ 0 < freq_of e.
Proof.
  intros He (f & Ef & Hf). pose proof (hg_board _ HG e He) as B. rewrite Ef in B. destruct B as (T & _ & T0 & _). split; [unfold leg_cost; rewrite T; exact T0|]. split.
  - destruct (proj1 (hg_into _ HG e He) T) as (k & ->). reflexivity.
  - unfold freq_of. rewrite Ef. exact Hf.
Qed.
Lemma aboard_strategy n e : offered X o R n e -> strategy_cost X P o d (x_j e) (aboard R e).
Proof.
  intros (He & _ & Hf & _ & Hl). unfold aboard. destruct (hr_lab R (x_j e)) as [t|] eqn:E; [|congruence]. destruct (minimal (x_j e) t (proj2 (hg_ends _ HG e He)) E) as [S _]. destruct (board_leg e He Hf) as (_ & A & _). rewrite A in S. revert S. generalize (x_j e). clear. intros n S.
  assert (E : t - 0 == t) by ring. revert E. generalize (t - 0) S. clear S. intros q S. revert t. induction S as [n q D Z|e c q H1 H2 H3 H4 _ H5|n es q H1 H2 H3 H4 _ H5]; intros t E.
  - apply sc_here; [exact D|]. rewrite <- E. exact Z.
  - apply (sc_move X P o d e c); auto. rewrite <- E. exact H5.
  - apply (sc_wait X P o d n es); auto. rewrite <- E. exact H5.
Qed.
Definition hurry (L : Q) (A : list xedge) : Q := Qsumf (fun e => freq_of e * (L - aboard R e)) A.
Lemma hurry_split L A : hurry L A == L * Qsumf freq_of A - Qsumf (fun e => freq_of e * aboard R e) A.
Proof. unfold hurry. induction A as [|e A IH]; [unfold Qsumf; cbn; ring|]. rewrite !Qsumf_cons, IH. ring. Qed.
(** no set of lines is better than what the label announces *)
Lemma no_better n q A : In n (xnodes X) -> hr_lab R n = Some q -> NoDup A -> (forall e, In e A -> offered X o R n e) -> hurry (q - access_cost X P o n) A <= wait_cost X P n.
Proof.
  intros Hn E ND HA. set (L := q - access_cost X P o n). destruct A as [|e0 A0]; [apply wait_pos; exact Hn|]. set (A := e0 :: A0) in *.
  assert (F : 0 < Qsumf freq_of A). { unfold A. rewrite Qsumf_cons. assert (0 < freq_of e0) by (destruct (HA e0 (or_introl eq_refl)) as (I & _ & J & _); apply (board_leg e0 I J)). assert (0 <= Qsumf freq_of A0) by (apply Qsumf_nonneg; intros e He; destruct (HA e (or_intror He)) as (I & _ & J & _); apply Qlt_le_weak, (board_leg e I J)). lra. }
  set (S := Qsumf (fun e => freq_of e * aboard R e) A). assert (FZ : ~ Qsumf freq_of A == 0) by (intro Z; rewrite Z in F; discriminate).
  assert (SC : strategy_cost X P o d n ((wait_cost X P n + S) / Qsumf freq_of A)).
  { apply (sc_wait X P o d n (map (fun e => (e, aboard R e)) A)).
    - discriminate.
    - rewrite map_map. cbn [fst]. rewrite map_id. exact ND.
    - intros e c I. apply in_map_iff in I. destruct I as (e' & Ee & I). injection Ee as -> _. destruct (HA e I) as (B1 & B2 & B3 & B4 & _). auto.
    - intros e c I. apply in_map_iff in I. destruct I as (e' & Ee & I). injection Ee as -> <-. exact (aboard_strategy n e (HA e I)).
    - rewrite !Qsumf_map. cbn [fst snd]. change (Qsumf (fun x => freq_of x) A) with (Qsumf freq_of A). assert (E2 : Qsumf (fun x => freq_of x * (leg_cost X P d x + aboard R x)) A == S).
      { apply Qsumf_ext. intros e He. destruct (HA e He) as (B1 & _ & B3 & _). destruct (board_leg e B1 B3) as (Z & _). rewrite Z. ring. }
      rewrite E2. field. exact FZ. }
  pose proof (proj2 (minimal n q Hn E) _ SC) as K. fold L in K. apply (Qmult_le_compat_r _ _ (Qsumf freq_of A)) in K; [|lra]. assert (KK : (wait_cost X P n + S) / Qsumf freq_of A * Qsumf freq_of A == wait_cost X P n + S) by (field; exact FZ). rewrite KK in K. rewrite hurry_split. fold S. lra.
Qed.
(** the lines chosen pay for the wait exactly *)
Lemma chosen_pay n q : In n (xnodes X) -> d <> Some n -> hr_lab R n = Some q -> (exists e, In e (hr_suc R n) /\ x_f e <> None) ->
  (forall e, In e (hr_suc R n) -> offered X o R n e) /\ hurry (q - access_cost X P o n) (hr_suc R n) == wait_cost X P n.
Proof.
  intros Hn Hd E (e0 & I0 & F0). destruct (C36_strategy_realises_labels X P o d fuel R HG HW HF HR) as (K1 & _ & K3 & _). destruct (K3 n q Hn Hd E) as [(e & Es & Ef & _)|(NE & Hf & EQ)].
  { rewrite Es in I0. destruct I0 as [<-|[]]. congruence. }
  assert (OF : forall e, In e (hr_suc R n) -> offered X o R n e) by (intros e He; destruct (K1 n e He) as (A & B & C & D); repeat split; auto; apply C). split; [exact OF|].
  rewrite hurry_split. assert (E2 : Qsumf (fun e => freq_of e * (leg_cost X P d e + match hr_lab R (x_j e) with Some q => q - access_cost X P o (x_j e) | None => 0 end)) (hr_suc R n) == Qsumf (fun e => freq_of e * aboard R e) (hr_suc R n)).
  { apply Qsumf_ext. intros e He. destruct (OF e He) as (A & _ & B & _ & C). destruct (board_leg e A B) as (Z & Z2 & _). unfold aboard. destruct (hr_lab R (x_j e)); [|congruence]. rewrite Z, Z2. ring. }
  rewrite E2 in EQ. rewrite EQ. ring.
Qed.
Lemma suc_nodup n : NoDup (hr_suc R n).
Proof. destruct (C36_strategy_realises_labels X P o d fuel R HG HW HF HR) as (_ & _ & _ & _ & K & _). apply K. Qed.
End Stop.

(** Where the strategy is to wait, it is to board every line with which the rest of the trip is cheaper than what
    the stop announces, and no line with which it is dearer. *)
Theorem C83_lines_boarded : forall X P o d fuel R n q, hyper_graph X -> weights X P -> (length (xnodes X) <= fuel)%nat -> build_hyperpath fuel X P o d = Ok R ->
  In n (xnodes X) -> d <> Some n -> hr_lab R n = Some q -> (exists e, In e (hr_suc R n) /\ x_f e <> None) ->
  (forall e, offered X o R n e -> aboard R e < q - access_cost X P o n -> In e (hr_suc R n)) /\
  (forall e, In e (hr_suc R n) -> offered X o R n e /\ aboard R e <= q - access_cost X P o n).
Proof.
  intros X P o d fuel R n q HG HW HF HR Hn Hd E WT. set (L := q - access_cost X P o n). destruct (chosen_pay X P o d fuel R HG HW HF HR n q Hn Hd E WT) as [OF PAY]. fold L in PAY. pose proof (suc_nodup X P o d fuel R HG HW HF HR n) as ND. split.
  - intros e He Lt. destruct (in_dec xedge_dec e (hr_suc R n)) as [I|I]; [exact I|exfalso]. pose proof (no_better X P o d fuel R HG HW HF HR n q (e :: hr_suc R n) Hn E ltac:(constructor; auto) ltac:(intros e' [<-|I']; auto)) as K. fold L in K. unfold hurry in K. rewrite Qsumf_cons in K. fold (hurry R L (hr_suc R n)) in K. rewrite PAY in K.
    destruct He as (A & _ & B & _). destruct (board_leg X P o d HG e A B) as (_ & _ & F). nra.
  - intros e He. split; [auto|]. apply Qnot_lt_le. intro Lt. apply in_split in He. destruct He as (l1 & l2 & Es). rewrite Es in *. apply NoDup_remove in ND. destruct ND as [ND _].
    pose proof (no_better X P o d fuel R HG HW HF HR n q (l1 ++ l2) Hn E ND ltac:(intros e' I'; apply OF; apply in_app_iff in I'; apply in_or_app; destruct I'; [left|right; right]; auto)) as K. fold L in K. unfold hurry in *. rewrite Qsumf_app in *. rewrite Qsumf_cons in PAY.
    destruct (OF e ltac:(apply in_or_app; right; left; reflexivity)) as (A & _ & B & _). destruct (board_leg X P o d HG e A B) as (_ & _ & F). nra.
Qed.

Lemma savings_filter R L A : Qsumf (fun e => freq_of e * saving L R e) A == hurry R L (filter (fun e => Qltb (aboard R e) L) A).
Proof.
  unfold hurry. induction A as [|e A IH]; [reflexivity|]. rewrite Qsumf_cons, IH. cbn [filter]. unfold saving at 1. destruct (Qltb (aboard R e) L); [rewrite Qsumf_cons; reflexivity|ring].
Qed.
(** What a stop announces is fixed by the lines that pass there: the savings that they bring in, each weighted by its
    frequency, pay exactly for the wait. *)
Theorem C83_balance : forall X P o d fuel R n q lines, hyper_graph X -> weights X P -> (length (xnodes X) <= fuel)%nat -> build_hyperpath fuel X P o d = Ok R ->
  In n (xnodes X) -> d <> Some n -> hr_lab R n = Some q -> (exists e, In e (hr_suc R n) /\ x_f e <> None) ->
  NoDup lines -> (forall e, In e lines <-> offered X o R n e) ->
  Qsumf (fun e => freq_of e * saving (q - access_cost X P o n) R e) lines == wait_cost X P n.
Proof.
  intros X P o d fuel R n q lines HG HW HF HR Hn Hd E WT ND HL. set (L := q - access_cost X P o n). destruct (chosen_pay X P o d fuel R HG HW HF HR n q Hn Hd E WT) as [OF PAY]. fold L in PAY. pose proof (suc_nodup X P o d fuel R HG HW HF HR n) as NS.
  destruct (C83_lines_boarded X P o d fuel R n q HG HW HF HR Hn Hd E WT) as [K1 K2]. fold L in K1, K2. rewrite <- PAY. unfold hurry.
  rewrite <- (Props_Cost.Qsumf_incl xedge_dec (fun e => freq_of e * saving L R e) (hr_suc R n) lines NS ND).
  - apply Qsumf_ext. intros e He. unfold saving. destruct (Qltb (aboard R e) L) eqn:LT; [reflexivity|]. apply Qltb_ge in LT. destruct (K2 e He) as [_ LE]. assert (Z : aboard R e == L) by (apply Qle_antisym; auto). rewrite Z. ring.
  - intros e He. apply HL. auto.
  - intros e He NI. unfold saving. destruct (Qltb (aboard R e) L) eqn:LT; [|ring]. apply Qltb_lt in LT. exfalso. apply NI, K1; auto. now apply HL.
Qed.
(** Where it is to walk, waiting is not worth it: the savings do not pay for the wait. *)
Theorem C83_walk : forall X P o d fuel R n q lines, hyper_graph X -> weights X P -> (length (xnodes X) <= fuel)%nat -> build_hyperpath fuel X P o d = Ok R ->
  In n (xnodes X) -> hr_lab R n = Some q -> NoDup lines -> (forall e, In e lines -> offered X o R n e) ->
  Qsumf (fun e => freq_of e * saving (q - access_cost X P o n) R e) lines <= wait_cost X P n.
Proof.
  intros X P o d fuel R n q lines HG HW HF HR Hn E ND HL. rewrite savings_filter. apply (no_better X P o d fuel R HG HW HF HR n q); auto; [now apply NoDup_filter|]. intros e He. apply filter_In in He. apply HL, He.
Qed.
Lemma saving_lt R e L L' : L < L' -> 0 < saving L R e -> saving L R e < saving L' R e.
Proof. unfold saving. intros H S. destruct (Qltb (aboard R e) L) eqn:A; [|lra]. apply Qltb_lt in A. assert (B : Qltb (aboard R e) L' = true) by (apply Qltb_lt; lra). rewrite B. lra. Qed.
Lemma saving_nonneg R e L : 0 <= saving L R e.
Proof. unfold saving. destruct (Qltb (aboard R e) L) eqn:A; [apply Qltb_lt in A; lra|lra]. Qed.
Lemma saving_le R e L L' : L < L' -> saving L R e <= saving L' R e.
Proof. intro H. destruct (Qlt_le_dec 0 (saving L R e)) as [S|S]; [apply Qlt_le_weak, saving_lt; auto|]. pose proof (saving_nonneg R e L'). lra. Qed.
Lemma savings_lt R L L' : L < L' -> forall l, (forall e, In e l -> 0 < freq_of e) -> 0 < Qsumf (fun e => freq_of e * saving L R e) l -> Qsumf (fun e => freq_of e * saving L R e) l < Qsumf (fun e => freq_of e * saving L' R e) l.
Proof.
  intros H. induction l as [|e l IH]; intros HF S; [unfold Qsumf in S; cbn in S; lra|]. rewrite !Qsumf_cons in *. pose proof (HF e (or_introl eq_refl)) as F. pose proof (saving_le R e L L' H) as A. pose proof (saving_nonneg R e L) as B.
  assert (LE : Qsumf (fun e => freq_of e * saving L R e) l <= Qsumf (fun e => freq_of e * saving L' R e) l) by (apply Qsumf_le; intros e' He'; pose proof (saving_le R e' L L' H); pose proof (HF e' (or_intror He')); nra).
  destruct (Qlt_le_dec 0 (saving L R e)) as [S1|S1]; [pose proof (saving_lt R e L L' H S1); nra|]. assert (Z : saving L R e == 0) by lra. rewrite Z in S |- *. assert (Qsumf (fun e => freq_of e * saving L R e) l < Qsumf (fun e => freq_of e * saving L' R e) l) by (apply IH; [intros e1 H1; apply HF; now right|lra]). rewrite Z in A. nra.
Qed.
(** If waiting costs something, no other number would do: the lines, their frequencies and the costs once aboard
    determine what the stop announces. *)
Theorem C83_unique : forall X P o d fuel R n q lines L, hyper_graph X -> weights X P -> (length (xnodes X) <= fuel)%nat -> build_hyperpath fuel X P o d = Ok R ->
  In n (xnodes X) -> d <> Some n -> hr_lab R n = Some q -> (exists e, In e (hr_suc R n) /\ x_f e <> None) ->
  NoDup lines -> (forall e, In e lines <-> offered X o R n e) -> 0 < wait_cost X P n ->
  Qsumf (fun e => freq_of e * saving L R e) lines == wait_cost X P n -> L == q - access_cost X P o n.
Proof.
  intros X P o d fuel R n q lines L HG HW HF HR Hn Hd E WT ND HL W EQ. pose proof (C83_balance X P o d fuel R n q lines HG HW HF HR Hn Hd E WT ND HL) as B. set (L0 := q - access_cost X P o n) in *.
  assert (FP : forall e, In e lines -> 0 < freq_of e) by (intros e He; apply HL in He; destruct He as (A1 & _ & A2 & _); apply (board_leg X P o d HG e A1 A2)).
  destruct (Qlt_le_dec L L0) as [A|A]; [pose proof (savings_lt R L L0 A lines FP ltac:(rewrite EQ; exact W)); lra|]. destruct (Qlt_le_dec L0 L) as [C|C]; [pose proof (savings_lt R L0 L C lines FP ltac:(rewrite B; exact W)); lra|]. lra.
Qed.

(** ** Example: a stop where two lines pass, the second by a longer way; with few vehicles both are taken, with ten
    times as many nobody boards the second *)
Definition offers (X : xgraph) (o : option enode) (R : hresult) (n : enode) : list xedge :=
  filter (fun e => enode_eqb (x_i e) n && match x_f e with Some f => Qltb 0 f | None => false end && negb (onode_is o (x_i e)) && negb (onode_is o (x_j e)) && match hr_lab R (x_j e) with Some _ => true | None => false end) (xg_edges X).
Lemma offers_offered X o R n : hyper_graph X -> NoDup (offers X o R n) /\ forall e, In e (offers X o R n) <-> offered X o R n e.
Proof.
  intro HG. split.
  { apply NoDup_filter. apply (NoDup_map_inv (fun e => (x_type e, x_id e))). apply (hg_ids _ HG). }
  intro e. unfold offers. rewrite filter_In, !andb_true_iff, enode_eqb_eq, !negb_true_iff, <- !Bool.not_true_iff_false, !onode_is_eq. unfold offered, avoids. split.
  - intros (A & ((((B & C) & D) & E) & F)). repeat split; auto; [destruct (x_f e) as [f|]; [exists f; split; [auto|now apply Qltb_lt]|discriminate]|destruct (hr_lab R (x_j e)); [discriminate|congruence]].
  - intros (A & B & (f & C & C') & (D & E) & F). repeat split; auto; [rewrite C; now apply Qltb_lt|destruct (hr_lab R (x_j e)); [auto|congruence]].
Qed.
Definition ex_round : route := mkRoute "c" (r_mode ex_tang) [1;2;6;4;3]%Z [3;4;6;2;1]%Z [1;6;3]%Z [3;6;1]%Z CUSTOM.
Definition ex_few : option (list (string * Q)) := Some [("t"%string, 5); ("c"%string, 6)].
Definition ex_many : option (list (string * Q)) := Some [("t"%string, 50); ("c"%string, 60)].
Definition ex_XF : xgraph := match build_ext ex_geo ex_g34 [ex_tang; ex_round] 16 ex_few with Ok X => X | Err _ => mkXgraph empty_graph [] [] [] [] end.
Definition ex_XM : xgraph := match build_ext ex_geo ex_g34 [ex_tang; ex_round] 16 ex_many with Ok X => X | Err _ => mkXgraph empty_graph [] [] [] [] end.
Example ex_round_input : ext_input ex_g34 [ex_tang; ex_round].
Proof. ext_input_tac. Qed.
Example ex_XF_hyper : hyper_graph ex_XF /\ weights ex_XF ex_P.
Proof.
  assert (B : build_ext ex_geo ex_g34 [ex_tang; ex_round] 16 ex_few = Ok ex_XF) by (vm_compute; reflexivity). split.
  - eapply built_graph_is_hyper_graph; [exact ex_round_input|exact B|exact ex_sqrt_nonneg|discriminate|modes_tac|].
    intro id. unfold route_frequency, ex_few, dget0. cbn [dget]. repeat match goal with |- context [String.eqb ?a ?b] => destruct (String.eqb a b) end; vm_compute; discriminate.
  - eapply built_graph_weights; [exact ex_round_input|exact B|modes_tac|reflexivity|discriminate|discriminate|]. left. split; [reflexivity|modes_tac].
Qed.
Example ex_XM_hyper : hyper_graph ex_XM /\ weights ex_XM ex_P.
Proof.
  assert (B : build_ext ex_geo ex_g34 [ex_tang; ex_round] 16 ex_many = Ok ex_XM) by (vm_compute; reflexivity). split.
  - eapply built_graph_is_hyper_graph; [exact ex_round_input|exact B|exact ex_sqrt_nonneg|discriminate|modes_tac|].
    intro id. unfold route_frequency, ex_many, dget0. cbn [dget]. repeat match goal with |- context [String.eqb ?a ?b] => destruct (String.eqb a b) end; vm_compute; discriminate.
  - eapply built_graph_weights; [exact ex_round_input|exact B|modes_tac|reflexivity|discriminate|discriminate|]. left. split; [reflexivity|modes_tac].
Qed.
Example C83_ex : exists RF RM, (length (xnodes ex_XF) <= 40)%nat /\ (length (xnodes ex_XM) <= 40)%nat /\
  build_hyperpath 40 ex_XF ex_P (find_city ex_XF 1) (find_city ex_XF 3) = Ok RF /\ build_hyperpath 40 ex_XM ex_P (find_city ex_XM 1) (find_city ex_XM 3) = Ok RM /\
  In (ES 0) (xnodes ex_XF) /\ In (ES 0) (xnodes ex_XM) /\ 0 < wait_cost ex_XM ex_P (ES 0) /\ (exists e, In e (hr_suc RM (ES 0)) /\ x_f e <> None) /\
  map x_j (offers ex_XF (find_city ex_XF 1) RF (ES 0)) = [ER 0; ER 8] /\ map x_j (hr_suc RF (ES 0)) = [ER 0; ER 8] /\
  map x_j (offers ex_XM (find_city ex_XM 1) RM (ES 0)) = [ER 0; ER 8] /\ map x_j (hr_suc RM (ES 0)) = [ER 0] /\
  map (fun e => Qred (aboard RM e)) (offers ex_XM (find_city ex_XM 1) RM (ES 0)) = [3 # 5; 9 # 10] /\
  option_map Qred (hr_lab RF (ES 0)) = Some (14 # 11) /\ option_map Qred (hr_lab RM (ES 0)) = Some (89 # 125).
Proof.
  do 2 eexists. split; [vm_compute; lia|]. split; [vm_compute; lia|]. split; [vm_compute; reflexivity|]. split; [vm_compute; reflexivity|]. split; [vm_compute; intuition|]. split; [vm_compute; intuition|]. split; [vm_compute; reflexivity|]. split; [vm_compute; eexists; split; [left; reflexivity|discriminate]|]. vm_compute. repeat split.
Qed.

Print Assumptions C83_lines_boarded.
Print Assumptions C83_balance.
Print Assumptions C83_walk.
Print Assumptions C83_unique.
