(** * Props_Args: arguments of any type *)
From Coq Require Import String Ascii List ZArith QArith Bool Lia Lqa.
From Verif Require Import PyBase PyFacts PyStr Graph Mode Predef Demand Args ArgSpec.
Import ListNotations.
Local Open Scope Q_scope.

Lemma neg_flt f : negative f = flt f f0.
Proof. destruct f; cbn; auto. destruct (Qlt_le_dec q 0) as [H|H]; symmetry; [apply Qltb_lt|apply Qltb_ge]; auto. Qed.
Lemma npos_fle f : not_positive f = fle f f0.
Proof. destruct f; cbn; auto. destruct (Qlt_le_dec 0 q) as [H|H]; symmetry; [apply Qleb_gt|apply Qleb_le]; auto. Qed.
Lemma more_flt c f : more_than c f = flt (Fin c) f.
Proof. destruct f; cbn; auto. destruct (Qlt_le_dec c q) as [H|H]; symmetry; [apply Qltb_lt|apply Qltb_ge]; auto. Qed.
Lemma least_fle c f : at_least c f = fle (Fin c) f.
Proof. destruct f; cbn; auto. destruct (Qlt_le_dec q c) as [H|H]; symmetry; [apply Qleb_gt|apply Qleb_le]; auto. Qed.
Definition orelse {A} (v : verdict) (k : res A) : res A := match v with None => k | Some e => Err e end.
Lemma judge_cmp {A} cmp c s e v (k : res A) : (forall f, s f = cmp f c) -> praise_if (pcmp cmp v c) e k = orelse (judge s e v) k.
Proof. intro H. unfold praise_if, pcmp, judge, num. destruct v as [|b|z|f|t]; cbn [bind orelse]; rewrite ?H; try reflexivity; destruct (cmp _ c); reflexivity. Qed.
Lemma judge_or {A} c1 x1 s1 c2 x2 s2 e v (k : res A) : (forall f, s1 f = c1 f x1) -> (forall f, s2 f = c2 f x2) ->
  praise_if (por (pcmp c1 v x1) (pcmp c2 v x2)) e k = orelse (judge (either s1 s2) e v) k.
Proof. intros H1 H2. unfold praise_if, por, pcmp, judge, either, num. destruct v as [|b|z|f|t]; cbn [bind orelse]; rewrite ?H1, ?H2; try reflexivity; destruct (c1 _ x1); try reflexivity; cbn [bind]; destruct (c2 _ x2); reflexivity. Qed.
Lemma judge_or_swap {A} c1 x1 s1 c2 x2 s2 e v (k : res A) : (forall f, s1 f = c1 f x1) -> (forall f, s2 f = c2 f x2) ->
  praise_if (por (pcmp c1 v x1) (pcmp c2 v x2)) e k = orelse (judge (either s2 s1) e v) k.
Proof. intros H1 H2. rewrite (judge_or c1 x1 s1 c2 x2 s2) by auto. unfold judge, either. destruct v as [|b|z|f|t]; try reflexivity; rewrite orb_comm; reflexivity. Qed.
Lemma orelse_first {A} v l (ok : A) : orelse v (outcome ok (first l)) = outcome ok (first (v :: l)).
Proof. destruct v; reflexivity. Qed.
Lemma raise_orelse {A} (b : bool) e (k : res A) (v : verdict) : v = (if b then Some e else None) -> raise_if b e k = orelse v k.
Proof. intros ->. destruct b; reflexivity. Qed.
Lemma given_orelse {A} v e (k : res A) : raise_if (is_none v) e k = orelse (given e v) k.
Proof. destruct v; reflexivity. Qed.
Lemma typed_orelse {A} v e (k : res A) : raise_if (negb (is_int v) && negb (is_float v)) e k = orelse (typed e v) k.
Proof. destruct v; reflexivity. Qed.

(** ** Nodes, zones and edges *)
(** Each argument is judged in turn; an accepted node keeps its arguments. *)
Theorem C74_node : forall k node_id x y radius angle width zone_id name,
  node_init k node_id x y radius angle width zone_id name =
  outcome (mkANode k node_id x y radius angle width zone_id name) (first (node_table k node_id radius angle width zone_id name)).
Proof.
  intros. unfold node_init, node_table. rewrite <- !orelse_first. change (first []) with (@None exn). cbn [outcome].
  rewrite <- (judge_cmp flt f0 negative) by apply neg_flt. rewrite <- (judge_or flt f0 negative (fun x c => flt c x) (Fin 360) (more_than 360)) by (apply neg_flt || apply more_flt).
  rewrite <- (judge_cmp flt f0 negative) by apply neg_flt. rewrite <- !given_orelse. apply raise_orelse.
  destruct k; cbn [kind_eqb andb]; [|reflexivity|reflexivity]. destruct zone_id as [|[]|z|f|t]; try reflexivity.
  - unfold peq, num, feq, Qeqb. destruct z; reflexivity.
  - unfold peq, num, feq, Qeqb. destruct f as [[n d]| | |]; try reflexivity. unfold Qeq_bool, Zeq_bool. cbn. destruct n; reflexivity.
Qed.
Print Assumptions C74_node.
Lemma given_judge {A} cmp c s e v (k : res A) : (forall f, s f = cmp f c) -> raise_if (is_none v) e (praise_if (pcmp cmp v c) e k) = orelse (judge_given s e v) k.
Proof. intro H. rewrite (judge_cmp cmp c s) by auto. destruct v; reflexivity. Qed.
Lemma kind_is_a k o : of_kind o k = is_a k o.
Proof. destruct o as [n|]; [|reflexivity]. cbn. destruct (an_kind n), k; reflexivity. Qed.
Lemma peq_same v w : (exists f, num w = Some f) -> peq v w = same_number v w.
Proof.
  intros (f & E). unfold peq, same_number. rewrite E. destruct (num v) as [[x| | |]|]; [| | | |reflexivity]; destruct f; cbn [feq]; try reflexivity.
  unfold Qeqb. destruct (Qeq_dec x q) as [H|H]; [apply Qeq_bool_iff; auto|]. destruct (Qeq_bool x q) eqn:B; [apply Qeq_bool_iff in B; contradiction|reflexivity].
Qed.
Theorem C74_zone : forall zone_id p sc, zone_init zone_id p sc = outcome tt (first (zone_table zone_id p sc)).
Proof.
  intros. unfold zone_init, zone_table. rewrite <- !orelse_first. change (first []) with (@None exn). cbn [outcome]. unfold ple. rewrite (given_judge fle f0 not_positive) by apply npos_fle.
  destruct (judge_given not_positive ZoneIdIsNotValidException zone_id) eqn:J; [reflexivity|]. cbn [orelse].
  assert (N : exists f, num zone_id = Some f) by (destruct zone_id; cbn; eauto; discriminate J).
  destruct p as [np|]; [|reflexivity]. rewrite kind_is_a. destruct (is_a Periphery (ONode np)); [|reflexivity]. cbn [negb raise_if orelse].
  destruct sc as [nsc|]; [|reflexivity]. rewrite kind_is_a. destruct (is_a Subcenter (ONode nsc)); [|reflexivity]. cbn [negb raise_if orelse].
  rewrite !peq_same by auto. destruct (same_number (an_zone np) zone_id), (same_number (an_zone nsc) zone_id); reflexivity.
Qed.
Print Assumptions C74_zone.
Theorem C74_edge : forall edge_id a b, edge_init edge_id a b = outcome tt (first (edge_table edge_id a b)).
Proof.
  intros. unfold edge_init, edge_table. rewrite given_orelse, <- !orelse_first. destruct (given EdgeIdIsNotValidException edge_id); [reflexivity|]. cbn [orelse first outcome]. rewrite !kind_is_a.
  destruct (is_a Periphery a), (is_a Periphery b), (is_a CBD b), (is_a CBD a); reflexivity.
Qed.
Print Assumptions C74_edge.
(** An edge between objects that are no nodes is accepted. *)
Theorem C74_edge_of_anything_refuted : exists edge_id a b, edge_init edge_id a b = Ok tt /\ forall n, a <> ONode n.
Proof. exists (VInt 1), OOther, OOther. split; [reflexivity|]. discriminate. Qed.
Print Assumptions C74_edge_of_anything_refuted.

(** ** The parameters of a city *)
Lemma int_judge {A} cmp c s e v (k : res A) : (forall f, s f = cmp f c) -> praise_if (por (pcmp cmp v c) (Ok (negb (is_int v)))) e k = orelse (judge_int s e v) k.
Proof.
  intro H. unfold praise_if, por, pcmp, judge_int, judge, num. destruct v as [|b|z|f|t]; cbn [bind orelse is_int negb]; rewrite ?H; try reflexivity; destruct (cmp _ c); reflexivity.
Qed.
Lemma int_judge_or {A} c1 x1 s1 c2 x2 s2 e v (k : res A) : (forall f, s1 f = c1 f x1) -> (forall f, s2 f = c2 f x2) ->
  praise_if (por (pcmp c1 v x1) (por (pcmp c2 v x2) (Ok (negb (is_int v))))) e k = orelse (judge_int (either s1 s2) e v) k.
Proof.
  intros H1 H2. unfold praise_if, por, pcmp, judge_int, judge, either, num. destruct v as [|b|z|f|t]; cbn [bind orelse is_int negb]; rewrite ?H1, ?H2; try reflexivity; destruct (c1 _ x1); try reflexivity; cbn [bind]; destruct (c2 _ x2); reflexivity.
Qed.
Lemma first_app l l' : first (l ++ l') = match first l with Some e => Some e | None => first l' end.
Proof. induction l as [|[e|] l IH]; cbn; auto. Qed.
Lemma list_judge {A} n elen bad refused e l (k : res A) : (exists z, integer n z) -> (forall v (k : res unit), praise_if (bad v) e k = orelse (judge refused e v) k) ->
  (let* _ := list_check n l elen e bad in k) = orelse (first (list_table n elen refused e l)) k.
Proof.
  intros (z & Hz) H. unfold list_check, list_table. destruct l as [l|]; [|reflexivity]. cbn [first].
  assert (EL : peq (VInt (Z.of_nat (length l))) n = if Z.eq_dec (Z.of_nat (length l)) (integer_of n) then true else false).
  { rewrite peq_same by (destruct Hz as [->|(b & -> & _)]; cbn; eauto). unfold same_number. assert (EN : num n = Some (Fin (inject_Z (integer_of n)))) by (destruct Hz as [->|([] & -> & _)]; reflexivity).
    rewrite EN. cbn [num]. destruct (Qeq_dec _ _) as [Q1|Q1], (Z.eq_dec _ _) as [Z1|Z1]; try reflexivity; exfalso.
    - apply Z1. unfold Qeq in Q1. cbn in Q1. lia.
    - apply Q1. rewrite Z1. reflexivity. }
  rewrite EL. destruct (Z.eq_dec _ _); [|reflexivity]. cbn [negb raise_if].
  assert (F : foldM (fun _ v => praise_if (bad v) e (Ok tt)) l tt = orelse (first (map (judge refused e) l)) (Ok tt)).
  { clear - H. induction l as [|v l IH]; [reflexivity|]. cbn [foldM map first]. rewrite H. destruct (judge refused e v); [reflexivity|]. cbn [orelse bind]. exact IH. }
  rewrite F. destruct (first (map (judge refused e) l)); reflexivity.
Qed.
Theorem C74_city : forall n l g p etha etha_zone angles Gi Hi,
  city_validator n l g p etha etha_zone angles Gi Hi = outcome true (first (city_table n l g p etha etha_zone angles Gi Hi)).
Proof.
  intros. unfold city_validator, city_table. cbn [app]. rewrite <- !orelse_first. unfold plt.
  rewrite (int_judge flt f0 negative) by apply neg_flt. destruct (judge_int negative NIsNotValidNumberException n) eqn:JN; [reflexivity|]. cbn [orelse].
  assert (IN : exists z, integer n z) by (destruct n as [|b|z|f|t]; try discriminate JN; [exists (if b then 1 else 0)%Z; right; eauto|exists z; left; auto]).
  assert (EN : num n = Some (Fin (inject_Z (integer_of n)))) by (destruct IN as (z & [->|([] & -> & _)]); reflexivity).
  rewrite !(judge_cmp flt f0 negative) by apply neg_flt. f_equal. f_equal. f_equal.
  match goal with |- _ = outcome true (first ?L) => match L with ?E ++ ?T => replace (first L) with (match first E with Some e => Some e | None => first T end) by (symmetry; apply first_app); set (tail := T) end end.
  match goal with |- raise_if _ _ (raise_if _ _ (bind ?C (fun _ => ?K))) = _ => assert (EK : K = outcome true (first tail)) end.
  { unfold tail. rewrite !first_app.
    assert (JG : forall e v (k : res unit), praise_if (pcmp flt v f0) e k = orelse (judge negative e v) k) by (intros; apply (judge_cmp flt f0 negative), neg_flt).
    assert (JA : forall e v (k : res unit), praise_if (por (pcmp flt v f0) (pgt v (Fin 360))) e k = orelse (judge (either negative (more_than 360)) e v) k)
      by (intros; apply (judge_or flt f0 negative (fun x c => flt c x) (Fin 360) (more_than 360)); [apply neg_flt|apply more_flt]).
    rewrite (list_judge n _ _ (either negative (more_than 360))) by auto. rewrite (list_judge n _ _ negative) by auto. rewrite (list_judge n _ _ negative) by auto.
    destruct (first (list_table n AngleListLengthIsNotValidException (either negative (more_than 360)) AngleValueIsNotValidException angles)); [reflexivity|]. cbn [orelse].
    destruct (first (list_table n GiListLengthIsNotValidException negative GiValueIsNotValidException Gi)); [reflexivity|]. cbn [orelse]. destruct (first (list_table n HiListLengthIsNotValidException negative HiValueIsNotValidException Hi)); reflexivity. }
  assert (EE : negb (is_none etha) = true -> negb (is_none etha_zone) = true ->
    praise_if (por (pcmp flt etha f0) (pgt etha f1)) EthaValueIsNotValidException (praise_if (por (ple etha_zone f0) (por (pgt2 etha_zone n) (Ok (negb (is_int etha_zone))))) EthaZoneValueIsNotValidException (Ok tt)) =
    outcome tt (first [judge (either negative (more_than 1)) EthaValueIsNotValidException etha; judge_int (either not_positive (more_than (inject_Z (integer_of n)))) EthaZoneValueIsNotValidException etha_zone])).
  { intros _ _. rewrite <- !orelse_first. unfold pgt2. rewrite EN. unfold ple, pgt. rewrite (judge_or flt f0 negative (fun x c => flt c x) f1 (more_than 1)) by (apply neg_flt || apply more_flt).
    rewrite (int_judge_or fle f0 not_positive (fun x c => flt c x) (Fin (inject_Z (integer_of n))) (more_than (inject_Z (integer_of n)))) by (apply npos_fle || apply more_flt). reflexivity. }
  destruct etha as [|b|z|f|t], etha_zone as [|b'|z'|f'|t']; cbn [is_none negb andb raise_if] in *; try reflexivity; try (cbn [bind first]; exact EK);
    rewrite EE by reflexivity; match goal with |- context [outcome tt ?F] => destruct F end; try reflexivity; cbn [outcome bind]; exact EK.
Qed.
Print Assumptions C74_city.
(** On arguments of the declared types these are the checks of the rest of the model. *)
Definition qv (q : Q) : pyval := VFloat (Fin q).
Definition oq (o : option Q) : pyval := match o with Some q => qv q | None => VNone end.
Definition oz (o : option Z) : pyval := match o with Some z => VInt z | None => VNone end.
Lemma judge_q s e q : judge s e (qv q) = if s (Fin q) then Some e else None.
Proof. reflexivity. Qed.
Lemma list_q refused (bad : Q -> bool) e l : (forall q, refused (Fin q) = bad q) -> first (map (judge refused e) (map qv l)) = if existsb bad l then Some e else None.
Proof. intro H. induction l as [|q l IH]; [reflexivity|]. cbn [map existsb]. unfold qv at 1. cbn [judge first]. rewrite H. destruct (bad q); [reflexivity|]. exact IH. Qed.
Lemma raise_if_outcome {A} (b : bool) e (k : res A) : raise_if b e k = orelse (if b then Some e else None) k.
Proof. destruct b; reflexivity. Qed.
Theorem C74_city_typed : forall P, city_validator (VInt (p_n P)) (qv (p_l P)) (qv (p_g P)) (qv (p_p P)) (oq (p_etha P)) (oz (p_etha_zone P))
  (option_map (map qv) (p_angles P)) (option_map (map qv) (p_Gi P)) (option_map (map qv) (p_Hi P)) = parameters_validator P.
Proof.
  intros [n l g p etha zone angles Gi Hi]. cbn [p_n p_l p_g p_p p_etha p_etha_zone p_angles p_Gi p_Hi]. rewrite C74_city. unfold city_table, parameters_validator. cbn [app p_n p_l p_g p_p p_etha p_etha_zone p_angles p_Gi p_Hi].
  rewrite <- !orelse_first. rewrite !raise_if_outcome, !judge_q, !neg_flt. unfold judge_int, judge. rewrite neg_flt. cbn [flt f0].
  assert (EZ : Qltb (inject_Z n) 0 = (n <? 0)%Z) by (destruct (Z.ltb_spec n 0) as [H|H]; [apply Qltb_lt|apply Qltb_ge]; unfold Qlt, Qle; cbn; lia). rewrite EZ.
  destruct (n <? 0)%Z; [reflexivity|]. destruct (Qltb l 0); [reflexivity|]. destruct (Qltb g 0); [reflexivity|]. destruct (Qltb p 0); [reflexivity|]. cbn [orelse]. clear EZ.
  assert (LT : forall elen e refused (bad : Q -> bool) (l : option (list Q)), (forall q, refused (Fin q) = bad q) -> first (list_table (VInt n) elen refused e (option_map (map qv) l)) =
    match l with None => None | Some a => if negb (Z.of_nat (length a) =? n)%Z then Some elen else if existsb bad a then Some e else None end).
  { intros elen e refused bad [a|] H; [|reflexivity]. cbn [option_map list_table first integer_of]. rewrite map_length, (list_q refused bad) by auto. destruct (Z.eqb_spec (Z.of_nat (length a)) n), (Z.eq_dec (Z.of_nat (length a)) n); try contradiction; reflexivity. }
  rewrite !first_app. rewrite (LT _ _ (either negative (more_than 360)) (fun x => Qltb x 0 || Qltb 360 x)) by (intro q; unfold either; rewrite neg_flt, more_flt; reflexivity).
  rewrite !(LT _ _ negative (fun x => Qltb x 0)) by (intro q; rewrite neg_flt; reflexivity). clear LT.
  match goal with |- outcome true (match ?F with Some e => Some e | None => ?T end) = bind ?E (fun _ => ?K) => assert (EK : outcome true T = K); [|assert (EE : outcome tt F = E); [|rewrite <- EE; destruct F; [reflexivity|exact EK]]] end.
  - destruct angles as [a|]; [destruct (negb _); [reflexivity|]; cbn [raise_if]; destruct (existsb _ a); [reflexivity|]|]; cbn [raise_if bind];
    (destruct Gi as [a'|]; [destruct (negb _); [reflexivity|]; cbn [raise_if]; destruct (existsb _ a'); [reflexivity|]|]; cbn [raise_if bind]);
    (destruct Hi as [a''|]; [destruct (negb _); [reflexivity|]; cbn [raise_if]; destruct (existsb _ a''); [reflexivity|]|]; reflexivity).
  - destruct etha as [e|], zone as [z|]; try reflexivity. cbn [oq oz qv]. unfold judge_int. cbn [judge first]. unfold either. rewrite neg_flt, !more_flt, npos_fle. cbn [flt fle f0 integer_of].
    destruct (Qltb e 0 || Qltb 1 e); [reflexivity|].
    assert (E1 : Qleb (inject_Z z) 0 = (z <=? 0)%Z) by (destruct (Z.leb_spec z 0) as [H|H]; [apply Qleb_le|apply Qleb_gt]; unfold Qlt, Qle; cbn; lia).
    assert (E2 : Qltb (inject_Z n) (inject_Z z) = (n <? z)%Z) by (destruct (Z.ltb_spec n z) as [H|H]; [apply Qltb_lt|apply Qltb_ge]; unfold Qlt, Qle; cbn; lia).
    rewrite E1, E2. destruct ((z <=? 0)%Z || (n <? z)%Z); reflexivity.
Qed.
Print Assumptions C74_city_typed.
Theorem C74_node_typed : forall k id x y radius angle width zone name,
  node_init k (VInt id) (qv x) (qv y) (qv radius) (qv angle) (qv width) (VInt zone) (VStr name) =
  let* nd := new_node k id x y radius angle width zone name in Ok (mkANode k (VInt id) (qv x) (qv y) (qv radius) (qv angle) (qv width) (VInt zone) (VStr name)).
Proof.
  intros. unfold node_init, new_node. cbn [is_none raise_if]. unfold praise_if, por, plt, pgt, pcmp, qv. cbn [num bind flt f0].
  assert (E : peq (VInt zone) (VInt 0) = (zone =? 0)%Z). { unfold peq, num, feq, Qeqb, inject_Z, Qeq_bool, Zeq_bool. cbn. destruct zone; reflexivity. }
  rewrite E. destruct (kind_eqb k CBD && negb (zone =? 0)%Z); [reflexivity|]. cbn [raise_if]. destruct (Qltb radius 0); [reflexivity|]. cbn [raise_if]. destruct (Qltb angle 0); [reflexivity|]. cbn [orb bind]. destruct (Qltb 360 angle); [reflexivity|]. cbn [raise_if]. destruct (Qltb width 0); reflexivity.
Qed.
Print Assumptions C74_node_typed.
(** nan and inf pass, since no comparison with nan holds. *)
Theorem C74_city_nan_refuted : exists l g p a, city_validator (VInt 1) l g p VNone VNone (Some [a]) None None = Ok true /\ l = VFloat NaN /\ g = VFloat PInf /\ p = VFloat NaN /\ a = VFloat NaN.
Proof. exists (VFloat NaN), (VFloat PInf), (VFloat NaN), (VFloat NaN). repeat split; reflexivity. Qed.
Print Assumptions C74_city_nan_refuted.
Example C74_city_ex : city_validator (VInt 2) (VInt 10) (qv (1#2)) (VInt 2) (qv (1#2)) (VInt 2) (Some [VInt 0; qv 180]) None (Some [VInt 1; VInt 2]) = Ok true /\
  city_validator (qv 2) (VInt 10) (qv (1#2)) (VInt 2) VNone VNone None None None = Err NIsNotValidNumberException /\
  city_validator VNone (VInt 10) (qv (1#2)) (VInt 2) VNone VNone None None None = Err TypeError /\
  city_validator (VBool true) (VInt 10) (qv (1#2)) (VInt 2) VNone VNone (Some [VInt 360]) None None = Ok true /\
  city_validator (VInt 2) (VInt 10) (VStr "a") (VInt (-2)) VNone VNone None None None = Err TypeError /\
  city_validator (VInt 2) (VInt 10) (VInt 0) (VInt 2) (qv 1) (qv 1) None None None = Err EthaZoneValueIsNotValidException /\
  node_init CBD (VInt 0) (VInt 0) (VInt 0) (VInt 0) (VInt 0) (VInt 2) VNone VNone = Err ZoneIdIsNotValidException /\
  zone_init (VInt 1) (ONode (mkANode Periphery (VInt 1) VNone VNone (VInt 1) (VInt 1) (VInt 1) (VInt 1) (VStr "P"))) OOther = Err SubcenterNodeTypeIsNotValidException.
Proof. vm_compute. repeat split; reflexivity. Qed.

(** ** Parameters of the demand, jumps *)
Theorem C74_demand : forall y a alpha beta, demand_check y a alpha beta = outcome true (first (demand_table y a alpha beta ++ [sum_verdict alpha beta])).
Proof.
  intros. unfold demand_check, demand_table. cbn [app]. rewrite <- !orelse_first, !typed_orelse. unfold plt, pgt, pge.
  rewrite (judge_cmp flt f0 negative) by apply neg_flt.
  rewrite !(judge_or_swap (fun x c => flt c x) f1 (more_than 1) flt f0 negative) by (apply neg_flt || apply more_flt).
  rewrite (judge_or_swap (fun x c => fle c x) f1 (at_least 1) flt f0 negative) by (apply neg_flt || apply least_fle).
  do 7 (match goal with |- orelse ?v _ = _ => destruct v eqn:?; [reflexivity|]; cbn [orelse] end).
  destruct (judge (either negative (at_least 1)) BetaOutOfRangeException beta) eqn:JB; [reflexivity|]. cbn [orelse first].
  match goal with H : judge _ AlphaOutOfRangeException alpha = None |- _ => rename H into JA end.
  assert (FA : forall s e v, judge s e v = None -> (s PInf = true) -> (s NInf = true) -> exists f, num v = Some f /\ (match f with Fin q => finite v = Some q | NaN => finite v = None | _ => False end)).
  { intros s e [|b|z|[q| | |]|t] J P N; cbn in *; try discriminate; try (rewrite P in J; discriminate); try (rewrite N in J; discriminate); eexists; split; reflexivity. }
  destruct (FA _ _ _ JA eq_refl eq_refl) as (x & EX & FX), (FA _ _ _ JB eq_refl eq_refl) as (z & EZ & FZ). rewrite EX, EZ. unfold sum_verdict.
  destruct x as [x| | |]; try contradiction; rewrite FX; destruct z as [z| | |]; try contradiction; rewrite ?FZ; try reflexivity.
  cbn [fadd flt f1 praise_if bind]. destruct (Qlt_le_dec 1 (x + z)) as [H|H]; [apply Qltb_lt in H|apply Qltb_ge in H]; unfold praise_if; cbn [bind]; rewrite H; reflexivity.
Qed.
Print Assumptions C74_demand.
Theorem C74_demand_typed : forall y a alpha beta, demand_check (qv y) (qv a) (qv alpha) (qv beta) = demand_validator y a alpha beta.
Proof.
  intros. unfold demand_check, demand_validator, qv, praise_if, por, plt, pgt, pge, pcmp. cbn [is_int is_float negb andb raise_if num bind flt fle f0 f1 fadd].
  destruct (Qltb y 0); [reflexivity|]. cbn [raise_if]. destruct (Qltb 1 a); [reflexivity|]. cbn [bind orb]. destruct (Qltb a 0); [reflexivity|]. cbn [raise_if].
  destruct (Qltb 1 alpha); [reflexivity|]. cbn [bind orb]. destruct (Qltb alpha 0); [reflexivity|]. cbn [raise_if].
  destruct (Qleb 1 beta); [reflexivity|]. cbn [bind orb]. destruct (Qltb beta 0); reflexivity.
Qed.
Print Assumptions C74_demand_typed.
Theorem C74_demand_nan_refuted : exists y a alpha beta, demand_check y a alpha beta = Ok true /\ y = VFloat NaN /\ a = VFloat NaN /\ alpha = VFloat NaN /\ beta = VFloat NaN.
Proof. exists (VFloat NaN), (VFloat NaN), (VFloat NaN), (VFloat NaN). repeat split; reflexivity. Qed.
Print Assumptions C74_demand_nan_refuted.
Theorem C74_jump : forall n jump, jump_check n jump = outcome tt (first (jump_table n jump)).
Proof.
  intros. unfold jump_check, jump_table, ple, pgt. rewrite (int_judge_or (fun x c => flt c x) _ (more_than (inject_Z (Z.of_nat n) / 2)) fle f0 not_positive) by (intro; apply npos_fle || apply more_flt).
  rewrite <- orelse_first. f_equal. unfold judge_int, judge, either. destruct jump; try reflexivity; rewrite orb_comm; reflexivity.
Qed.
Print Assumptions C74_jump.
Theorem C74_jump_typed : forall g jump, jump_check (length (g_zones g)) (VInt jump) = let* _ := jump_end g jump in Ok tt.
Proof.
  intros. rewrite C74_jump. unfold jump_table, jump_end, judge_int, judge, either. rewrite npos_fle, more_flt. cbn [flt fle f0]. set (n := length (g_zones g)).
  assert (E1 : Qleb (inject_Z jump) 0 = (jump <=? 0)%Z) by (destruct (Z.leb_spec jump 0) as [H|H]; [apply Qleb_le|apply Qleb_gt]; unfold Qlt, Qle; cbn; lia).
  assert (E2 : Qltb (inject_Z (Z.of_nat n) / 2) (inject_Z jump) = (Z.of_nat n <? 2 * jump)%Z) by (destruct (Z.ltb_spec (Z.of_nat n) (2 * jump)) as [H|H]; [apply Qltb_lt|apply Qltb_ge]; unfold Qdiv, Qmult, Qinv, Qlt, Qle, inject_Z; cbn; lia).
  rewrite E1, E2, orb_comm. destruct ((Z.of_nat n <? 2 * jump)%Z || (jump <=? 0)%Z); [reflexivity|]. cbn [raise_if first outcome]. destruct (_ && _); reflexivity.
Qed.
Print Assumptions C74_jump_typed.
Example C74_demand_ex : demand_check (VInt 1000) (qv (1#2)) (qv (1#4)) (qv (1#4)) = Ok true /\ demand_check (VInt 1000) (VStr "x") VNone (qv (1#4)) = Err AIsNotValidException /\
  demand_check (VInt (-1)) (qv (1#2)) (qv (1#4)) VNone = Err BetaIsNotValidException /\ demand_check (VInt 1) (VBool true) (VBool true) (qv (1#4)) = Err AlphaBetaOutOfRangeException /\
  demand_check (VFloat PInf) (VInt 0) (VInt 0) (VInt 1) = Err BetaOutOfRangeException /\
  jump_check 5 (VInt 2) = Ok tt /\ jump_check 5 (VInt 3) = Err JumpIsNotValidException /\ jump_check 5 (qv 1) = Err JumpIsNotValidException /\ jump_check 5 (VBool true) = Ok tt /\ jump_check 5 VNone = Err TypeError.
Proof. vm_compute. repeat split; reflexivity. Qed.

(** ** Modes and travellers *)
Lemma setter_judge {A} a v (k : res A) : (let* _ := setter a v in k) = orelse (mode_verdict a v) k.
Proof.
  assert (G : forall e, a <> A_bya -> mattr_exn a = e -> (let* _ := setter a v in k) = orelse (judge_given (mode_refused a) e v) k).
  { intros e Ha <-. assert (B : forall (c : res bool), (let* _ := raise_if (is_none v) (mattr_exn a) (praise_if c (mattr_exn a) (Ok tt)) in k) = raise_if (is_none v) (mattr_exn a) (praise_if c (mattr_exn a) k)).
    { intro c. destruct (is_none v); [reflexivity|]. cbn. destruct c as [[|]|]; reflexivity. }
    destruct a; try contradiction; cbn [setter mode_refused]; rewrite B; unfold plt, ple, pgt;
      first [apply (given_judge flt f0 negative), neg_flt | apply (given_judge fle f0 not_positive), npos_fle | idtac].
    destruct v; try reflexivity; rewrite (judge_or flt f0 negative (fun x c => flt c x) f1 (more_than 1)) by (apply neg_flt || apply more_flt); reflexivity. }
  destruct a; try (apply G; [discriminate|reflexivity]). clear G. cbn [setter mattr_exn mode_verdict].
  destruct v as [|[|]|z|[q| | |]|t]; try reflexivity.
  - unfold peq, num, is_none, feq. cbn [orb].
    assert (E0 : Qeqb (inject_Z z) (inject_Z 0) = (z =? 0)%Z) by (unfold Qeqb, Qeq_bool, Zeq_bool; cbn; rewrite Z.mul_1_r; destruct (Z.compare_spec z 0), (Z.eqb_spec z 0); lia || reflexivity).
    assert (E1 : Qeqb (inject_Z z) (inject_Z 1) = (z =? 1)%Z) by (unfold Qeqb, Qeq_bool, Zeq_bool; cbn; rewrite Z.mul_1_r; destruct (Z.compare_spec z 1), (Z.eqb_spec z 1); lia || reflexivity).
    rewrite E0, E1. destruct z as [|[p|p|]|p]; reflexivity.
  - unfold peq, num, is_none, feq. cbn [orb].
    assert (E : forall c, Qeqb q c = if Qeq_dec q c then true else false). { intro c. unfold Qeqb. destruct (Qeq_dec q c) as [H|H]; [apply Qeq_bool_iff; auto|]. destruct (Qeq_bool q c) eqn:B; [apply Qeq_bool_iff in B; contradiction|reflexivity]. }
    rewrite !E. change (inject_Z 0) with 0. change (inject_Z 1) with 1. destruct (Qeq_dec q 0); [reflexivity|]. destruct (Qeq_dec q 1); reflexivity.
Qed.
Lemma product_judge {A} a v d (k : res A) : a <> A_bya -> (let* x := vmul v d in let* _ := setter a x in k) = orelse (product_verdict a v d) k.
Proof.
  intro Ha. unfold vmul, product_verdict. assert (S : forall s, (let* _ := setter a (VStr s) in k) = Err TypeError).
  { intro s. destruct a; try contradiction; reflexivity. }
  destruct v, d; cbn [num whole_of bind orelse]; try reflexivity; try apply S; apply setter_judge.
Qed.
Theorem C74_mode : forall name arg, mode_init name arg = outcome tt (first (mode_table name arg)).
Proof.
  intros. unfold mode_init, mode_table. rewrite <- !orelse_first.
  assert (N : forall A (k : res A), (let* _ := name_setter name in k) = orelse (given NameIsNotValidExceptions name) k) by (intros; unfold name_setter; destruct name; reflexivity).
  rewrite N. clear N. cbn [foldM].
  assert (O : forall A a v (k : unit -> res A), (let* y := (let* x := Ok v in setter a x) in k y) = orelse (mode_verdict a v) (k tt)).
  { intros A a v k. cbn [bind]. rewrite <- setter_judge. destruct (setter a v) as [[]|]; reflexivity. }
  assert (M : forall A a v d (k : unit -> res A), a <> A_bya -> (let* y := (let* x := vmul v d in setter a x) in k y) = orelse (product_verdict a v d) (k tt)).
  { intros A a v d k Ha. rewrite <- product_judge by auto. destruct (vmul v d) as [x|]; [|reflexivity]. cbn [bind]. destruct (setter a x) as [[]|]; reflexivity. }
  destruct (given NameIsNotValidExceptions name); [reflexivity|]. cbn [orelse].
  repeat ((etransitivity; [first [apply O | apply M; discriminate]|]); match goal with |- orelse ?v _ = _ => destruct v; [reflexivity|]; cbn [orelse] end).
  reflexivity.
Qed.
Print Assumptions C74_mode.
Theorem C74_passenger : forall arg, passenger_init arg = outcome tt (first (passenger_table arg)).
Proof.
  intros. unfold passenger_init, passenger_table. generalize [P_va; P_pv; P_pw; P_pa; P_pt; P_spv; P_spw; P_spa; P_spt]. intro l. induction l as [|a l IH]; [reflexivity|].
  cbn [foldM map]. rewrite <- orelse_first, <- IH. unfold passenger_setter, passenger_verdict, plt, ple.
  set (k := foldM _ l). set (e := pattr_exn a).
  assert (B : forall (c : res bool), (let* y := raise_if (is_none (arg a)) e (praise_if c e (Ok tt)) in k y) = raise_if (is_none (arg a)) e (praise_if c e (k tt))).
  { intro c. destruct (is_none (arg a)); [reflexivity|]. cbn. destruct c as [[|]|]; reflexivity. }
  rewrite B. destruct a; first [apply (given_judge flt f0 negative), neg_flt | apply (given_judge fle f0 not_positive), npos_fle].
Qed.
Print Assumptions C74_passenger.
(** On numbers and None these are the constructors of Mode.v. *)
Definition ov (o : option fval) : pyval := match o with Some f => VFloat f | None => VNone end.
Definition os (o : option string) : pyval := match o with Some s => VStr s | None => VNone end.
Definition margs (r : mode_args) (a : mattr) : pyval :=
  ov match a with
  | A_bya => ar_bya r | A_co => ar_co r | A_c1 => ar_c1 r | A_c2 => ar_c2 r | A_v => ar_v r | A_t => ar_t r | A_fmax => ar_fmax r
  | A_kmax => ar_kmax r | A_theta => ar_theta r | A_tat => ar_tat r | A_d => ar_d r | A_fini => ar_fini r
  end.
Lemma setter_typed m a o : (let* _ := setter a (ov o) in Ok tt) = let* _ := set_attr_r m a o in Ok tt.
Proof.
  unfold set_attr_r, set_attr. destruct o as [f|]; [|destruct a; reflexivity]. cbn [ov].
  destruct a; cbn [setter rejects is_none raise_if]; unfold praise_if, por, plt, ple, pgt, pcmp; cbn [num bind]; try (destruct (flt f f0); reflexivity); try (destruct (fle f f0); reflexivity).
  - unfold peq. cbn [num orb]. change (inject_Z 0) with 0. change (inject_Z 1) with 1. unfold f0, f1. destruct (feq f (Fin 0)), (feq f (Fin 1)); reflexivity.
  - destruct (flt f f0); cbn [bind raise_if orb]; [reflexivity|]. destruct (flt f1 f); reflexivity.
Qed.
Theorem C74_mode_typed : forall r, mode_init (os (ar_name r)) (margs r) = let* _ := new_mode r in Ok tt.
Proof.
  intro r. unfold mode_init, new_mode. cbn [foldM].
  assert (S : forall m a o (k : unit -> res unit) (k' : tmode -> res tmode), (forall m', k tt = let* _ := k' m' in Ok tt) ->
    (let* y := setter a (ov o) in k y) = let* _ := (let* m' := set_attr_r m a o in k' m') in Ok tt).
  { intros m a o k k' H. generalize (setter_typed m a o). cbn [bind]. destruct (setter a (ov o)) as [[]|e], (set_attr_r m a o) as [m'|e']; cbn; intro E; try discriminate; [apply H|congruence]. }
  assert (P : forall m a o d (k : unit -> res unit) (k' : tmode -> res tmode), a = A_fmax \/ a = A_fini -> (forall m', k tt = let* _ := k' m' in Ok tt) ->
    (let* y := (let* x := vmul (ov o) (ov d) in setter a x) in k y) = let* _ := (let* p := pymul o d in let* m' := set_attr_r m a p in k' m') in Ok tt).
  { intros m a o d k k' Ha H. destruct o as [f|]; [|destruct d; reflexivity]. destruct d as [h|]; [|reflexivity]. cbn [ov vmul num pymul].
    exact (S m a (Some (fmul f h)) k k' H). }
  unfold set_name_r, set_name, blank, os. destruct (ar_name r) as [nm|]; [|reflexivity]. cbn [name_setter is_none raise_if bind]. unfold margs.
  apply S. intro. apply S. intro. apply S. intro. apply S. intro. apply S. intro. apply S. intro.
  apply P; [auto|]. intro. apply S. intro. apply S. intro. apply S. intro. apply S. intro.
  match goal with |- _ = let* _ := (let* fi := ?p in set_attr_r ?m ?a fi) in _ => replace (let* fi := p in set_attr_r m a fi) with (let* fi := p in let* m' := set_attr_r m a fi in Ok m') by (destruct p as [fi|]; [cbn [bind]; destruct (set_attr_r m a fi); reflexivity|reflexivity]) end.
  apply P; [auto|]. reflexivity.
Qed.
Print Assumptions C74_mode_typed.
Theorem C74_passenger_typed : forall args, passenger_init (fun a => ov (args a)) = let* _ := new_passenger args in Ok tt.
Proof.
  intro args. unfold passenger_init, new_passenger. generalize blank_p. generalize [P_va; P_pv; P_pw; P_pa; P_pt; P_spv; P_spw; P_spa; P_spt]. intro l. induction l as [|a l IH]; intro p; [reflexivity|].
  cbn [foldM]. unfold passenger_setter at 1, set_pattr_r at 1, set_pattr. destruct (args a) as [f|]; [|reflexivity]. cbn [ov is_none raise_if]. unfold praise_if, plt, ple, pcmp, prejects. cbn [num].
  destruct a; cbn [bind]; match goal with |- context [raise_if ?b _ _] => destruct b end; try reflexivity; cbn [raise_if bind]; apply IH.
Qed.
Print Assumptions C74_passenger_typed.
(** a nan speed passes *)
Theorem C74_mode_nan_refuted : exists name arg, mode_init name arg = Ok tt /\ arg A_v = VFloat NaN /\ arg A_kmax = VFloat NaN /\ arg A_t = VFloat PInf.
Proof. exists (VInt 0), (fun a => match a with A_v | A_kmax => VFloat NaN | A_t => VFloat PInf | _ => VInt 1 end). repeat split; reflexivity. Qed.
Print Assumptions C74_mode_nan_refuted.
Example C74_mode_ex :
  let arg := fun a => match a with A_v => VInt 20 | A_theta => qv (7#10) | A_bya => VBool true | _ => VInt 1 end in
  mode_init (VStr "bus") arg = Ok tt /\ mode_init VNone arg = Err NameIsNotValidExceptions /\
  mode_init (VStr "bus") (fun a => match a with A_v => VNone | _ => arg a end) = Err VIsNotValidExceptions /\
  mode_init (VStr "bus") (fun a => match a with A_fmax => VNone | _ => arg a end) = Err TypeError /\
  mode_init (VStr "bus") (fun a => match a with A_fmax => VStr "a" | _ => arg a end) = Err TypeError /\
  mode_init (VStr "bus") (fun a => match a with A_bya => VStr "a" | _ => arg a end) = Err ByaIsNotValidExceptions /\
  mode_init (VStr "bus") (fun a => match a with A_co => VStr "a" | _ => arg a end) = Err TypeError /\
  passenger_init (fun _ => VInt 1) = Ok tt /\ passenger_init (fun a => match a with P_va => VBool false | _ => VInt 0 end) = Err VaIsNotValidExceptions /\
  passenger_init (fun a => match a with P_spt => VNone | _ => VInt 1 end) = Err SptIsNotValidExceptions.
Proof. vm_compute. repeat split; reflexivity. Qed.
