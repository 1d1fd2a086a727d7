(** * FloatParam: model of /repo/sidermit/city/demand.py 99-220 with the numbers of the machine

    parameters_validator and build_from_parameters of Demand.v with IEEE doubles (as in FloatDemand.v).  The ints in the
    formulas (1, n, n - 1) are converted to doubles, as Python does; n is a number of zones, far below the limit at
    which Python refuses the conversion. *)
From Coq Require Import ZArith List Bool.
From Flocq Require Import IEEE754.BinarySingleNaN.
From Verif Require Import PyBase Graph Demand FloatDemand.
Import ListNotations.

Definition fmul (x y : double) : double := Bmult mode_NE x y.
Definition of_int (z : Z) : double := binary_normalize 53 1024 _ _ mode_NE z 0 false.
Definition fone : double := of_int 1.
(** x / y raises ZeroDivisionError for 0.0 and -0.0 *)
Definition fdiv (x y : double) : res double := match y with B754_zero _ => Err ZeroDivisionError | _ => Ok (Bdiv mode_NE x y) end.

(** demand.py 117-128 *)
Definition fvalidator (y a alpha beta : double) : res bool :=
  raise_if (Bltb y fzero) YOutOfRangeException (
  raise_if (Bltb fone a || Bltb a fzero) AOutOfRangeException (
  raise_if (Bltb fone alpha || Bltb alpha fzero) AlphaOutOfRangeException (
  raise_if (Bleb fone beta || Bltb beta fzero) BetaOutOfRangeException (
  raise_if (Bltb fone (fadd alpha beta)) AlphaBetaOutOfRangeException (
  Ok true))))).

(** demand.py 147-181: the five cell values *)
Record fshares : Type := mkFShares { fs_p_cbd : double; fs_p_sc : double; fs_p_osc : double; fs_sc_cbd : double; fs_sc_osc : double }.
Definition fcompute_shares (n : Z) (y a alpha beta0 : double) : res fshares :=
  let b := fsub fone a in
  let* gagg :=
    (if (1 <? n)%Z then
       let gamma := fsub (fsub fone alpha) beta0 in
       let* alpha_g := fdiv alpha (fsub fone beta0) in
       let* gamma_g := fdiv gamma (fsub fone beta0) in
       Ok (gamma, gamma_g, alpha_g, beta0)
     else Ok (fzero, fzero, fone, fsub fone alpha)) in
  let '(gamma, gamma_g, alpha_g, beta) := gagg in
  let* y_z := (if (n =? 0)%Z then Ok y else fdiv y (of_int n)) in
  let y_p := fmul a y_z in
  let y_sc := fmul b y_z in
  let v_p_cbd := fmul alpha y_p in
  let v_p_sc := fmul beta y_p in
  let* v_p_osc := (if (1 <? n)%Z then fdiv (fmul gamma y_p) (of_int (n - 1)) else Ok fzero) in
  let v_sc_cbd := fmul y_sc alpha_g in
  let* v_sc_osc := (if (1 <? n)%Z then fdiv (fmul y_sc gamma_g) (of_int (n - 1)) else Ok fzero) in
  Ok (mkFShares v_p_cbd v_p_sc v_p_osc v_sc_cbd v_sc_osc).

Definition fchange_r (D : fdemand) (o d : Z) (v : double) : res fdemand :=
  match fchange_vij D o d v with
  | (D', None) => Ok D'
  | (_, Some e) => Err e
  end.
(** demand.py 187-218: the body of the double loop for one pair of ids *)
Definition fparam_cell (s : fshares) (D : fdemand) (od : Z * Z) : res fdemand :=
  let '(o, d) := od in
  let on := find_last_node (fd_nodes D) o in
  let dn := find_last_node (fd_nodes D) d in
  if is_kind CBD on then Ok D
  else if is_kind Periphery dn then Ok D
  else
    let* D := (if is_kind Periphery on && is_kind CBD dn then fchange_r D o d (fs_p_cbd s) else Ok D) in
    let* D := (if is_kind Periphery on && is_kind Subcenter dn && same_zone on dn then fchange_r D o d (fs_p_sc s) else Ok D) in
    let* D := (if is_kind Periphery on && is_kind Subcenter dn && negb (same_zone on dn) then fchange_r D o d (fs_p_osc s) else Ok D) in
    let* D := (if is_kind Subcenter on && is_kind CBD dn then fchange_r D o d (fs_sc_cbd s) else Ok D) in
    let* D := (if is_kind Subcenter on && is_kind Subcenter dn && negb (same_zone on dn) then fchange_r D o d (fs_sc_osc s) else Ok D) in
    Ok D.
(** demand.py 132-220 (build_from_parameters) *)
Definition fdemand_from_parameters (nodes : list node) (n : Z) (y a alpha beta : double) : res fdemand :=
  let D := new_fdemand nodes n in
  let* ok := fvalidator y a alpha beta in
  let* s := fcompute_shares n y a alpha beta in
  foldM (fparam_cell s) (flat_map (fun r => map (fun c => (fst r, fst c)) (snd r)) (fd_matrix D)) D.
