(** * FloatDemand: model of /repo/sidermit/city/demand.py 15-31, 72-98 with the numbers of the machine

    The same functions as in Demand.v, but trips and totals are IEEE 754 doubles as Python's floats (the type
    binary_float 53 1024 of Flocq, rounding to nearest even) instead of exact rationals. *)
From Coq Require Import ZArith List Bool.
From Flocq Require Import IEEE754.BinarySingleNaN.
From Verif Require Import PyBase Graph Demand.
Import ListNotations.

Definition double : Type := binary_float 53 1024.
#[global] Instance prec_double : FLX.Prec_gt_0 53 := eq_refl.
#[global] Instance emax_double : Prec_lt_emax 53 1024 := eq_refl.
Definition fadd (x y : double) : double := Bplus mode_NE x y.
Definition fsub (x y : double) : double := Bminus mode_NE x y.
Definition fzero : double := B754_zero false.

Record fdemand : Type := mkFD { fd_nodes : list node; fd_n : Z; fd_matrix : list (Z * list (Z * double)); fd_total : double }.
(** demand.py 27, 33-38: a zero for each pair of nodes (Demand.default_matrix) *)
Definition new_fdemand (nodes : list node) (n : Z) : fdemand :=
  mkFD nodes n (map (fun '(o, row) => (o, map (fun '(d, _) => (d, fzero)) row)) (default_matrix nodes)) fzero.
(** demand.py 72-91 (change_vij) *)
Definition fchange_vij (D : fdemand) (o d : Z) (v : double) : fdemand * option exn :=
  if Bltb v fzero then (D, Some TripsValueIsNotValidException)
  else
    match dget Z.eqb (fd_matrix D) o with
    | None | Some [] => (D, Some OriginIdDoesNotFoundException)
    | Some row =>
        match dget Z.eqb row d with
        | None => (D, Some DestinationIdDoesNotFoundException)
        | Some old =>
            (mkFD (fd_nodes D) (fd_n D) (dset Z.eqb (fd_matrix D) o (dset Z.eqb row d v)) (fadd (fsub (fd_total D) old) v), None)
        end
    end.
(** reads through the default dictionary, demand.py 27, 93-98 *)
Definition fread_row (D : fdemand) (o : Z) : fdemand := mkFD (fd_nodes D) (fd_n D) (dtouch Z.eqb [] (fd_matrix D) o) (fd_total D).
Definition fread_cell (D : fdemand) (o d : Z) : fdemand :=
  let M := dtouch Z.eqb [] (fd_matrix D) o in
  mkFD (fd_nodes D) (fd_n D) (dset Z.eqb M o (dtouch Z.eqb fzero (dget0 Z.eqb [] M o) d)) (fd_total D).
Inductive fop : Type :=
| FChange (o d : Z) (v : double)
| FReadRow (o : Z)
| FReadCell (o d : Z).
Definition fstep (D : fdemand) (op : fop) : fdemand :=
  match op with
  | FChange o d v => fst (fchange_vij D o d v)
  | FReadRow o => fread_row D o
  | FReadCell o d => fread_cell D o d
  end.
Definition frun (D : fdemand) (ops : list fop) : fdemand := fold_left fstep ops D.
(** the sum of all the cells, added one after the other *)
Definition fsum (D : fdemand) : double := fold_left fadd (flat_map (fun '(_, row) => map snd row) (fd_matrix D)) fzero.
