(** * GeoEx: an exact instance of the geometry oracle, used only in Examples and witnesses.

    Correct on the angles 0, 90, 180, 270, 360 and on perfect squares. *)
From Coq Require Import ZArith QArith Bool.
From Verif Require Import PyBase Graph.
Local Open Scope Q_scope.

Definition ex_cos (a : Q) : Q :=
  if Qeqb a 0 then 1 else if Qeqb a 90 then 0 else if Qeqb a 180 then -1
  else if Qeqb a 270 then 0 else if Qeqb a 360 then 1 else 0.
Definition ex_sin (a : Q) : Q :=
  if Qeqb a 0 then 0 else if Qeqb a 90 then 1 else if Qeqb a 180 then 0
  else if Qeqb a 270 then -1 else if Qeqb a 360 then 0 else 1.
Definition ex_sqrt (q : Q) : Q :=
  let r := Qred q in Z.sqrt (Qnum r) # Z.to_pos (Z.sqrt (Zpos (Qden r))).
Definition ex_acos (c : Q) : Q :=
  if Qeqb c 1 then 0 else if Qeqb c (-1) then 180 else 90.
Definition ex_geo : geo := mkGeo ex_cos ex_sin ex_sqrt ex_acos.

Lemma ex_sqrt_compat x y : x == y -> ex_sqrt x == ex_sqrt y.
Proof. intro H. unfold ex_sqrt. rewrite (Qred_complete _ _ H). reflexivity. Qed.
Lemma ex_sqrt_nonneg x : 0 <= ex_sqrt x.
Proof. unfold ex_sqrt, Qle. simpl. rewrite Z.mul_1_r. apply Z.sqrt_nonneg. Qed.
