(** * PredefSpec: the documented predefined lines of a city with n zones

    Ids: CBD 0, periphery of zone z [pid z], subcenter of zone z [scid z] (GraphSpec). *)
From Coq Require Import String Ascii List ZArith QArith Bool.
From Verif Require Import PyBase PyStr Graph GraphSpec Route Network RouteSpec.
Import ListNotations.
Local Open Scope Z_scope.

(** zones 1..k *)
Definition zone_list (k : nat) : list Z := map Z.of_nat (seq 1 k).
(** the zone k places after zone z around the city *)
Definition nxt (n : nat) (z : Z) (k : Z) : Z := (z - 1 + k) mod Z.of_nat n + 1.
(** a line that serves the same nodes backwards on the way back *)
Definition two_way (id : string) (m : mode) (nodes stops : list Z) : route :=
  mkRoute id m nodes (rev nodes) stops (rev stops) PREDEFINED.
Definition line_id (prefix : string) (m : mode) (z : Z) : string :=
  (prefix ++ "_" ++ m_name m ++ "_" ++ str_of_Z z)%string.

Definition feeder_line (m : mode) (z : Z) : route :=
  two_way (line_id "F" m z) m [pid z; scid z] [pid z; scid z].
Definition radial_line (m : mode) (short express : bool) (z : Z) : route :=
  if short then two_way (line_id "RS" m z) m [scid z; 0] [scid z; 0]
  else if express then two_way (line_id "RE" m z) m [pid z; scid z; 0] [pid z; 0]
  else two_way (line_id "R" m z) m [pid z; scid z; 0] [pid z; scid z; 0].
Definition diametral_line (n : nat) (m : mode) (jump : Z) (short express : bool) (z : Z) : route :=
  let z2 := nxt n z jump in
  let id p := line_id (p ++ str_of_Z jump) m z in
  match short, express with
  | true, true => two_way (id "DSE"%string) m [scid z; 0; scid z2] [scid z; scid z2]
  | true, false => two_way (id "DS"%string) m [scid z; 0; scid z2] [scid z; 0; scid z2]
  | false, true => two_way (id "DE"%string) m [pid z; scid z; 0; scid z2; pid z2] [pid z; pid z2]
  | false, false => two_way (id "D"%string) m [pid z; scid z; 0; scid z2; pid z2] [pid z; scid z; 0; scid z2; pid z2]
  end.
(** subcenters of the zones z, z+1, ..., z+jump around the ring *)
Definition ring_part (n : nat) (z jump : Z) : list Z :=
  map (fun k => scid (nxt n z (Z.of_nat k))) (seq 0 (S (Z.to_nat jump))).
Definition tangencial_line (n : nat) (m : mode) (jump : Z) (short express : bool) (z : Z) : route :=
  let z2 := nxt n z jump in
  let id p := line_id (p ++ str_of_Z jump) m z in
  let ring := ring_part n z jump in
  match short, express with
  | true, true => two_way (id "TSE"%string) m ring [scid z; scid z2]
  | true, false => two_way (id "TS"%string) m ring ring
  | false, true => two_way (id "TE"%string) m (pid z :: ring ++ [pid z2]) [pid z; pid z2]
  | false, false => two_way (id "T"%string) m (pid z :: ring ++ [pid z2]) (pid z :: ring ++ [pid z2])
  end.
Definition circular_lines (n : nat) (m : mode) : list route :=
  let there := map scid (zone_list n) ++ [scid 1] in
  let back := map scid (rev (zone_list n)) ++ [scid (Z.of_nat n)] in
  [mkRoute ("CIR_I_" ++ m_name m) m there [] there [] CIRCULAR;
   mkRoute ("CIR_R_" ++ m_name m) m [] back [] back CIRCULAR].

(** number of lines of a diametral or tangencial family *)
Definition family_size (n : nat) (jump : Z) : nat := if (2 * jump =? Z.of_nat n) then Z.to_nat jump else n.

(** a closed one-way line: each node once, back to the start *)
Definition closed_line (l : list Z) : Prop := exists a t, l = a :: t ++ [a] /\ NoDup (a :: t) /\ t <> [].

(** the five generators under one name *)
Inductive family : Type :=
| Circular
| Feeder
| Radial (short express : bool)
| Diametral (jump : Z) (short express : bool)
| Tangencial (jump : Z) (short express : bool).
