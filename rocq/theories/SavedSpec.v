(** * SavedSpec: reading back the table that routes_to_file writes

    A row has the id of the route, the name of its mode and the four sequences of nodes and stops.  The reader looks the
    mode up by its name and makes a custom Route of the row. *)
From Coq Require Import String List ZArith Bool.
From Verif Require Import PyBase Mode Route Network RouteSpec.
Import ListNotations.

Definition row : Type := string * string * string * string * string * string.
Definition read_row (modes : list mode) (w : row) : res route :=
  let '(id, name, ni, nr, si, sr) := w in
  new_route (Some id) (find (fun m => String.eqb (m_name m) name) modes) (Some ni) (Some nr) (Some si) (Some sr) CUSTOM.

(** the same line, as a custom route *)
Definition as_custom (r : route) : route := mkRoute (r_id r) (r_mode r) (r_ni r) (r_nr r) (r_si r) (r_sr r) CUSTOM.

(** the mode that a call hands to the network *)
Definition op_mode (o : nop) : option mode :=
  match o with NAddRoute r => Some (r_mode r) | NAddMode m => Some m | _ => None end.
(** two objects with the same identity are the same object *)
Definition one_object_each (ops : list nop) : Prop :=
  forall o o' m m', In o ops -> In o' ops -> op_mode o = Some m -> op_mode o' = Some m' -> m_ref m = m_ref m' -> m = m'.
