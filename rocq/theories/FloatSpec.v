(** * FloatSpec: the product of two floats (IEEE 754, without rounding) *)
From Coq Require Import QArith.
From Verif Require Import PyBase Mode.
Local Open Scope Q_scope.

Definition infinite (x : fval) : Prop := x = PInf \/ x = NInf.
Definition positive_f (x : fval) : Prop := x = PInf \/ exists q, x = Fin q /\ 0 < q.
Definition negative_f (x : fval) : Prop := x = NInf \/ exists q, x = Fin q /\ q < 0.
Definition zero_f (x : fval) : Prop := exists q, x = Fin q /\ q == 0.

Inductive float_product : fval -> fval -> fval -> Prop :=
| product_finite x y : float_product (Fin x) (Fin y) (Fin (x * y))
| product_same_sign a b : infinite a \/ infinite b -> (positive_f a /\ positive_f b) \/ (negative_f a /\ negative_f b) -> float_product a b PInf
| product_other_sign a b : infinite a \/ infinite b -> (positive_f a /\ negative_f b) \/ (negative_f a /\ positive_f b) -> float_product a b NInf
| product_nan_left b : float_product NaN b NaN
| product_nan_right a : float_product a NaN NaN
| product_infinite_zero a b : infinite a -> zero_f b -> float_product a b NaN
| product_zero_infinite a b : zero_f a -> infinite b -> float_product a b NaN.
