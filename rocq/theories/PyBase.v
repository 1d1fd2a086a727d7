(** * PyBase: the Python fragments shared by every model file.

    Exceptions as values, the option-free result monad, exact rational
    comparisons, insertion-ordered dictionaries.  No line of /repo is modelled
    here by itself: these are the data types used by the other files. *)
From Coq Require Import String List ZArith QArith Bool.
Import ListNotations.
Local Open Scope Q_scope.

(** The exception classes that the modelled code can raise: those of
    /repo/sidermit/exceptions/__init__.py that are raised in the modelled
    functions, and the built-in ones. *)
Inductive exn : Type :=
| ZeroDivisionError | IndexError | KeyError | ValueError | TypeError | AttributeError
| AIsNotValidException | AOutOfRangeException | AddModeExceptions
| AddPreviousZonesExceptions | AlphaBetaOutOfRangeException | AlphaIsNotValidException
| AlphaOutOfRangeException | AngleListLengthIsNotValidException | AngleValueIsNotValidException
| BetaIsNotValidException | BetaOutOfRangeException | ByaIsNotValidExceptions
| C1IsNotValidExceptions | C2IsNotValidExceptions | CBDDoesNotExistException
| CircularRouteIsNotValidException | CoIsNotValidExceptions | ConstraintViolationException
| DIsNotValidExceptions | DemandMatrixIsNotValidException | DestinationIdDoesNotFoundException
| EdgeIdIsNotValidException | EdgeIsNotAvailableException | EthaValueIsNotValidException
| EthaValueRequiredException | EthaZoneValueIsNotValidException | EthaZoneValueRequiredException
| FileFormatIsNotValidException | FiniIsNotValidException | FirstStopIsNotValidException
| FmaxIsNotValidExceptions | GIsNotValidNumberException | GiListLengthIsNotValidException
| GiValueIsNotValidException | HiListLengthIsNotValidException | HiValueIsNotValidException
| JumpIsNotValidException | KmaxIsNotValidExceptions | LIsNotValidNumberException
| LastStopIsNotValidException | LineNumberInFileIsNotValidException | ModeDoesNotExistExceptions
| ModeIsNotValidException | ModeNotFoundExceptions | NIsNotValidNumberException
| NameIsNotDefinedException | NameIsNotValidExceptions | NegativeFrequencyException
| NoOptimalSolutionFoundException | NodeAngleIsNotValidException | NodeIdDemandIsNotAnInteger
| NodeIdDuplicatedException | NodeIdIsNotAnInteger | NodeIdIsNotValidException
| NodeRadiusIsNotValidException | NodeSequencesIsNotValidException | NodeTypeIsNotValidException
| NodeWidthIsNotValidException | NotCycleException | OriginIdDoesNotFoundException
| PIsNotValidNumberException | PaIsNotValidExceptions | PajekFormatIsNotValidException
| PeripheryNodeTypeIsNotValidException | PeripherySubcenterNumberForZoneException | PtIsNotValidExceptions
| PvIsNotValidExceptions | PwIsNotValidExceptions | RouteIdDuplicatedException
| RouteIdIsNotValidException | RouteIdNotFoundException | RouteIsNotvalidException
| SpaIsNotValidExceptions | SptIsNotValidExceptions | SpvIsNotValidExceptions
| SpwIsNotValidExceptions | StopSequenceIsNotValidException | StopsSequencesException
| SubcenterNodeTypeIsNotValidException | TIsNotValidExceptions | TatIsNotValidExceptions
| ThetaIsNotValidExceptions | TransportModeException | TransportNetworkException
| TransportNetworkIsNotValidException | TripsValueIsNotValidException | VIsNotValidExceptions
| VaIsNotValidExceptions | VijIsNotValidException | YIsNotValidException
| YOutOfRangeException | ZoneIdIsNotAnInteger | ZoneIdIsNotValidException
| NonTermination (* not a Python exception: fuel of a modelled while loop ran out *)
| NotModelled (* not a Python exception: a float value (NaN) outside the model; proved unreachable where it occurs *).

(** A Python call either returns a value or raises. *)
Inductive res (A : Type) : Type :=
| Ok (a : A)
| Err (e : exn).
Arguments Ok {A} a.
Arguments Err {A} e.

Definition bind {A B : Type} (r : res A) (k : A -> res B) : res B :=
  match r with Ok a => k a | Err e => Err e end.

Notation "'let*' x ':=' r 'in' k" := (bind r (fun x => k))
  (at level 200, x pattern, r at level 100, k at level 200, right associativity).

(** [if c: raise e] followed by the rest. *)
Definition raise_if {A : Type} (c : bool) (e : exn) (k : res A) : res A :=
  if c then Err e else k.

(** A [for] loop whose body may raise. *)
Fixpoint foldM {A S : Type} (f : S -> A -> res S) (l : list A) (s : S) : res S :=
  match l with
  | [] => Ok s
  | x :: l' => let* s' := f s x in foldM f l' s'
  end.

Fixpoint mapM {A B : Type} (f : A -> res B) (l : list A) : res (list B) :=
  match l with
  | [] => Ok []
  | x :: l' => let* y := f x in let* ys := mapM f l' in Ok (y :: ys)
  end.

(** Python list indexing with a non-negative index. *)
Definition py_nth {A : Type} (l : list A) (i : nat) : res A :=
  match nth_error l i with Some a => Ok a | None => Err IndexError end.

(** Exact comparisons on rationals; these stand for the comparisons of Python
    numbers (simplification: floats are exact rationals, no rounding). *)
Definition Qltb (x y : Q) : bool := negb (Qle_bool y x).
Definition Qleb (x y : Q) : bool := Qle_bool x y.
Definition Qeqb (x y : Q) : bool := Qeq_bool x y.
Definition Qmaxb (x y : Q) : Q := if Qltb x y then y else x. (* Python max(x, y) *)

(** True division of numbers. *)
Definition qdiv (x y : Q) : res Q :=
  if Qeqb y 0 then Err ZeroDivisionError else Ok (x / y).

Definition Qsum (l : list Q) : Q := fold_right Qplus 0 l.
Definition Qsumf {A : Type} (f : A -> Q) (l : list A) : Q := Qsum (map f l).

Definition Qofnat (n : nat) : Q := inject_Z (Z.of_nat n).

(** ** Insertion-ordered dictionaries *)
Section Dict.
  Context {K V : Type} (eqb : K -> K -> bool).

  Fixpoint dget (d : list (K * V)) (k : K) : option V :=
    match d with
    | [] => None
    | (k', v) :: d' => if eqb k k' then Some v else dget d' k
    end.

  (** d[k] = v : overwrite in place, or append. *)
  Fixpoint dset (d : list (K * V)) (k : K) (v : V) : list (K * V) :=
    match d with
    | [] => [(k, v)]
    | (k', v') :: d' => if eqb k k' then (k', v) :: d' else (k', v') :: dset d' k v
    end.

  Definition dmem (d : list (K * V)) (k : K) : bool :=
    match dget d k with Some _ => true | None => false end.

  (** value of a default dict: the default when the key is absent *)
  Definition dget0 (dflt : V) (d : list (K * V)) (k : K) : V :=
    match dget d k with Some v => v | None => dflt end.

  (** a READ of a default dict inserts the default when the key is absent *)
  Definition dtouch (dflt : V) (d : list (K * V)) (k : K) : list (K * V) :=
    match dget d k with Some _ => d | None => d ++ [(k, dflt)] end.
End Dict.

Fixpoint zmem (x : Z) (l : list Z) : bool :=
  match l with [] => false | y :: l' => (x =? y)%Z || zmem x l' end.

Fixpoint smem (x : string) (l : list string) : bool :=
  match l with [] => false | y :: l' => (x =? y)%string || smem x l' end.
