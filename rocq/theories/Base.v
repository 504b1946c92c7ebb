(** Shared vocabulary: exceptions as values and Python dictionaries.

    Nothing here models a particular function of /repo; it is the encoding of
    Python's built-in [dict]/[OrderedDict] (insertion-ordered association list
    keyed by integers), of exceptions and of [sorted]. *)
From Coq Require Export List ZArith Lia Bool Permutation Arith Sorted.
Export ListNotations.

(** Python exception classes raised by the modelled code. *)
Inductive exn : Type :=
| ValueError | AssertionError | KeyError | IndexError | TypeError
| RuntimeError | ZeroDivisionError | NotImplementedError
| OverflowError | UnboundLocalError | LinAlgError | AttributeError.

(** Outcome of a Python call: a value, or a raised exception. *)
Inductive res (A : Type) : Type :=
| Ok (a : A)
| Err (e : exn).
Arguments Ok {A} a.
Arguments Err {A} e.

Definition is_ok {A} (r : res A) : bool :=
  match r with Ok _ => true | Err _ => false end.

Definition rbind {A B} (r : res A) (f : A -> res B) : res B :=
  match r with Ok a => f a | Err e => Err e end.

(** Python dictionaries with integer keys, in insertion order. *)
Notation dict A := (list (Z * A)).

Section Dict.
  Context {A : Type}.
  Implicit Types d : dict A.

  (** [d.get(k)]. *)
  Fixpoint dget (k : Z) (d : dict A) : option A :=
    match d with
    | [] => None
    | (k', v) :: d' => if Z.eqb k k' then Some v else dget k d'
    end.

  (** [k in d]. *)
  Definition dmem (k : Z) (d : dict A) : bool :=
    match dget k d with Some _ => true | None => false end.

  (** [d[k] = v]: overwrites in place, or appends a new key. *)
  Fixpoint dset (k : Z) (v : A) (d : dict A) : dict A :=
    match d with
    | [] => [(k, v)]
    | (k', v') :: d' =>
        if Z.eqb k k' then (k, v) :: d' else (k', v') :: dset k v d'
    end.

  (** [del d[k]] (no effect if [k] is absent; callers test membership). *)
  Fixpoint ddel (k : Z) (d : dict A) : dict A :=
    match d with
    | [] => []
    | (k', v') :: d' => if Z.eqb k k' then d' else (k', v') :: ddel k d'
    end.

  (** [d.keys()] and [d.values()]. *)
  Definition dkeys d : list Z := map fst d.
  Definition dvals d : list A := map snd d.
End Dict.

(** [map] over the values of a dictionary. *)
Definition dmap {A B} (f : A -> B) (d : dict A) : dict B :=
  map (fun kv => (fst kv, f (snd kv))) d.

(** [sorted(l)] for lists of integers (insertion sort; stability is irrelevant
    on integers). *)
Fixpoint zinsert (x : Z) (l : list Z) : list Z :=
  match l with
  | [] => [x]
  | y :: l' => if Z.leb x y then x :: l else y :: zinsert x l'
  end.
Fixpoint zsort (l : list Z) : list Z :=
  match l with [] => [] | x :: l' => zinsert x (zsort l') end.

(** [max(l)] of a non-empty list of integers ([None]: Python raises
    ValueError). *)
Fixpoint zmax_list (l : list Z) : option Z :=
  match l with
  | [] => None
  | x :: l' => match zmax_list l' with None => Some x | Some m => Some (Z.max x m) end
  end.

(** Membership test on integer lists: [k in l]. *)
Definition zmem (k : Z) (l : list Z) : bool := existsb (Z.eqb k) l.
