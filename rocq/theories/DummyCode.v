(** Model of dummy coding, /repo/src/utils/data.py:123-159, and of what the linear
    regressions make of a row: /repo/src/regressions/linreg.py:64-83, 225-276 and
    /repo/src/regressions/ols.py:39-62, 172-209.

    Values are floats ([ext]).  Simplifications: the names of statistical types are
    reduced to what _predictor_count asks about them ([stype]); an observation or input
    that is not a number ([None], a string) is not modelled. *)
From Verif Require Export Base Ext LogSpace ParallelMap.
From Coq Require Import List ZArith Reals Bool.
Import ListNotations.
Local Open Scope Z_scope.

(** [int(val)] of a finite float: towards zero. *)
Definition trunc (r : R) : Z := if Rleb 0 r then Int_part r else - Int_part (- r).

(** as_code, data.py:146-157.  [int] of an infinity raises OverflowError, of NaN
    ValueError. *)
Definition as_code (discretes : dict Z) (i : Z) (val : ext) : res (list ext) :=
  match dget i discretes with
  | None => Ok [val]
  | Some k =>
      match val with
      | NaN => Err ValueError
      | PInf | NInf => Err OverflowError
      | Fin v =>
          if negb (Reqb v (IZR (trunc v))) then Err TypeError
          else if negb (Rleb 0 v && Rltb v (IZR k)) then Err ValueError
          else let r := repeat (Fin 0) (Z.to_nat (k - 1)) in
               Ok (if Rltb v (IZR (k - 1)) then set_at r (Z.to_nat (trunc v)) (Fin 1) else r)
      end
  end.

(** [\[as_code(i, val) for i, val in enumerate(x)\]], data.py:158. *)
Fixpoint codes (discretes : dict Z) (i : Z) (x : list ext) : res (list (list ext)) :=
  match x with
  | [] => Ok []
  | v :: x' => rbind (as_code discretes i v) (fun c =>
               rbind (codes discretes (i + 1) x') (fun cs => Ok (c :: cs)))
  end.

(** dummy_code, data.py:123-159. *)
Definition dummy_code (x : list ext) (discretes : dict Z) : res (list ext) :=
  match discretes with
  | [] => Ok x
  | _ => rbind (codes discretes 0 x) (fun cs => Ok (concat cs))
  end.

(** A statistical type with its arguments: numeric, with a number of categories, or
    neither. *)
Inductive stype : Type := Numeric | Categories (k : Z) | Neither.

(** LinearRegression._predictor_count, linreg.py:263-276: one more category than declared;
    the last branch is missing, so that [p] is unbound. *)
Definition linreg_count (t : stype) : res (Z * option Z) :=
  match t with
  | Numeric => Ok (1, None)
  | Categories k => Ok (k, Some (k + 1))
  | Neither => Err UnboundLocalError
  end.
(** OrdinaryLeastSquares._predictor_count, ols.py:174-186. *)
Definition ols_count (t : stype) : res (Z * option Z) :=
  match t with
  | Numeric => Ok (1, None)
  | Categories k => Ok (k - 1, Some k)
  | Neither => Err ValueError
  end.

(** What the constructors remember, linreg.py:66-81 and ols.py:44-59. *)
Record reg : Type := Reg { g_out : Z; g_in : list Z; g_p : Z; g_disc : dict Z }.

(** [{i: c for i, c in enumerate(counts) if c}]. *)
Fixpoint discretes_of (i : Z) (counts : list (option Z)) : dict Z :=
  match counts with
  | [] => []
  | Some c :: l => if c =? 0 then discretes_of (i + 1) l else (i, c) :: discretes_of (i + 1) l
  | None :: l => discretes_of (i + 1) l
  end.
Definition zsum (l : list Z) : Z := fold_right Z.add 0 l.

Definition reg_init (count : stype -> res (Z * option Z)) (outputs inputs : list Z) (types : list stype) : res reg :=
  match outputs with
  | [o] =>
      match inputs with
      | [] => Err AssertionError
      | _ =>
          if zmem o inputs then Err AssertionError
          else if negb (Nat.eqb (length types) (length inputs)) then Err AssertionError
          else rbind (rsequence (map count types)) (fun pc =>
               Ok (Reg o inputs (zsum (map fst pc) + 1) (discretes_of 0 (map snd pc))))
      end
  | _ => Err AssertionError
  end.

(** [set(inputs.keys()) != set(self.inputs)]. *)
Definition same_keys (a b : list Z) : bool :=
  forallb (fun k => zmem k b) a && forallb (fun k => zmem k a) b.

(** The value of the target, linreg.py:243-252 and ols.py:193-198; [None] and the empty
    dictionary are both false. *)
Definition target_of (o : Z) (targets : option (dict ext)) : res (option ext) :=
  match targets with
  | None | Some [] => Ok None
  | Some t => match dget o t with
              | None => Err ValueError
              | Some v => if eisnan v then Err ValueError else Ok (Some v)
              end
  end.

(** LinearRegression.preprocess, linreg.py:239-261. *)
Definition linreg_preprocess (g : reg) (targets : option (dict ext)) (inputs : dict ext) : res (option ext * list ext) :=
  if dmem (g_out g) inputs then Err ValueError
  else rbind (target_of (g_out g) targets) (fun x =>
       if negb (same_keys (dkeys inputs) (g_in g)) then Err ValueError
       else rbind (rsequence (map (fun i => match dget i inputs with Some v => Ok v | None => Err TypeError end) (g_in g))) (fun y =>
            rbind (dummy_code y (g_disc g)) (fun y =>
            if negb (Z.of_nat (length y) =? g_p g - 1) then Err AssertionError
            else Ok (x, Fin 1 :: y)))).

(** OrdinaryLeastSquares.preprocess, ols.py:188-209: no bias, and NaN is refused. *)
Definition ols_preprocess (g : reg) (targets : option (dict ext)) (inputs : dict ext) : res (option ext * list ext) :=
  if dmem (g_out g) inputs then Err ValueError
  else rbind (target_of (g_out g) targets) (fun x =>
       if negb (same_keys (dkeys inputs) (g_in g)) then Err ValueError
       else rbind (rsequence (map (fun i => match dget i inputs with Some v => Ok v | None => Err KeyError end) (g_in g))) (fun y =>
            if existsb eisnan y then Err ValueError
            else
            rbind (dummy_code y (g_disc g)) (fun y =>
            if negb (Z.of_nat (length y) =? g_p g - 1) then Err AssertionError
            else Ok (x, y)))).

(** LinearRegression.input_to_code_index, linreg.py:225-236: for the index of each
    numerical input, its index in the code. *)
Definition code_offset (g : reg) (i : nat) : Z :=
  1 + zsum (map (fun b => match dget b (g_disc g) with Some k => k - 1 | None => 0 end)
                (filter (fun c => dmem c (g_disc g)) (firstn i (g_in g)))) + Z.of_nat i.
Definition input_to_code_index (g : reg) : list (nat * Z) :=
  let avoid := map (fun ik => nth (Z.to_nat (fst ik)) (g_in g) 0) (g_disc g) in
  map (fun c => (c, code_offset g c))
      (filter (fun c => negb (zmem (nth c (g_in g) 0) avoid)) (seq 0 (length (g_in g)))).
