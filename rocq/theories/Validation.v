(** Model of the constraint checks of /repo/src/utils/validation.py.

    Customers (columns, rows) are integers.  An independence constraint is a
    pair of integers: the check that it has length two (validation.py:60-61)
    is not modelled.  The default bound 1e10 of line 38 is kept. *)
From Verif Require Export Base.
Local Open Scope Z_scope.

(** The loop over one dependence block, validation.py:44-53. *)
Fixpoint vd_block (N : Z) (block : list Z) (counts : dict Z) : res (dict Z) :=
  match block with
  | [] => Ok counts
  | col :: block' =>
      if N <=? col then Err ValueError                               (* 46-47 *)
      else
        let counts1 := if dmem col counts then counts else dset col 0 counts in
        let c := match dget col counts1 with Some c => c | None => 0 end + 1 in
        let counts2 := dset col c counts1 in                         (* 49-51 *)
        if 1 <? c then Err ValueError                                (* 52-53 *)
        else vd_block N block' counts2
  end.

(** Both ends of an independence pair in one block, validation.py:54-57. *)
Definition pair_inside (block : list Z) (p : Z * Z) : bool :=
  zmem (fst p) block && zmem (snd p) block.

(** validation.py:40-57. *)
Fixpoint vd_blocks (N : Z) (Cd : list (list Z)) (Ci : list (Z * Z)) (counts : dict Z)
  : res unit :=
  match Cd with
  | [] => Ok tt
  | block :: Cd' =>
      if Nat.eqb (length block) 1 then Err ValueError                (* 42-43 *)
      else rbind (vd_block N block counts) (fun counts' =>
           if existsb (pair_inside block) Ci then Err ValueError
           else vd_blocks N Cd' Ci counts')
  end.

(** validation.py:58-66. *)
Fixpoint vd_pairs (N : Z) (Ci : list (Z * Z)) : res unit :=
  match Ci with
  | [] => Ok tt
  | (a, b) :: Ci' =>
      if (N <=? a) || (N <=? b) then Err ValueError
      else if a =? b then Err ValueError
      else vd_pairs N Ci'
  end.

(** validate_dependency_constraints, validation.py:34-67. *)
Definition validate_dependency_constraints (N : option Z) (Cd : list (list Z))
  (Ci : list (Z * Z)) : res unit :=
  let N := match N with Some n => n | None => 10000000000 end in
  rbind (vd_blocks N Cd Ci []) (fun _ => vd_pairs N Ci).

(** check_compatible_constraints, validation.py:69-78. *)
Definition check_compatible_constraints (Cd1 : list (list Z)) (Ci1 : list (Z * Z))
  (Cd2 : list (list Z)) (Ci2 : list (Z * Z)) : bool :=
  is_ok (validate_dependency_constraints None Cd1 Ci1) &&
  is_ok (validate_dependency_constraints None Cd1 Ci2) &&
  is_ok (validate_dependency_constraints None Cd2 Ci1) &&
  is_ok (validate_dependency_constraints None Cd2 Ci2).

(** [(a, b) in Ci]. *)
Definition pmem (a b : Z) (Ci : list (Z * Z)) : bool :=
  existsb (fun p => (fst p =? a) && (snd p =? b)) Ci.

(** Row constraints: per column, dependence blocks and independence pairs. *)
Definition rdeps := dict (list (list Z)).
Definition rinds := dict (list (Z * Z)).
Definition dget_nil {A} (k : Z) (d : dict (list A)) : list A :=
  match dget k d with Some l => l | None => [] end.

(** check_compatible_customers, validation.py:80-89. *)
Definition check_compatible_customers (Ci : list (Z * Z)) (Ri : rinds) (Rd : rdeps)
  (a b : Z) : bool :=
  if pmem a b Ci || pmem b a Ci then false
  else if (dmem a Rd || dmem a Ri) && (dmem b Rd || dmem b Ri)
  then check_compatible_constraints (dget_nil a Rd) (dget_nil a Ri) (dget_nil b Rd) (dget_nil b Ri)
  else true.

(** itertools.combinations(l, 2). *)
Fixpoint combinations2 {A} (l : list A) : list (A * A) :=
  match l with
  | [] => []
  | x :: l' => map (fun y => (x, y)) l' ++ combinations2 l'
  end.

(** validate_crp_constrained_input, validation.py:91-104. *)
Definition validate_crp_constrained_input (N : Z) (Cd : list (list Z))
  (Ci : list (Z * Z)) (Rd : rdeps) (Ri : rinds) : res unit :=
  rbind (validate_dependency_constraints (Some N) Cd Ci) (fun _ =>
  rbind (fold_left (fun acc cb => rbind acc (fun _ =>
           validate_dependency_constraints None (snd cb) (dget_nil (fst cb) Ri))) Rd (Ok tt))
  (fun _ =>
  if forallb (fun block => forallb (fun ab =>
       check_compatible_customers Ci Ri Rd (fst ab) (snd ab)) (combinations2 block)) Cd
  then Ok tt else Err ValueError)).

(** [valid and e]: short-circuit conjunction with an expression that may
    raise. *)
Definition andr (valid : bool) (e : unit -> res bool) : res bool :=
  if valid then e tt else Ok false.

(** [all(Zv[block[0]] == Zv[b] for b in block)]: nothing is evaluated on an
    empty block because the generator yields nothing. *)
Fixpoint all_same (get : Z -> res Z) (x0 : Z) (block : list Z) : res bool :=
  match block with
  | [] => Ok true
  | b :: block' =>
      rbind (get x0) (fun v0 => rbind (get b) (fun v =>
      if v0 =? v then all_same get x0 block' else Ok false))
  end.

(** validate_crp_constrained_partition, validation.py:22-32.  [get] is the
    indexing [Zv[_]] of a list or a dictionary. *)
Definition validate_crp_constrained_partition (get : Z -> res Z) (Cd : list (list Z))
  (Ci : list (Z * Z)) (Rd : rdeps) (Ri : rinds) : res bool :=
  rbind (fold_left (fun acc block => rbind acc (fun valid =>
      rbind (andr valid (fun _ => all_same get (hd 0 block) block)) (fun valid1 =>
      Ok (valid1 && forallb (fun ab =>
        check_compatible_customers Ci Ri Rd (fst ab) (snd ab)) (combinations2 block)))))
    Cd (Ok true)) (fun valid =>
  fold_left (fun acc ab => rbind acc (fun valid =>
    andr valid (fun _ => rbind (get (fst ab)) (fun za => rbind (get (snd ab)) (fun zb =>
      Ok (negb (za =? zb))))))) Ci (Ok valid)).
