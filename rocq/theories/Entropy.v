(** Model of /repo/src/utils/entropy_estimators.py: estimators of entropy, mutual
    information and divergence from samples.

    Floats are reals; [psi] stands for scipy's digamma and the arguments [u], [v], [w]
    for the draws of numpy.random.rand.  Points are lists of coordinates and the lists of
    points are rectangular: a ragged list makes numpy raise and is not modelled.  The
    optional warning of micd is not modelled. *)
From Verif Require Export LogSpace.
Local Open Scope R_scope.

(* ------------------------------------------------------------------ *)
(** ** Discrete estimators *)

(** Tuples compare componentwise. *)
Definition pair_eqb {A B} (ea : A -> A -> bool) (eb : B -> B -> bool) (p q : A * B) : bool :=
  ea (fst p) (fst q) && eb (snd p) (snd q).

Section Samples.
  Context {A : Type} (eqb : A -> A -> bool).

  (** [d[s] = d.get(s,0) + 1], entropy_estimators.py:116. *)
  Fixpoint bump (s : A) (d : list (A * nat)) : list (A * nat) :=
    match d with
    | [] => [(s, 1%nat)]
    | (k, n) :: d' => if eqb s k then (k, S n) :: d' else (k, n) :: bump s d'
    end.
  Definition tally (sx : list A) : list (A * nat) := fold_left (fun d s => bump s d) sx [].

  (** hist, entropy_estimators.py:112-117; the order of the values of a dictionary is
      unspecified, here that of the first occurrences. *)
  Definition hist (sx : list A) : list R :=
    map (fun kn => INR (snd kn) / INR (length sx)) (tally sx).
End Samples.

(** elog, entropy_estimators.py:123-128. *)
Definition ent_log (x : R) : R := if Rleb x 0 || Rleb 1 x then 0 else x * ln x.

(** [… / log(base)]: math.log raises ValueError below zero, the division raises
    ZeroDivisionError for base one. *)
Definition per_base (x base : R) : res R :=
  rbind (plog base) (fun lb => if Reqb lb 0 then Err ZeroDivisionError else Ok (x / lb)).

(** entropyfromprobs, entropy_estimators.py:119-121. *)
Definition entropyfromprobs (probs : list R) (base : R) : res R :=
  per_base (- Rsum (map ent_log probs)) base.

(** entropyd, entropy_estimators.py:92-96. *)
Definition entropyd {A} (eqb : A -> A -> bool) (sx : list A) (base : R) : res R :=
  entropyfromprobs (hist eqb sx) base.

(** midd, entropy_estimators.py:98-103. *)
Definition midd {A B} (ea : A -> A -> bool) (eb : B -> B -> bool) (x : list A) (y : list B) (base : R)
  : res R :=
  rbind (entropyd (pair_eqb ea eb) (combine x y) base) (fun hxy =>
  rbind (entropyd ea x base) (fun hx =>
  rbind (entropyd eb y base) (fun hy => Ok (- hxy + hx + hy)))).

(** cmidd, entropy_estimators.py:105-110. *)
Definition cmidd {A B C} (ea : A -> A -> bool) (eb : B -> B -> bool) (ec : C -> C -> bool)
  (x : list A) (y : list B) (z : list C) (base : R) : res R :=
  rbind (entropyd (pair_eqb eb ec) (combine y z) base) (fun hyz =>
  rbind (entropyd (pair_eqb ea ec) (combine x z) base) (fun hxz =>
  rbind (entropyd (pair_eqb ea (pair_eqb eb ec)) (combine x (combine y z)) base) (fun hxyz =>
  rbind (entropyd ec z base) (fun hz => Ok (hyz + hxz - hxyz - hz))))).

(* ------------------------------------------------------------------ *)
(** ** Continuous estimators *)

(** The distance of the maximum norm. *)
Fixpoint dist_inf (p q : list R) : R :=
  match p, q with
  | a :: p', b :: q' => Rmax (Rabs (a - b)) (dist_inf p' q')
  | _, _ => 0
  end.

(** Distances in ascending order, as cKDTree.query returns them. *)
Fixpoint rinsert (a : R) (l : list R) : list R :=
  match l with
  | [] => [a]
  | b :: l' => if Rleb a b then a :: l else b :: rinsert a l'
  end.
Definition rsort (l : list R) : list R := fold_right rinsert [] l.

(** [tree.query(point, k, p=float('inf'))[0][j]], where the tree holds [x]: the distances
    to the [k] nearest points.  For [k == 1] scipy returns a number in place of an array
    of length one, and numbers have no items.  Where there are fewer than [k] points
    scipy answers infinity. *)
Definition query (x : list (list R)) (point : list R) (k j : nat) : res ext :=
  if Nat.eqb k 1 then Err IndexError
  else if (j <? k)%nat then
    match nth_error (rsort (map (dist_inf point) x)) j with
    | Some d => Ok (Fin d)
    | None => Ok PInf
    end
  else Err IndexError.

(** [np.mean(map(log, l))]. *)
Definition mean_log (l : list ext) : res ext :=
  rbind (rsequence (map elog l)) (fun logs => Ok (ediv (esum logs) (Fin (INR (length l))))).

(** [len(x[0])]. *)
Definition width (x : list (list R)) : res nat :=
  match x with p :: _ => Ok (length p) | [] => Err IndexError end.

(** [… / log(base)] where the numerator is a numpy number: dividing by zero does not
    raise. *)
Definition np_per_base (x : ext) (base : R) : res ext :=
  rbind (plog base) (fun lb => Ok (ediv x (Fin lb))).

(** [d * x] for a natural number. *)
Definition emul_nat (d : nat) (x : ext) : ext :=
  match x with
  | Fin a => Fin (INR d * a)
  | _ => if Nat.eqb d 0 then NaN else x
  end.

(** kldiv, entropy_estimators.py:72-89. *)
Definition kldiv (x xp : list (list R)) (k : nat) (base : R) : res ext :=
  if negb (Z.of_nat k <=? Z.of_nat (length x) - 1)%Z then Err AssertionError       (* 77 *)
  else if negb (Z.of_nat k <=? Z.of_nat (length xp) - 1)%Z then Err AssertionError (* 78 *)
  else
    rbind (width x) (fun d =>
    rbind (width xp) (fun d' =>
    if negb (Nat.eqb d d') then Err AssertionError                                 (* 79 *)
    else
      rbind (plog (INR (length xp))) (fun lm =>
      rbind (plog (INR (length x) - 1)) (fun ln1 =>                                (* 83 *)
      rbind (rsequence (map (fun p => query x p (k + 1) k) x)) (fun nn =>          (* 86 *)
      rbind (rsequence (map (fun p => query xp p k (k - 1)) x)) (fun nnp =>        (* 87 *)
      rbind (mean_log nnp) (fun mp =>
      rbind (mean_log nn) (fun m =>
      np_per_base (esub (eadd (Fin (lm - ln1)) (emul_nat d mp)) (emul_nat d m)) base)))))))).                   (* 88-89 *)

(** [\[list(p + intens*nr.rand(len(x\[0\]))) for p in x\]] with [intens = 1e-10],
    entropy_estimators.py:24-25; [u i j] is the draw for coordinate [j] of point [i]. *)
Definition jitter (u : nat -> nat -> R) (x : list (list R)) : list (list R) :=
  map (fun ip => map (fun ja => snd ja + / 10 ^ 10 * u (fst ip) (fst ja))
                   (combine (seq 0 (length (snd ip))) (snd ip)))
    (combine (seq 0 (length x)) x).

(** zip2, entropy_estimators.py:193-196. *)
Definition zip2 (x y : list (list R)) : list (list R) :=
  map (fun pq => fst pq ++ snd pq) (combine x y).

Section Digamma.
  Variable psi : nat -> ext.

  (** avgdigamma, entropy_estimators.py:178-191: query_ball_point finds the points within
      the given distance. *)
  Definition within (d : R) (r : ext) : bool :=
    match r with Fin a => Rleb d (a - / 10 ^ 15) | PInf => true | _ => false end.
  Definition avgdigamma (points : list (list R)) (dvec : list ext) : res ext :=
    if (length dvec <? length points)%nat then Err IndexError
    else Ok (fold_left (fun avg pd =>
      let num := length (filter (fun q => within (dist_inf (fst pd) q) (snd pd)) points) in
      eadd avg (ediv (psi num) (Fin (INR (length points)))))
      (combine points dvec) (Fin 0)).

  (** entropy, entropy_estimators.py:16-29. *)
  Definition entropy (u : nat -> nat -> R) (x : list (list R)) (k : nat) (base : R) : res ext :=
    if negb (Z.of_nat k <=? Z.of_nat (length x) - 1)%Z then Err AssertionError     (* 21 *)
    else
      rbind (width x) (fun d =>
      let x := jitter u x in
      rbind (rsequence (map (fun p => query x p (k + 1) k) x)) (fun nn =>          (* 27 *)
      rbind (mean_log nn) (fun m =>
      np_per_base (eadd (eadd (esub (psi (length x)) (psi k)) (Fin (INR d * ln 2))) (emul_nat d m))
        base))).                                                                   (* 28-29 *)

  (** mi, entropy_estimators.py:31-49. *)
  Definition mi (u v : nat -> nat -> R) (x y : list (list R)) (k : nat) (base : R) : res ext :=
    if negb (Nat.eqb (length x) (length y)) then Err AssertionError                (* 36 *)
    else if negb (Z.of_nat k <=? Z.of_nat (length x) - 1)%Z then Err AssertionError (* 37 *)
    else
      let x := jitter u x in
      let y := jitter v y in
      let points := zip2 x y in
      rbind (rsequence (map (fun p => query points p (k + 1) k) points)) (fun dvec =>
      rbind (avgdigamma x dvec) (fun a =>
      rbind (avgdigamma y dvec) (fun b =>
      np_per_base (eadd (eadd (esub (eopp a) b) (psi k)) (psi (length x))) base))).  (* 45-49 *)

  (** cmi, entropy_estimators.py:51-70; [z] is not checked and zip2 stops at the shortest
      list. *)
  Definition cmi (u v w : nat -> nat -> R) (x y z : list (list R)) (k : nat) (base : R) : res ext :=
    if negb (Nat.eqb (length x) (length y)) then Err AssertionError                (* 56 *)
    else if negb (Z.of_nat k <=? Z.of_nat (length x) - 1)%Z then Err AssertionError (* 57 *)
    else
      let x := jitter u x in
      let y := jitter v y in
      let z := jitter w z in
      let points := map (fun pq => fst pq ++ snd pq) (combine x (zip2 y z)) in
      rbind (rsequence (map (fun p => query points p (k + 1) k) points)) (fun dvec =>
      rbind (avgdigamma (zip2 x z) dvec) (fun a =>
      rbind (avgdigamma (zip2 y z) dvec) (fun b =>
      rbind (avgdigamma z dvec) (fun c =>
      np_per_base (eadd (eadd (esub (eopp a) b) c) (psi k)) base)))).                 (* 66-70 *)
End Digamma.

(* ------------------------------------------------------------------ *)
(** ** The mixed estimator *)

(** micd, entropy_estimators.py:131-150; [ent None x] and
    [ent (Some v) x] are the results of [entropy(x, k, base)] on all the data and on the
    data of value [v], each call with its own draws; an infinite result is not modelled.  The dictionary [word_dict] accumulates [1./n] per occurrence;
    [x\[i\]] raises IndexError when [y] is longer than [x]. *)
Definition micd {P A} (eqb : A -> A -> bool) (ent : option A -> list P -> res R) (x : list P) (y : list A) (k : nat)
  : res R :=
  rbind (ent None x) (fun overall =>
  fold_left (fun acc vn =>
      rbind acc (fun mi =>
      if (length x <? length y)%nat &&
         existsb (fun i => match nth_error y i with Some s => eqb s (fst vn) | None => false end)
           (seq (length x) (length y - length x)) then Err IndexError
      else
      let xgiveny := map fst (filter (fun py => eqb (snd py) (fst vn)) (combine x y)) in
      let weight := INR (snd vn) * (1 / INR (length y)) in
      if (Z.of_nat k <=? Z.of_nat (length xgiveny) - 1)%Z
      then rbind (ent (Some (fst vn)) xgiveny) (fun h => Ok (mi - weight * h))
      else Ok (mi - weight * overall)))
    (tally eqb y) (Ok overall)).
