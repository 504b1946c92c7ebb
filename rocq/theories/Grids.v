(** Model of construct_hyper_grids of the classes of /repo/src/primitives and
    /repo/src/regressions/linreg.py: the values that the hyperparameters of a column may
    take.

    Simplifications.
    - The dictionary of a class is the list of its grids, in the order in which the
      hyperparameters are numbered in Classes.v.
    - [X] are the values that are not missing (dim.py:178-179), all finite.
    - The scaled Bessel functions i0 and i1 are arguments.
    - np.linspace between values that are not both finite is NaN throughout (numpy makes
      the last entry the second value).
    - [n_grid] is not negative. *)
From Verif Require Export Dim Crp.
From Coq Require Import List ZArith Reals Bool.
Import ListNotations.
Local Open Scope R_scope.

(** The cells of a column that are not missing, dim.py:179. *)
Definition present (X : list cell) : list R :=
  concat (map (fun x => match x with Some r => [r] | None => [] end) X).

(** np.linspace. *)
Definition linspace (a b : R) (n : nat) : list R :=
  map (fun i => if (n =? 1)%nat then a else a + INR i * ((b - a) / INR (n - 1))) (seq 0 n).
Definition elinspace (a b : ext) (n : nat) : list ext :=
  match a, b with
  | Fin a, Fin b => map Fin (linspace a b n)
  | _, _ => repeat NaN n
  end.
(** log_linspace, general.py:203-205; math.log raises for numbers that are not positive. *)
Definition log_linspace (a b : R) (n : nat) : res (list R) :=
  rbind (plog a) (fun la => rbind (plog b) (fun lb => Ok (map exp (linspace la lb n)))).

(** np.round: to the nearest integer, halves to the even one. *)
Definition np_round (r : R) : R :=
  let z := Int_part r in
  let f := r - IZR z in
  if Rltb f (1 / 2) then IZR z
  else if Rltb (1 / 2) f then IZR (z + 1)
  else if Z.even z then IZR z else IZR (z + 1).
(** np.unique: sorted, every value once. *)
Fixpoint uinsert (x : R) (l : list R) : list R :=
  match l with
  | [] => [x]
  | y :: l' => if Rltb x y then x :: y :: l' else if Reqb x y then y :: l' else y :: uinsert x l'
  end.
Definition np_unique (l : list R) : list R := fold_right uinsert [] l.

(** np.var, min and max; those of an empty list raise ValueError, np.var is NaN. *)
Definition np_var (l : list R) : R :=
  let m := Rsum l / INR (length l) in
  Rsum (map (fun x => (x - m) * (x - m)) l) / INR (length l).
Definition pmin (l : list R) : res R :=
  match l with [] => Err ValueError | x :: l' => Ok (fold_left Rmin l' x) end.
Definition pmax (l : list R) : res R :=
  match l with [] => Err ValueError | x :: l' => Ok (fold_left Rmax l' x) end.

Definition both {A} (a b : res (list R)) (f : list R -> list R -> A) : res A :=
  rbind a (fun x => rbind b (fun y => Ok (f x y))).
Definition fins (gs : list (list R)) : list (list ext) := map (map Fin) gs.

(** bernoulli.py:110-114. *)
Definition bern_grids (X : list R) (n : nat) : res (list (list ext)) :=
  both (log_linspace 1 (INR (length X)) n) (log_linspace 1 (INR (length X)) n) (fun a b => fins [a; b]).
(** categorical.py:111-114. *)
Definition cat_grids (X : list R) (n : nat) : res (list (list ext)) :=
  rbind (log_linspace 1 (INR (length X)) n) (fun a => Ok (fins [a])).
(** crp.py:149-152; 1. / 0 raises ZeroDivisionError. *)
Definition crp_grids (X : list R) (n : nat) : res (list (list ext)) :=
  if (length X =? 0)%nat then Err ZeroDivisionError
  else rbind (log_linspace (1 / INR (length X)) (INR (length X)) n) (fun a => Ok (fins [a])).
(** exponential.py:109-113. *)
Definition expo_grids (X : list R) (n : nat) : res (list (list ext)) :=
  both (log_linspace (1 / 2) (INR (length X)) n) (log_linspace (1 / 2) (INR (length X)) n) (fun a b => fins [a; b]).
(** geometric.py:109-113. *)
Definition geom_grids (X : list R) (n : nat) : res (list (list ext)) :=
  both (log_linspace 1 (INR (length X) / 2) n) (log_linspace (1 / 10) (INR (length X) / 2) n) (fun a b => fins [a; b]).
(** poisson.py:114-120. *)
Definition pois_grids (X : list R) (n : nat) : res (list (list ext)) :=
  rbind (log_linspace (1 / 10) (INR (length X)) n) (fun b =>
  Ok (fins [np_unique (map np_round (linspace 1 (INR (length X)) n)); b])).
(** normal.py:129-139; numbered m, r, s, nu. *)
Definition normal_grids (X : list R) (n : nat) : res (list (list ext)) :=
  let N := INR (length X) + 1 in
  let ssqdev := np_var X * INR (length X) + 1 in
  rbind (pmin X) (fun lo => rbind (pmax X) (fun hi =>
  rbind (log_linspace (1 / N) N n) (fun r =>
  both (log_linspace (ssqdev / 100) ssqdev n) (log_linspace 1 N n) (fun s nu =>
  fins [linspace lo (hi + 5) n; r; s; nu])))).
(** lognormal.py:131-137. *)
Definition lognormal_grids (X : list R) (n : nat) : res (list (list ext)) :=
  rbind (pmax X) (fun hi =>
  rbind (log_linspace (1 / 10000) hi n) (fun m =>
  rbind (log_linspace (1 / 10) (INR (length X)) n) (fun g => Ok (fins [m; g; g; g])))).

(** Products of floats. *)
Definition emul (x y : ext) : ext :=
  match x, y with
  | NaN, _ | _, NaN => NaN
  | Fin a, Fin b => Fin (a * b)
  | Fin a, i | i, Fin a => if Reqb a 0 then NaN else if Rltb 0 a then i else eopp i
  | PInf, PInf | NInf, NInf => PInf
  | _, _ => NInf
  end.
Section Kappa.
  Variables i0 i1 : ext -> ext.
  (** One step of vonmises.py:222-229. *)
  Definition kappa_step (rbar : R) (kappa : ext) : ext :=
    let A := ediv (i1 kappa) (i0 kappa) in
    esub kappa (ediv (esub A (Fin rbar))
      (esub (esub (Fin 1) (emul A A)) (emul (ediv (Fin 1) kappa) A))).
  (** estimate_kappa, vonmises.py:210-234. *)
  Definition estimate_kappa (N : nat) (ssx scx : R) : ext :=
    match N with
    | O => Fin (/ 1000000)
    | 1%nat => Fin (10 * PI)
    | _ =>
        let rbar2 := ssx / INR N * (ssx / INR N) + scx / INR N * (scx / INR N) in
        let rbar := sqrt rbar2 in
        let kappa := ediv (Fin (rbar * (2 - rbar2))) (Fin (1 - rbar2)) in
        match kappa_step rbar (kappa_step rbar (kappa_step rbar (kappa_step rbar kappa))) with
        | NaN => Fin (/ 1000000)
        | Fin k => Fin (Rabs k)
        | _ => PInf
        end
    end.
  (** vonmises.py:131-140; 1. / 0 raises ZeroDivisionError. *)
  Definition vm_grids (X : list R) (n : nat) : res (list (list ext)) :=
    let N := INR (length X) in
    let k := estimate_kappa (length X) (Rsum (map sin X)) (Rsum (map cos X)) in
    if (length X =? 0)%nat then Err ZeroDivisionError
    else
      rbind (log_linspace (1 / N) N n) (fun a =>
      Ok [map Fin a; map Fin (linspace (2 * PI / INR n) (2 * PI) n); elinspace k (emul (Fin N) k) n]).
End Kappa.

(** beta.py:155-156, normal_trunc.py:148-149, forest.py:158-161. *)
Definition no_grids (X : list R) (n : nat) : res (list (list ext)) := Ok [].
(** linreg.py:191-199: the grids of a and b; without data the variance is NaN. *)
Definition linreg_grids (X : list R) (n : nat) : res (list (list ext)) :=
  let N := INR (length X) + 1 in
  let ssqdev := np_var X * INR (length X) + 1 in
  rbind (log_linspace (1 / (10 * N)) (10 * N) n) (fun a =>
  if (length X =? 0)%nat then Ok [map Fin a; repeat NaN n]
  else rbind (log_linspace (ssqdev / 100) ssqdev n) (fun b => Ok (fins [a; b]))).
