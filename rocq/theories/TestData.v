(** Model of the generators of test data, /repo/src/utils/test.py.

    Floats are reals.  What the generator of random numbers answers is an argument, a source for
    each column and each partition: [ask q r i] is the [i]-th answer to the request [q] for row
    [r] of a column, [flip r] the draw of pflip for that row, [dirichlet k a c] the weights of
    cluster [c], [shuffle] the order rng.shuffle leaves.  numpy refuses parameters out of range
    (ValueError).  A partition is a list of natural numbers; an index beyond a list raises
    IndexError.  Not modelled: gen_dims_from_structure,
    column_average_ari, the fixed engines, states and views (303-376). *)
From Verif Require Export LogSpace Grids.
Local Open Scope R_scope.

Inductive request : Type :=
| QBeta (a b : R) | QNormal (mu s : R) | QVonmises (mu k : R) | QPoisson (lam : R) | QExponential (mu : R)
| QGeometric (p : R) | QLognormal (mu s : R) | QUniform.
(** The parameters that numpy takes. *)
Definition takes (q : request) : bool :=
  match q with
  | QBeta a b => Rltb 0 a && Rltb 0 b
  | QNormal _ s | QLognormal _ s => Rltb 0 s
  | QVonmises _ k => Rleb 0 k
  | QPoisson lam => Rleb 0 lam
  | QExponential mu => Rltb 0 mu
  | QGeometric p => Rltb 0 p && Rleb p 1
  | QUniform => true
  end.

(** The classes of columns with their arguments, test.py:433-444. *)
Inductive gclass : Type :=
| GBernoulli | GBeta | GCategorical (k : Z) | GExponential | GGeometric | GLognormal | GNormal
| GTrunc (l h : R) | GPoisson | GVonmises | GOther.

(** scipy.stats.norm.pdf(x, .5, .25). *)
Definition npdf (x : R) : R := exp (- ((x - 5 / 10) / (25 / 100) * ((x - 5 / 10) / (25 / 100))) / 2) / (sqrt (2 * PI) * (25 / 100)).
Definition at_ {A} (l : list A) (i : nat) : res A := match nth_error l i with Some a => Ok a | None => Err IndexError end.
(** [max(Z) + 1]. *)
Definition top (Zs : list nat) : res nat := match Zs with [] => Err ValueError | z :: Zs' => Ok (S (fold_left Nat.max Zs' z)) end.
(** A loop over the rows. *)
Fixpoint rows (f : nat -> nat -> res R) (r : nat) (Zs : list nat) : res (list R) :=
  match Zs with [] => Ok [] | c :: Zs' => rbind (f r c) (fun x => rbind (rows f (S r) Zs') (fun l => Ok (x :: l))) end.

(** The answers of rng during the making of one column or one partition. *)
Record source := Source { ask : request -> nat -> nat -> R; flip : nat -> list ext -> nat;
  dirichlet : nat -> R -> nat -> list R; shuffle : list nat -> list nat }.

Section Gen.
Context (g : source).

Definition asks (q : request) (r i : nat) : res R := if takes q then Ok (ask g q r i) else Err ValueError.

(** _gen_beta_data, test.py:119-133. *)
Definition gen_beta (Zs : list nat) (sep : R) : res (list R) :=
  rbind (top Zs) (fun K =>
  let alphas := linspace (5 / 10 - 5 / 10 * sep * (85 / 100)) (5 / 10 + 5 / 10 * sep * (85 / 100)) K in
  rows (fun r c =>
    rbind (at_ alphas c) (fun alpha =>
    let beta := (1 - alpha) * 20 * npdf alpha in
    let alpha' := alpha * (20 * npdf alpha) in
    asks (QBeta alpha' beta) r 0)) 0 Zs).
(** _gen_normal_data, test.py:135-145. *)
Definition gen_normal (Zs : list nat) (sep : R) : res (list R) :=
  rows (fun r c => asks (QNormal (INR c * (5 * sep)) 1) r 0) 0 Zs.
(** The loop of _gen_normal_trunc_data, test.py:164-171, [fuel] draws at most. *)
Fixpoint attempts (l h mu : R) (r i fuel : nat) : res R :=
  match fuel with
  | O => Err ValueError
  | S fuel' =>
      rbind (asks (QNormal mu 1) r i) (fun x =>
      if Rleb l x && Rleb x h then Ok x else attempts l h mu r (S i) fuel')
  end.
(** _gen_normal_trunc_data, test.py:147-174. *)
Definition gen_trunc (l h : R) (Zs : list nat) (sep : R) : res (list R) :=
  rbind (top Zs) (fun K =>
  let mean := (l + h) / 2 in
  let bins := linspace l h (K + 1) in
  let centers := map (fun i => 5 / 10 * (nth (i - 1) bins 0 + nth i bins 0)) (seq 1 (length bins - 1)) in
  let mus := map (fun bc => bc + (1 - sep) * (mean - bc)) centers in
  rows (fun r c => rbind (at_ mus c) (fun mu => attempts l h mu r 0 101)) 0 Zs).
(** _gen_vonmises_data, test.py:176-192; a negative number has no fractional power. *)
Definition gen_vonmises (Zs : list nat) (sep : R) : res (list R) :=
  rbind (top Zs) (fun K =>
  let s := 2 * PI / INR K in
  let mus := map (fun c => INR c * s) (seq 0 K) in
  if Rltb sep 0 then Err ValueError
  else if Reqb sep 0 then Err ZeroDivisionError                                    (* 183 *)
  else
    let std := s / (5 * Rpower sep (75 / 100)) in
    let k := 1 / (std * std) in
    rows (fun r c => rbind (at_ mus c) (fun mu => rbind (asks (QVonmises mu k) r 0) (fun x => Ok (x + PI)))) 0 Zs).
(** _gen_poisson_data, test.py:194-203. *)
Definition gen_poisson (Zs : list nat) (sep : R) : res (list R) :=
  rows (fun r c => asks (QPoisson (INR c * (4 * sep) + 1)) r 0) 0 Zs.
(** _gen_exponential_data, test.py:205-214. *)
Definition gen_exponential (Zs : list nat) (sep : R) : res (list R) :=
  rows (fun r c => asks (QExponential (INR c * (4 * sep) + 1)) r 0) 0 Zs.
(** _gen_geometric_data, test.py:216-227. *)
Definition gen_geometric (Zs : list nat) (sep : R) : res (list R) :=
  rbind (top Zs) (fun K =>
  let ps := linspace (5 / 10 - 5 / 10 * sep * (85 / 100)) (5 / 10 + 5 / 10 * sep * (85 / 100)) K in
  rows (fun r c => rbind (at_ ps c) (fun p => rbind (asks (QGeometric p) r 0) (fun x => Ok (x - 1)))) 0 Zs).
(** _gen_lognormal_data, test.py:229-241. *)
Definition gen_lognormal (Zs : list nat) (sep : R) : res (list R) :=
  let sep := if Rltb (9 / 10) sep then 9 / 10 else sep in                          (* 232-233 *)
  rows (fun r c => asks (QLognormal (INR c * (9 / 10 * sep ^ 2)) ((1 - sep) / (INR c + 1))) r 0) 0 Zs.
(** _gen_bernoulli_data, test.py:243-258. *)
Definition gen_bernoulli (Zs : list nat) (sep : R) : res (list R) :=
  rbind (top Zs) (fun K =>
  let thetas := linspace 0 sep K in
  rows (fun r c =>
    rbind (at_ thetas c) (fun theta =>
    rbind (asks QUniform r 0) (fun u => Ok (if Rltb u theta then 1 else 0)))) 0 Zs).
(** _gen_categorical_data, test.py:260-277. *)
Definition gen_categorical (k : Z) (Zs : list nat) (sep : R) : res (list R) :=
  let sep := if Rltb (95 / 100) sep then 95 / 100 else sep in                      (* 264-265 *)
  rbind (top Zs) (fun C =>
  if (k <? 1)%Z || negb (Rltb 0 (1 - sep)) then Err ValueError
  else
    let thetas := map (dirichlet g (Z.to_nat k) (1 - sep)) (seq 0 C) in
    rows (fun r c =>
      rbind (at_ thetas c) (fun p =>
      rbind (pflip (flip g r) (map Fin p) (seq 0 (length p))) (fun x => Ok (INR x)))) 0 Zs).

(** The table of generators, test.py:433-444. *)
Definition gen_column (k : gclass) (Zs : list nat) (sep : R) : res (list R) :=
  match k with
  | GBernoulli => gen_bernoulli Zs sep
  | GBeta => gen_beta Zs sep
  | GCategorical n => gen_categorical n Zs sep
  | GExponential => gen_exponential Zs sep
  | GGeometric => gen_geometric Zs sep
  | GLognormal => gen_lognormal Zs sep
  | GNormal => gen_normal Zs sep
  | GTrunc l h => gen_trunc l h Zs sep
  | GPoisson => gen_poisson Zs sep
  | GVonmises => gen_vonmises Zs sep
  | GOther => Err KeyError
  end.

(** gen_partition, test.py:279-287; np.allclose(s, 1). *)
Definition close1 (s : R) : bool := Rleb (Rabs (s - 1)) (1 / 100000000 + 1 / 100000).
Definition gen_partition (N : nat) (weights : list R) : res (list nat) :=
  if negb (forallb (fun w => negb (Reqb w 0)) weights) then Err AssertionError
  else if negb (close1 (fold_left Rplus weights 0)) then Err AssertionError
  else if negb (Nat.leb (length weights) N) then Err AssertionError
  else
    rbind (rsequence (map (fun j => pflip (flip g j) (map Fin weights) (seq 0 (length weights))) (seq 0 (N - length weights)))) (fun l =>
    Ok (shuffle g (seq 0 (length weights) ++ l))).

End Gen.

(** The loop over the columns, test.py:97-103; column [c] with the source [src c]. *)
Fixpoint gen_columns (src : nat -> source) (c : nat) (cols : list (nat * gclass)) (separation : list R) (Zc : list (list nat)) : res (list (list R)) :=
  match cols with
  | [] => Ok []
  | (v, g) :: cols' =>
      rbind (at_ Zc v) (fun Zs =>
      rbind (match separation with s :: _ => Ok s | [] => Err IndexError end) (fun s =>
      rbind (gen_column (src c) g Zs s) (fun t =>
      rbind (gen_columns src (S c) cols' (tl separation) Zc) (fun T => Ok (t :: T)))))
  end.
(** gen_data_table, test.py:30-105; the partition of the columns with the source [vsrc], that
    of the rows of view [v] with [zsrc v], column [c] with [src c]. *)
Definition gen_data_table (vsrc : source) (zsrc src : nat -> source) (n_rows : nat) (view_weights : list R) (cluster_weights : list (list R)) (classes : list gclass)
  (separation : list R) (view_partition : list nat) : res (list (list R) * list nat * list (list nat)) :=
  rbind (match view_partition with [] => gen_partition vsrc (length classes) view_weights | Zv => Ok Zv end) (fun Zv =>
  rbind (rsequence (map (fun '(v, cw) => gen_partition (zsrc v) n_rows cw) (combine (seq 0 (length cluster_weights)) cluster_weights))) (fun Zc =>
  if negb (Nat.eqb (length Zv) (length classes)) then Err AssertionError           (* 91 *)
  else if negb (Nat.eqb (length Zc) (length (nodup Nat.eq_dec Zv))) then Err AssertionError
  else
    rbind (at_ Zc 0) (fun Z0 =>
    if negb (Nat.eqb (length Z0) n_rows) then Err AssertionError
    else rbind (gen_columns src 0 (combine Zv classes) separation Zc) (fun T => Ok (T, Zv, Zc))))).

(** change_column_hyperparameters, test.py:392-406: the new hyperparameters of a column; the
    exception of line 404 is made and not raised. *)
Inductive hname : Type := HAlpha | HBeta | HM | HNu | HR | HS.
Definition new_hypers (g : gclass) (value : R) : res (list (hname * R)) :=
  match g with
  | GBernoulli => Ok [(HAlpha, value); (HBeta, value)]
  | GCategorical _ => Ok [(HAlpha, value)]
  | GNormal => Ok [(HM, value); (HNu, value); (HR, value); (HS, value)]
  | _ => Ok []
  end.
(** change_concentration_hyperparameters of a state, test.py:425-426. *)
Definition new_alphas {A} (old : list (A * R)) (value : R) : list (A * R) := map (fun a => (fst a, value)) old.
(** restrict_evidence_to_query, test.py:429-431. *)
Definition restrict {A B} (query : dict A) (evidence : dict B) : dict B := filter (fun ij => zmem (fst ij) (dkeys query)) evidence.
