(** Model of the neighbourhoods and local mixtures of MultivariateKnn,
    /repo/src/knn/mvknn.py:174-243, to which the checks of logpdf and simulate in
    Holders.v lead.

    Simplifications.
    - sklearn's KDTree is an argument [near]: [near D x] lists the rows of [D] by their
      Euclidean distance from [x], of which a query for [k] returns the first [k].
    - The choice among equidistant rows, rng.choice without replacement, is an argument
      [choose]; so are the draws of simulate.
    - An infinite value in the data or in the constraints raises ValueError.
    - The types of the outputs are numerical, categorical and nominal; [levels] gives
      the number of categories of the latter two.
    - A category that is not an integer raises IndexError in the density (older numpy
      rounds it towards zero with a warning). *)
From Verif Require Export Holders Prim.
From Coq Require Import List ZArith Reals Bool.
Import ListNotations.
Local Open Scope R_scope.

(** An array of floats without infinities. *)
Definition reals (l : list ext) : res (list R) :=
  rsequence (map (fun e => match e with Fin r => Ok r | _ => Err ValueError end) l).

(** The dictionary of _dummy_code, mvknn.py:240-241; the variables are distinct. *)
Definition levels_at (levels : dict Z) (variables : list Z) : dict Z :=
  concat (map (fun iv => match dget (snd iv) levels with Some k => [(fst iv, k)] | None => [] end)
    (combine (map Z.of_nat (seq 0 (length variables))) variables)).
(** _dummy_code of one row, mvknn.py:239-243. *)
Definition knn_code (levels : dict Z) (variables : list Z) (row : list ext) : res (list R) :=
  rbind (dummy_code row (levels_at levels variables)) reals.

(** The distance of KDTree: sklearn's default metric is the Euclidean one. *)
Definition euclid (p q : list R) : R :=
  sqrt (Rsum (map (fun ab => (fst ab - snd ab) * (fst ab - snd ab)) (combine p q))).

(** np.mean and np.std, mvknn.py:225. *)
Definition mean (l : list R) : R := Rsum l / INR (length l).
Definition std (l : list R) : R := sqrt (mean (map (fun x => (x - mean l) * (x - mean l)) l)).

(** What _create_local_model_numerical and _create_local_model_categorical learn,
    mvknn.py:223-237: location and scale, or the probabilities of the categories. *)
Inductive local : Type := Lnum (mu s : R) | Lcat (p : list R).
Definition learn (levels : dict Z) (q : Z) (locality : list R) : res local :=
  match dget q levels with
  | None => Ok (Lnum (mean locality) (Rmax (std locality) (1 / 100)))
  | Some k =>
      if forallb (fun l => Rleb 0 l && Rltb l (IZR k)) locality then         (* 232 *)
        let counts := map (fun c => Z.of_nat (length (filter (fun l => (trunc l =? Z.of_nat c)%Z) locality)))
                        (seq 0 (Z.to_nat k)) in                              (* 233 *)
        Ok (Lcat (map (fun c => IZR c / IZR (zsum counts)) counts))          (* 234 *)
      else Err AssertionError
  end.

(** [p[x]] of an array; a negative number counts from the end. *)
Definition np_index (p : list R) (x : ext) : res R :=
  match x with
  | Fin r =>
      if is_intb r then
        let i := trunc r in
        let j := if (i <? 0)%Z then (i + Z.of_nat (length p))%Z else i in
        if (0 <=? j)%Z then
          match nth_error p (Z.to_nat j) with Some v => Ok v | None => Err IndexError end
        else Err IndexError
      else Err IndexError
  | _ => Err IndexError
  end.
(** The densities, mvknn.py:227 and 236; np.log of 0 is minus infinity. *)
Definition local_logpdf (m : local) (x : ext) : res ext :=
  match m with
  | Lnum mu s => Ok (match x with Fin r => Fin (norm_logpdf r mu s) | NaN => NaN | _ => NInf end)
  | Lcat p => rbind (np_index p x) (fun v => Ok (if Rltb 0 v then Fin (ln v) else NInf))
  end.

Section Knn.
  Variable near : list (list R) -> list R -> list nat.
  Variable choose : list nat -> nat -> list nat.
  Variable levels : dict Z.
  Variables K M : nat.

  (** The neighbours of the constraints, mvknn.py:195-202. *)
  Definition nearest (D : list (list R)) (x : list R) : list nat :=
    let order := near D x in
    let ds := map (fun j => euclid (nth j D []) x) order in
    let valid := filter (fun i => Rleb (nth i ds 0) (nth (K - 1) ds 0)) (seq 0 (length ds)) in
    if (K <? length valid)%nat then choose (map (fun i => nth i order 0%nat) valid) K
    else firstn K order.

  (** _find_neighborhoods, mvknn.py:174-206: the rows of every locality. *)
  Definition neighborhoods (members : list (list ext)) (targets : list Z) (constraints : dict ext)
    : res (list (list nat)) :=
    match constraints with
    | [] => Err ValueError                                                   (* 175-176 *)
    | _ =>
        if existsb eisnan (map snd constraints) then Err ValueError          (* 177-178 *)
        else if (length members <? K)%nat then Err ValueError                (* 184-186 *)
        else
          let n := length targets in
          rbind (rsequence (map (fun r => knn_code levels targets (firstn n r)) members)) (fun Dq =>
          rbind (rsequence (map (fun r => knn_code levels (dkeys constraints) (skipn n r)) members)) (fun De =>
          let D := map (fun qe => fst qe ++ snd qe) (combine Dq De) in       (* 191 *)
          rbind (knn_code levels (dkeys constraints) (map snd constraints)) (fun x =>
          Ok (map (fun j => firstn (Nat.min M K) (near D (nth j D []))) (nearest De x)))))
    end.

  (** _create_local_model_joint, mvknn.py:208-221, for one locality: a model for every
      target. *)
  Definition learn_joint (members : list (list ext)) (targets : list Z) (ex : list nat) : res (list local) :=
    rsequence (map (fun iq =>
      rbind (reals (map (fun j => nth (fst iq) (nth j members []) NaN) ex)) (fun column =>
      learn levels (snd iq) column)) (combine (seq 0 (length targets)) targets)).
  Definition learn_all (members : list (list ext)) (targets : list Z) (constraints : dict ext)
    : res (list (list local)) :=
    rbind (neighborhoods members targets constraints) (fun exs =>
    rsequence (map (learn_joint members targets) exs)).

  (** [sum(models\[c\].logpdf(x) for c,x in q.iteritems())], mvknn.py:220. *)
  Definition joint_logpdf (models : list local) (values : list ext) : res ext :=
    rbind (rsequence (map (fun mx => local_logpdf (fst mx) (snd mx)) (combine models values))) (fun l =>
    Ok (esum l)).
  (** The end of logpdf, mvknn.py:117-123, for the complete rows [members]. *)
  Definition knn_density (members : list (list ext)) (targets constraints : dict ext) : res ext :=
    rbind (learn_all members (dkeys targets) constraints) (fun models =>
    rbind (rsequence (map (fun m => joint_logpdf m (map snd targets)) models)) (fun lp =>
    rbind (logsumexp lp) (fun z => Ok (esub z (Fin (ln (INR (length models)))))))).

  (** The draws of simulate: the local model of every sample, and the values. *)
  Variable which : nat -> nat -> list nat.            (* rng.choice(len(models), size=N_sim) *)
  Variable gauss : nat -> Z -> R -> R -> R.           (* rng.normal(mu, std) *)
  Variable pick : nat -> Z -> list R -> nat.          (* rng.choice(k, p=p) *)
  (** LocalGpm.simulate, mvknn.py:219, 226 and 235. *)
  Definition local_sample (i : nat) (q : Z) (m : local) : ext :=
    match m with
    | Lnum mu s => Fin (gauss i q mu s)
    | Lcat p => Fin (INR (pick i q p))
    end.
  (** The part of simulate with constraints, mvknn.py:131-141. *)
  Definition knn_sample (members : list (list ext)) (targets : list Z) (constraints : dict ext) (n : Z)
    : res (list (dict ext)) :=
    rbind (learn_all members targets constraints) (fun models =>
    let indices := which (length models) (Z.to_nat n) in
    rsequence (map (fun ij =>
      match nth_error models (snd ij) with
      | Some ms => Ok (map (fun qm => (fst qm, local_sample (fst ij) (fst qm) (snd qm))) (combine targets ms))
      | None => Err IndexError
      end) (combine (seq 0 (length indices)) indices))).
End Knn.
