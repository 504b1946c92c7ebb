(** The component classes that columns are built from
    (/repo/src/mixtures/dim.py:52-69 with /repo/src/utils/config.py:24-39, 64-70 and
    the classes of /repo/src/primitives and /repo/src/regressions).

    Hyperparameters are numbered in the order in which the constructors list
    them. *)
From Verif Require Export DimFacts PrimScore.
Local Open Scope R_scope.

(** [hypers[name] = v] for the classes with two, one, four, three and no
    hyperparameters: bernoulli.py:40-41, categorical.py:50, normal.py:55-58,
    vonmises.py:51-53, beta.py:45-47. *)
Definition hset_pair (i : nat) (v : R) (h : R * R) : R * R :=
  match i with O => (v, snd h) | 1%nat => (fst h, v) | _ => h end.
Definition hset_one (i : nat) (v : R) (h : R) : R := match i with O => v | _ => h end.
Definition hset_normal (i : nat) (v : R) (h : nhyp) : nhyp :=
  match i with
  | O => NHyp v (n_r h) (n_s h) (n_nu h)
  | 1%nat => NHyp (n_m h) v (n_s h) (n_nu h)
  | 2%nat => NHyp (n_m h) (n_r h) v (n_nu h)
  | 3%nat => NHyp (n_m h) (n_r h) (n_s h) v
  | _ => h
  end.
Definition hset_vm (i : nat) (v : R) (h : vhyp) : vhyp :=
  match i with
  | O => VHyp v (v_b h) (v_k h)
  | 1%nat => VHyp (v_a h) v (v_k h)
  | 2%nat => VHyp (v_a h) (v_b h) v
  | _ => h
  end.
Definition hset_none (i : nat) (v : R) (h : unit) : unit := h.

(** The models of the classes, with their numbers of hyperparameters. *)
Definition M_bernoulli lgam : model := of_prim (Bernoulli lgam) 2 hset_pair.
Definition M_categorical lgam k : model := of_prim (Categorical lgam k) 1 hset_one.
Definition M_geometric lgam : model := of_prim (Geometric lgam) 2 hset_pair.
Definition M_exponential lgam : model := of_prim (Exponential lgam) 2 hset_pair.
Definition M_poisson lgam : model := of_prim (Poisson lgam) 2 hset_pair.
Definition M_normal lgam : model := of_prim (Normal lgam) 4 hset_normal.
Definition M_lognormal lgam : model := of_prim (Lognormal lgam) 4 hset_normal.
Definition M_vonmises lbes : model := of_prim (Vonmises lbes) 3 hset_vm.
Definition M_beta lgam : model := of_prim (Beta lgam) 0 hset_none.
Definition M_normal_trunc lgam cdf lo hi : model :=
  of_prim (NormalTrunc lgam cdf lo hi) 0 hset_none.

(** The eight collapsed classes and the hyperparameters that their assertions
    admit.  [k > 0] is not checked by Vonmises.set_hypers but by its density
    (vonmises.py:170).  The log-gamma function is only used through its
    recurrence. *)
Inductive collapsed : forall M : model, mH M -> Prop :=
| col_bernoulli lgam h : gamma_rec lgam -> 0 < fst h -> 0 < snd h ->
    collapsed (M_bernoulli lgam) h
| col_categorical lgam k h : gamma_rec lgam -> 0 < h -> (0 < k)%nat ->
    collapsed (M_categorical lgam k) h
| col_geometric lgam h : 0 < fst h -> 0 < snd h -> collapsed (M_geometric lgam) h
| col_exponential lgam h : 0 < fst h -> 0 < snd h -> collapsed (M_exponential lgam) h
| col_poisson lgam h : 0 < fst h -> 0 < snd h -> collapsed (M_poisson lgam) h
| col_normal lgam h : 0 < n_r h -> 0 < n_s h -> 0 < n_nu h -> collapsed (M_normal lgam) h
| col_lognormal lgam h : 0 < n_r h -> 0 < n_s h -> 0 < n_nu h ->
    collapsed (M_lognormal lgam) h
| col_vonmises lbes h : 0 < v_a h -> 0 < v_b h <= 2 * PI -> 0 < v_k h ->
    collapsed (M_vonmises lbes) h.

(** All classes: the ten primitives, and any conditional class whose density
    and score do not depend on the order of the rows. *)
Inductive known : model -> Prop :=
| kn_bernoulli lgam : known (M_bernoulli lgam)
| kn_categorical lgam k : known (M_categorical lgam k)
| kn_geometric lgam : known (M_geometric lgam)
| kn_exponential lgam : known (M_exponential lgam)
| kn_poisson lgam : known (M_poisson lgam)
| kn_normal lgam : known (M_normal lgam)
| kn_lognormal lgam : known (M_lognormal lgam)
| kn_vonmises lbes : known (M_vonmises lbes)
| kn_beta lgam : known (M_beta lgam)
| kn_normal_trunc lgam cdf lo hi : known (M_normal_trunc lgam cdf lo hi)
| kn_regression H code pred score n hset coll :
    (forall h l l', Permutation l l' -> score h l = score h l') ->
    (forall h l l' x i, Permutation l l' -> pred h l x i = pred h l' x i) ->
    known (regression H code pred score n hset coll).
