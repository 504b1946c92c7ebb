(** Model of /repo/src/network/importance.py.

    The components are known only through their signature ([Network.sig]) and
    the results of their [logpdf] and [simulate]; [rowid] is fixed.  Random
    results live in a monad [M]: the identity monad gives one execution, with
    [sim] whatever the components returned in it (a component is called once
    per weighted sample), and [prog] of Prob.v gives the sampling
    distribution. *)
From Verif Require Export Network LogSpace.

(** [d.update(e)]. *)
Definition dupdate {V} (d e : dict V) : dict V :=
  fold_left (fun d kv => dset (fst kv) (snd kv) d) e d.

(** gu.merged, general.py:50-54. *)
Definition merged {V} (a b : dict V) : dict V := dupdate (dupdate [] a) b.

Definition is_nil {A} (l : list A) : bool := match l with [] => true | _ => false end.

(** Python's [set(a) == set(b)]. *)
Definition same_set (a b : list Z) : bool :=
  forallb (fun x => zmem x b) a && forallb (fun x => zmem x a) b.

(** ImportanceNetwork.__init__, importance.py:28-37: the topological order, or
    the exception of validate_cgpms or topological_sort. *)
Definition network_init (cgpms : list sig) : res (list Z) :=
  rbind (validate_cgpms cgpms) (fun _ =>
    topological_sort (adjacency_list cgpms (variable_to_cgpm cgpms))).

Section Network.
  Context {V : Type} {M : Type -> Type}.
  Variable ret : forall A, A -> M A.
  Variable bind : forall A B, M A -> (A -> M B) -> M B.
  Arguments ret {A} _.
  Arguments bind {A B} _ _.

  (** Sequencing of a computation that may raise. *)
  Definition mbind {A B} (x : M (res A)) (f : A -> M (res B)) : M (res B) :=
    bind x (fun r => match r with Ok a => f a | Err e => ret (Err e) end).

  Variable cgpms : list sig.
  Variable topo : list Z.
  (** [cgpms[l].logpdf(rowid, targets, None, inputs)]. *)
  Variable lp : Z -> dict V -> dict V -> res ext.
  (** [cgpms[l].simulate(rowid, targets, constraints, inputs)]. *)
  Variable sim : Z -> list Z -> dict V -> dict V -> M (res (dict V)).

  (** cgpm_inputs, importance.py:93-97. *)
  Definition cgpm_inputs (l : Z) (inputs sample : dict V) : dict V :=
    dupdate [] (filter (fun ex => zmem (fst ex) (g_inputs (sig_at cgpms l))) (inputs ++ sample)).
  (** cgpm_constraints, importance.py:98-101. *)
  Definition cgpm_constraints (l : Z) (sample : dict V) : dict V :=
    filter (fun ex => zmem (fst ex) (g_outputs (sig_at cgpms l))) sample.
  (** cgpm_targets, importance.py:103. *)
  Definition cgpm_targets (l : Z) (targets : list Z) : list Z :=
    filter (fun q => zmem q (g_outputs (sig_at cgpms l))) targets.

  (** invoke_cgpm, importance.py:92-117. *)
  Definition invoke_cgpm (l : Z) (targets : list Z) (sample inputs : dict V)
    : M (res (dict V * ext)) :=
    let ci := cgpm_inputs l inputs sample in
    let cc := cgpm_constraints l sample in
    let ct := cgpm_targets l targets in
    if (negb (is_nil cc) || negb (is_nil ct)) &&
       negb (forallb (fun i => dmem i ci) (g_inputs (sig_at cgpms l)))
    then ret (Err AssertionError)                                    (* 104-105 *)
    else match (if is_nil cc then Ok (Fin 0) else lp l cc ci) with    (* 106-110 *)
         | Err e => ret (Err e)
         | Ok w => mbind (if is_nil ct then ret (Ok []) else sim l ct cc ci)
                     (fun s => ret (Ok (s, w)))                       (* 111-117 *)
         end.

  (** The loop of weighted_sample, importance.py:84-88. *)
  Fixpoint weighted_loop (rest : list Z) (targets : list Z) (inputs : dict V)
    (sample : dict V) (weight : ext) : M (res (dict V * ext)) :=
    match rest with
    | [] => ret (Ok (sample, weight))
    | l :: rest' =>
        mbind (invoke_cgpm l targets sample inputs) (fun sw =>
          weighted_loop rest' targets inputs (dupdate sample (fst sw)) (eadd weight (snd sw)))
    end.

  Definition targets_all (targets constraints : list Z) : list Z :=
    targets ++ required_inputs cgpms topo targets constraints
                 (extraneous_inputs cgpms (variable_to_cgpm cgpms)).

  (** weighted_sample, importance.py:79-90. *)
  Definition weighted_sample (targets : list Z) (constraints inputs : dict V)
    : M (res (dict V * ext)) :=
    let ta := targets_all targets (dkeys constraints) in
    mbind (weighted_loop topo ta inputs constraints (Fin 0)) (fun sw =>
      if same_set (dkeys (fst sw)) (dkeys constraints ++ ta) then ret (Ok sw)
      else ret (Err AssertionError)).
End Network.

(** One execution. *)
Definition id_ret : forall A : Type, A -> A := fun _ a => a.
Definition id_bind : forall A B : Type, A -> (A -> B) -> B := fun _ _ a f => f a.

Section Queries.
  Context {V : Type}.
  Variables (cgpms : list sig) (topo : list Z).
  (** Particle [i] sees its own component results. *)
  Variable lp : nat -> Z -> dict V -> dict V -> res ext.
  Variable sim : nat -> Z -> list Z -> dict V -> dict V -> res (dict V).

  Definition particle (i : nat) (targets : list Z) (constraints inputs : dict V) : res (dict V * ext) :=
    weighted_sample id_ret id_bind cgpms topo (lp i) (sim i) targets constraints inputs.

  (** The list of particles; [zip( *[])] of no particles cannot be unpacked and
      raises ValueError (importance.py:45-48). *)
  Definition particles (from accuracy : nat) (targets : list Z) (constraints inputs : dict V)
    : res (list (dict V * ext)) :=
    if Nat.eqb accuracy 0 then Err ValueError
    else rsequence (map (fun i => particle i targets constraints inputs) (seq from accuracy)).

  (** [{q: sample[q] for q in targets}], importance.py:54. *)
  Fixpoint project (targets : list Z) (sample : dict V) : res (dict V) :=
    match targets with
    | [] => Ok []
    | q :: ts => match dget q sample with
                 | Some v => rbind (project ts sample) (fun d => Ok (dset q v d))
                 | None => Err KeyError
                 end
    end.

  (** The body of simulate for one sample, importance.py:39-54; particles
      [from .. from+accuracy-1] are used. *)
  Definition simulate_one (draw : list ext -> nat) (from accuracy : nat) (targets : list Z)
    (constraints inputs : dict V) : res (dict V) :=
    rbind (particles from accuracy targets constraints inputs) (fun ps =>
    if forallb (fun sw => eisinf (snd sw)) ps then Err ValueError
    else rbind (if Nat.eqb accuracy 1 then Ok 0%nat
                else log_pflip draw (map snd ps) (seq 0 (length ps)))
           (fun index => match nth_error ps index with
                         | Some sw => project targets (fst sw)
                         | None => Err IndexError
                         end)).

  (** simulate under the @simulate_many wrapper, general.py:403-413: [None] for
      a single sample, [Some n] for a list of n. *)
  Definition simulate_n (draws : nat -> list ext -> nat) (accuracy : nat) (targets : list Z)
    (constraints inputs : dict V) (n : nat) : res (list (dict V)) :=
    rsequence (map (fun k => simulate_one (draws k) (k * accuracy) accuracy targets constraints inputs)
      (seq 0 n)).

  (** logpdf, importance.py:56-77. *)
  Definition network_logpdf (accuracy : nat) (targets constraints inputs : dict V) : res ext :=
    rbind (particles 0 accuracy [] (merged targets constraints) inputs) (fun joint =>
    rbind (logmeanexp (map snd joint)) (fun logp_joint =>
    rbind (if is_nil constraints then Ok [Fin 0]
           else rbind (particles accuracy accuracy [] constraints inputs) (fun ps => Ok (map snd ps)))
      (fun weights_marginal =>
    if forallb eisinf weights_marginal then Err ValueError
    else rbind (logmeanexp weights_marginal) (fun logp_constraints =>
         Ok (esub logp_joint logp_constraints))))).
End Queries.
