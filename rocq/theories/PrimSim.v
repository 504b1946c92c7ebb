(** Model of [simulate] in /repo/src/primitives/*.py, through the wrapper
    simulate_many of /repo/src/utils/general.py.

    Simplification: numpy's generator is a record of functions, one per method used;
    each returns the number drawn for the arguments it is given.  Methods that one
    call of simulate uses more than once also take the number of the draw.  Numpy's
    own checks of the arguments are not modelled. *)
From Verif Require Export Prim LogSpace.
Local Open Scope R_scope.

Record gens : Type := Gens {
  g_choice : list ext -> nat;          (* rng.choice, through pflip *)
  g_gamma : R -> R -> R;               (* rng.gamma(shape, scale) *)
  g_beta : R -> R -> R;                (* rng.beta(a, b) *)
  g_exponential : R -> R;              (* rng.exponential(scale) *)
  g_geometric : R -> R;                (* rng.geometric(p), at least one *)
  g_negbin : R -> R -> R;              (* rng.negative_binomial(n, p) *)
  g_normal : nat -> R -> R -> R;       (* rng.normal(loc, scale) *)
  g_vonmises : nat -> R -> R -> R      (* rng.vonmises(mu, kappa) *)
}.

(** An observed row yields its stored value, e.g. bernoulli.py:71-72; otherwise
    [sample] is drawn. *)
Definition prim_simulate1 {P} (s : pstate P) (rowid : Z) (sample : res R) : res R :=
  match dget rowid (p_data s) with
  | Some v => Ok v
  | None => sample
  end.

(** simulate_many, general.py:403-413: [None] is a single sample, [Some n] a list of
    [n]; [samples i] is what the i-th call draws. *)
Inductive sampled : Type := Single (x : R) | Several (l : list R).
Definition prim_simulate {P} (s : pstate P) (rowid : Z) (n : option nat) (samples : nat -> res R)
  : res sampled :=
  match n with
  | None => rbind (prim_simulate1 s rowid (samples O)) (fun x => Ok (Single x))
  | Some n =>
      rbind (rsequence (map (fun i => prim_simulate1 s rowid (samples i)) (seq 0 n)))
        (fun l => Ok (Several l))
  end.

(** bernoulli.py:73-78; log_pflip without an array returns the index. *)
Definition bern_sample {lgam} (g : gens) (s : pstate (Bernoulli lgam)) : res R :=
  let '(N, x_sum) := p_stats s in let '(alpha, beta) := p_hyp s in
  rbind (bern_predictive 0 N x_sum alpha beta) (fun p0 =>
  rbind (bern_predictive 1 N x_sum alpha beta) (fun p1 =>
  log_pflip (g_choice g) [p0; p1] [INR 0; INR 1])).

(** categorical.py:81-82. *)
Definition cat_sample {lgam k} (g : gens) (s : pstate (Categorical lgam k)) : res R :=
  let '(_, counts) := p_stats s in
  pflip (g_choice g) (map (fun c => Fin (IZR c + p_hyp s)) counts)
    (map INR (seq 0 (length counts))).

(** poisson.py:78-81 with posterior_hypers 161-165. *)
Definition pois_sample {lgam} (g : gens) (s : pstate (Poisson lgam)) : res R :=
  let '(N, sum_x, _) := p_stats s in let '(a, b) := p_hyp s in
  let an := a + sum_x in let bn := b + IZR N in
  Ok (g_negbin g an (bn / (bn + 1))).

(** exponential.py:73-77 with posterior_hypers 154-158. *)
Definition expo_sample {lgam} (g : gens) (s : pstate (Exponential lgam)) : res R :=
  let '(N, sum_x) := p_stats s in let '(a, b) := p_hyp s in
  let an := a + IZR N in let bn := b + sum_x in
  let mu := g_gamma g an (1 / bn) in
  Ok (g_exponential g (1 / mu)).

(** geometric.py:74-77 with posterior_hypers 154-158. *)
Definition geom_sample {lgam} (g : gens) (s : pstate (Geometric lgam)) : res R :=
  let '(N, sum_x) := p_stats s in let '(a, b) := p_hyp s in
  let an := a + IZR N in let bn := b + sum_x in
  let pn := g_beta g an bn in
  Ok (g_geometric g pn - 1).

(** Normal.sample_parameters, normal.py:202-206: (mu, rho). *)
Definition normal_parameters (g : gens) (m r s nu : R) : R * R :=
  let rho := g_gamma g (nu / 2) (2 / s) in
  let mu := g_normal g 0 m (1 / sqrt (rho * r)) in
  (mu, rho).

(** normal.py:90-94. *)
Definition normal_sample {lgam} (g : gens) (s : pstate (Normal lgam)) : res R :=
  let '(N, sum_x, sum_x_sq) := p_stats s in
  let '(mn, rn, sn, nun) := normal_posterior (IZR N) sum_x sum_x_sq (p_hyp s) in
  let '(mu, rho) := normal_parameters g mn rn sn nun in
  Ok (g_normal g 1 mu (/ sqrt rho)).

(** lognormal.py:87-93. *)
Definition lognormal_sample {lgam} (g : gens) (s : pstate (Lognormal lgam)) : res R :=
  let '(N, sum_x, sum_x_sq) := p_stats s in
  let '(mn, rn, sn, nun) := normal_posterior (IZR N) sum_x sum_x_sq (p_hyp s) in
  let '(mu, rho) := normal_parameters g mn rn sn nun in
  Ok (exp (g_normal g 1 mu (/ sqrt rho))).

(** math.atan2(y, x), without signed zeros. *)
Definition atan2 (y x : R) : R :=
  if Rltb 0 x then atan (y / x)
  else if Rltb x 0 then (if Rltb y 0 then atan (y / x) - PI else atan (y / x) + PI)
  else if Rltb 0 y then PI / 2 else if Rltb y 0 then - (PI / 2) else 0.

(** vonmises.py:192-202, second component [bn]. *)
Definition vm_bn (sum_sin sum_cos : R) (h : vhyp) : R :=
  let p_cos := v_k h * sum_cos + v_a h * cos (v_b h) in
  let p_sin := v_k h * sum_sin + v_a h * sin (v_b h) in
  - atan2 p_cos p_sin + PI / 2.

(** vonmises.py:89-96. *)
Definition vm_sample {lbes} (g : gens) (s : pstate (Vonmises lbes)) : res R :=
  let '(N, ss, sc) := p_stats s in
  if vm_guard N (p_hyp s) then
    let an := vm_an ss sc (p_hyp s) in
    let bn := vm_bn ss sc (p_hyp s) in
    let mu := g_vonmises g 0 (bn - PI) an + PI in
    let x := g_vonmises g 1 (mu - PI) (v_k (p_hyp s)) + PI in
    if Rleb 0 x && Rleb x (2 * PI) then Ok x else Err AssertionError
  else Err AssertionError.

(** beta.py:91-94. *)
Definition beta_sample {lgam} (g : gens) (s : pstate (Beta lgam)) : res R :=
  let '(strength, balance) := p_par s in
  Ok (g_beta g (strength * balance) (strength * (1 - balance))).

(** normal_trunc.py:91-97, [n] attempts left, starting with draw [i]. *)
Fixpoint nt_attempts (g : gens) (mu sigma l h : R) (n i : nat) : res R :=
  match n with
  | O => Err RuntimeError
  | S n' =>
      let x := g_normal g i mu sigma in
      if Rleb l x && Rleb x h then Ok x else nt_attempts g mu sigma l h n' (S i)
  end.
Definition nt_sample {lgam cdf l h} (g : gens) (s : pstate (NormalTrunc lgam cdf l h)) : res R :=
  let '(mu, sigma) := p_par s in nt_attempts g mu sigma l h 1000 0.
