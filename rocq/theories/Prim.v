(** Model of the primitive distributions of /repo/src/primitives.

    Every DistributionGpm subclass has the same shape: a [data] dictionary
    from row ids to observed values, incrementally maintained sufficient
    statistics, hyperparameters and (for the uncollapsed ones) parameters.  The
    shape is modelled once, by the record [prim] of class-specific pieces and
    by the generic methods below it; each class is then one [prim].

    Simplifications.
    - An observation/target is the single value of the single output column,
      so the assertions that the keys of the observation are exactly the
      output, and that inputs and constraints are empty
      (distribution.py:51-53,56-59), are not modelled.
    - Values are real numbers; floats are exact.
    - [gammaln]/[lgamma] (scipy, math), the log of the modified Bessel function
      [i0] and the normal cdf are arguments of the definitions; [betaln] is
      written with [gammaln].
    - Python's [dict] is an insertion-ordered association list. *)
From Verif Require Export Ext.
Local Open Scope R_scope.

Record prim : Type := Prim {
  pS : Type;                          (* sufficient statistics *)
  pH : Type;                          (* hyperparameters *)
  pQ : Type;                          (* parameters *)
  p_init : pS;
  p_check : R -> res R;               (* accept (value stored) or raise *)
  p_add : R -> pS -> pS;              (* statistics update of incorporate *)
  p_rem : R -> pS -> pS;              (* statistics update of unincorporate *)
  p_hok : pH -> bool;                 (* assertions of set_hypers *)
  p_inb : R -> bool;                  (* support test of logpdf *)
  p_pred : pH -> pQ -> pS -> R -> res ext;   (* calc_predictive_logp etc. *)
  p_score : pH -> pQ -> pS -> res ext;       (* logpdf_score *)
  p_coll : bool                       (* is_collapsed *)
}.

Record pstate (P : prim) : Type := PState {
  p_data : dict R;
  p_stats : pS P;
  p_hyp : pH P;
  p_par : pQ P
}.
Arguments PState {P}.
Arguments p_data {P}. Arguments p_stats {P}.
Arguments p_hyp {P}. Arguments p_par {P}.

Section Generic.
  Context (P : prim).
  Notation st := (pstate P).

  (** Freshly constructed object, e.g. bernoulli.py:32-44 with
      distribution.py:42-48. *)
  Definition prim_new (h : pH P) (q : pQ P) : st := PState [] (p_init P) h q.

  (** incorporate, e.g. bernoulli.py:46-53 with distribution.py:50-53: the
      row must be new, then the value is checked, then the statistics and the
      data dictionary are updated.  Returns the object after the call and the
      outcome of the call. *)
  Definition prim_incorporate (s : st) (rowid : Z) (x : R) : st * res unit :=
    if dmem rowid (p_data s) then (s, Err AssertionError)
    else match p_check P x with
         | Err e => (s, Err e)
         | Ok v =>
             (PState (dset rowid v (p_data s)) (p_add P v (p_stats s))
                (p_hyp s) (p_par s), Ok tt)
         end.

  (** unincorporate, e.g. bernoulli.py:55-58: [self.data.pop(rowid)] raises
      KeyError on an unknown row. *)
  Definition prim_unincorporate (s : st) (rowid : Z) : st * res unit :=
    match dget rowid (p_data s) with
    | None => (s, Err KeyError)
    | Some x =>
        (PState (ddel rowid (p_data s)) (p_rem P x (p_stats s))
           (p_hyp s) (p_par s), Ok tt)
    end.

  (** logpdf, e.g. bernoulli.py:60-66 with distribution.py:55-59. *)
  Definition prim_logpdf (s : st) (rowid : Z) (x : R) : res ext :=
    if dmem rowid (p_data s) then Err AssertionError
    else if p_inb P x then p_pred P (p_hyp s) (p_par s) (p_stats s) x
    else Ok NInf.

  (** logpdf_score, e.g. bernoulli.py:80-82. *)
  Definition prim_logpdf_score (s : st) : res ext :=
    p_score P (p_hyp s) (p_par s) (p_stats s).

  (** set_hypers, e.g. bernoulli.py:91-95: all assertions precede all
      assignments in every class. *)
  Definition prim_set_hypers (s : st) (h : pH P) : st * res unit :=
    if p_hok P h then (PState (p_data s) (p_stats s) h (p_par s), Ok tt)
    else (s, Err AssertionError).

  (** Assignment of the parameters by transition_params (beta.py:108-136,
      normal_trunc.py:112-130); a no-op in the collapsed classes.  The new
      parameters are those returned by the sampler. *)
  Definition prim_set_params (s : st) (q : pQ P) : st * res unit :=
    (PState (p_data s) (p_stats s) (p_hyp s) q, Ok tt).

  (** Histories of calls on one object. *)
  Inductive pop : Type :=
  | OpInc (rowid : Z) (x : R)
  | OpUninc (rowid : Z)
  | OpHypers (h : pH P)
  | OpParams (q : pQ P).

  Definition prim_step (s : st) (o : pop) : st * res unit :=
    match o with
    | OpInc r x => prim_incorporate s r x
    | OpUninc r => prim_unincorporate s r
    | OpHypers h => prim_set_hypers s h
    | OpParams q => prim_set_params s q
    end.

  Fixpoint prim_run (s : st) (ops : list pop) : st * list (pop * res unit) :=
    match ops with
    | [] => (s, [])
    | o :: ops' =>
        let '(s1, r) := prim_step s o in
        let '(s2, tr) := prim_run s1 ops' in
        (s2, (o, r) :: tr)
    end.
End Generic.

Arguments OpInc {P}. Arguments OpUninc {P}.
Arguments OpHypers {P}. Arguments OpParams {P}.

(** scipy.special.betaln, written with gammaln. *)
Definition betaln (lgam : R -> R) (a b : R) : R := lgam a + lgam b - lgam (a + b).

(* ------------------------------------------------------------------ *)
(** ** Bernoulli (bernoulli.py) *)

(** [x in [0, 1]], bernoulli.py:49,63. *)
Definition bern_inb (x : R) : bool := Reqb x 0 || Reqb x 1.

(** bernoulli.py:140-146. *)
Definition bern_predictive (x : R) (N : Z) (x_sum alpha beta : R) : res ext :=
  rbind (plog (IZR N + alpha + beta)) (fun log_denom =>
  if Reqb x 1
  then rbind (plog (x_sum + alpha)) (fun l => Ok (Fin (l - log_denom)))
  else rbind (plog (IZR N - x_sum + beta)) (fun l => Ok (Fin (l - log_denom)))).

(** bernoulli.py:148-150. *)
Definition bern_marginal (lgam : R -> R) (N : Z) (x_sum alpha beta : R) : R :=
  betaln lgam (x_sum + alpha) (IZR N - x_sum + beta) - betaln lgam alpha beta.

(** bernoulli.py:25-150; statistics (N, x_sum), hyperparameters
    (alpha, beta). *)
Definition Bernoulli (lgam : R -> R) : prim := {|
  pS := Z * R; pH := R * R; pQ := unit;
  p_init := (0%Z, 0);                                        (* 37-38 *)
  p_check := fun x => if bern_inb x then Ok x else Err ValueError; (* 49-50 *)
  p_add := fun x s => ((fst s + 1)%Z, snd s + x);            (* 51-52 *)
  p_rem := fun x s => ((fst s - 1)%Z, snd s - x);            (* 57-58 *)
  p_hok := fun h => Rltb 0 (fst h) && Rltb 0 (snd h);        (* 92-93 *)
  p_inb := bern_inb;                                         (* 63 *)
  p_pred := fun h _ s x => bern_predictive x (fst s) (snd s) (fst h) (snd h);
  p_score := fun h _ s =>
    Ok (Fin (bern_marginal lgam (fst s) (snd s) (fst h) (snd h)));
  p_coll := true                                           (* 121-122 *)
|}.

(* ------------------------------------------------------------------ *)
(** ** Categorical (categorical.py) *)

(** [x % 1 == 0 and 0 <= x < self.k], categorical.py:56,71. *)
Definition cat_inb (k : nat) (x : R) : bool :=
  is_intb x && Rleb 0 x && Rltb x (INR k).

(** Python's [int(x)] on a non-negative value, used as an array index. *)
Definition to_index (x : R) : nat := Z.to_nat (Int_part x).

(** [counts[i] += d]. *)
Fixpoint upd_nth (i : nat) (d : Z) (l : list Z) : list Z :=
  match l, i with
  | [], _ => []
  | c :: l', O => (c + d)%Z :: l'
  | c :: l', S i' => c :: upd_nth i' d l'
  end.

(** categorical.py:144-148. *)
Definition cat_predictive (x : R) (counts : list Z) (alpha : R) : res ext :=
  rbind (plog (alpha + IZR (nth (to_index x) counts 0%Z))) (fun numer =>
  rbind (plog (Rsum (map IZR counts) + alpha * INR (length counts))) (fun denom =>
  Ok (Fin (numer - denom)))).

(** categorical.py:150-155. *)
Definition cat_marginal (lgam : R -> R) (N : Z) (counts : list Z) (alpha : R) : R :=
  let K := INR (length counts) in
  let A := K * alpha in
  let lg := Rsum (map (fun c => lgam (IZR c + alpha)) counts) in
  lgam A - lgam (A + IZR N) + lg - K * lgam alpha.

(** categorical.py:27-155; statistics (N, counts), hyperparameter alpha,
    distarg k.  The stored value [int(x)] is modelled by [x] rounded to the
    integer below. *)
Definition Categorical (lgam : R -> R) (k : nat) : prim := {|
  pS := Z * list Z; pH := R; pQ := unit;
  p_init := (0%Z, repeat 0%Z k);                              (* 47-48 *)
  p_check := fun x =>
    if cat_inb k x then Ok (IZR (Int_part x)) else Err ValueError; (* 56-58 *)
  p_add := fun x s => ((fst s + 1)%Z, upd_nth (to_index x) 1 (snd s)); (* 59-60 *)
  p_rem := fun x s => ((fst s - 1)%Z, upd_nth (to_index x) (-1) (snd s)); (* 65-66 *)
  p_hok := fun h => Rltb 0 h;                                 (* 95 *)
  p_inb := cat_inb k;                                         (* 71 *)
  p_pred := fun h _ s x => cat_predictive x (snd s) h;
  p_score := fun h _ s => Ok (Fin (cat_marginal lgam (fst s) (snd s) h));
  p_coll := true                                           (* 121-122 *)
|}.

(* ------------------------------------------------------------------ *)
(** ** Geometric (geometric.py) *)

(** [x % 1 == 0 and x >= 0], geometric.py:50,64 and poisson.py:52,68. *)
Definition nat_inb (x : R) : bool := is_intb x && Rleb 0 x.

(** geometric.py:154-162. *)
Definition geom_log_Z (lgam : R -> R) (a b : R) : R := betaln lgam a b.
(** geometric.py:139-145. *)
Definition geom_predictive (lgam : R -> R) (x : R) (N : Z) (sum_x a b : R) : R :=
  let an := a + IZR N in let bn := b + sum_x in
  let am := a + IZR (N + 1) in let bm := b + (sum_x + x) in
  geom_log_Z lgam am bm - geom_log_Z lgam an bn.
(** geometric.py:147-152. *)
Definition geom_marginal (lgam : R -> R) (N : Z) (sum_x a b : R) : R :=
  geom_log_Z lgam (a + IZR N) (b + sum_x) - geom_log_Z lgam a b.

(** geometric.py:22-162; statistics (N, sum_x), hyperparameters (a, b).
    The error branch of line 51 evaluates [ValueError(..) % str(x)], which
    raises TypeError. *)
Definition Geometric (lgam : R -> R) : prim := {|
  pS := Z * R; pH := R * R; pQ := unit;
  p_init := (0%Z, 0);                                         (* 38-39 *)
  p_check := fun x => if nat_inb x then Ok x else Err TypeError; (* 50-51 *)
  p_add := fun x s => ((fst s + 1)%Z, snd s + x);             (* 52-53 *)
  p_rem := fun x s => ((fst s - 1)%Z, snd s - x);             (* 58-59 *)
  p_hok := fun h => Rltb 0 (fst h) && Rltb 0 (snd h);         (* 91-92 *)
  p_inb := nat_inb;
  p_pred := fun h _ s x =>
    Ok (Fin (geom_predictive lgam x (fst s) (snd s) (fst h) (snd h)));
  p_score := fun h _ s =>
    Ok (Fin (geom_marginal lgam (fst s) (snd s) (fst h) (snd h)));
  p_coll := true                                           (* 120-121 *)
|}.

(* ------------------------------------------------------------------ *)
(** ** Exponential (exponential.py) *)

(** exponential.py:160-163 and poisson.py:167-170. *)
Definition gam_log_Z (lgam : R -> R) (a b : R) : res R :=
  rbind (plog b) (fun l => Ok (lgam a - a * l)).

(** exponential.py:139-145. *)
Definition expo_predictive (lgam : R -> R) (x : R) (N : Z) (sum_x a b : R) : res ext :=
  rbind (gam_log_Z lgam (a + IZR N) (b + sum_x)) (fun ZN =>
  rbind (gam_log_Z lgam (a + IZR (N + 1)) (b + (sum_x + x))) (fun ZM =>
  Ok (Fin (ZM - ZN)))).
(** exponential.py:147-152. *)
Definition expo_marginal (lgam : R -> R) (N : Z) (sum_x a b : R) : res ext :=
  rbind (gam_log_Z lgam a b) (fun Z0 =>
  rbind (gam_log_Z lgam (a + IZR N) (b + sum_x)) (fun ZN =>
  Ok (Fin (ZN - Z0)))).

(** exponential.py:25-163; statistics (N, sum_x), hyperparameters (a, b). *)
Definition Exponential (lgam : R -> R) : prim := {|
  pS := Z * R; pH := R * R; pQ := unit;
  p_init := (0%Z, 0);                                         (* 37-38 *)
  p_check := fun x => if Rltb x 0 then Err ValueError else Ok x; (* 49-50 *)
  p_add := fun x s => ((fst s + 1)%Z, snd s + x);             (* 51-52 *)
  p_rem := fun x s => ((fst s - 1)%Z, snd s - x);             (* 57-58 *)
  p_hok := fun h => Rltb 0 (fst h) && Rltb 0 (snd h);         (* 91-92 *)
  p_inb := fun x => negb (Rltb x 0);                          (* 63 *)
  p_pred := fun h _ s x => expo_predictive lgam x (fst s) (snd s) (fst h) (snd h);
  p_score := fun h _ s => expo_marginal lgam (fst s) (snd s) (fst h) (snd h);
  p_coll := true                                           (* 120-121 *)
|}.

(* ------------------------------------------------------------------ *)
(** ** Poisson (poisson.py) *)

(** poisson.py:146-152 with 161-165. *)
Definition pois_predictive (lgam : R -> R) (x : R) (N : Z) (sum_x a b : R) : res ext :=
  rbind (gam_log_Z lgam (a + sum_x) (b + IZR N)) (fun ZN =>
  rbind (gam_log_Z lgam (a + (sum_x + x)) (b + IZR (N + 1))) (fun ZM =>
  Ok (Fin (ZM - ZN - lgam (x + 1))))).
(** poisson.py:154-159. *)
Definition pois_marginal (lgam : R -> R) (N : Z) (sum_x slf a b : R) : res ext :=
  rbind (gam_log_Z lgam a b) (fun Z0 =>
  rbind (gam_log_Z lgam (a + sum_x) (b + IZR N)) (fun ZN =>
  Ok (Fin (ZN - Z0 - slf)))).

(** poisson.py:27-175; statistics (N, sum_x, sum_log_fact_x), hyperparameters
    (a, b). *)
Definition Poisson (lgam : R -> R) : prim := {|
  pS := Z * R * R; pH := R * R; pQ := unit;
  p_init := (0%Z, 0, 0);                                      (* 39-41 *)
  p_check := fun x => if nat_inb x then Ok x else Err ValueError; (* 52-53 *)
  p_add := fun x s => let '(n, sx, sl) := s in
    ((n + 1)%Z, sx + x, sl + lgam (x + 1));                   (* 54-56 *)
  p_rem := fun x s => let '(n, sx, sl) := s in
    ((n - 1)%Z, sx - x, sl - lgam (x + 1));                   (* 61-63 *)
  p_hok := fun h => Rltb 0 (fst h) && Rltb 0 (snd h);         (* 95-96 *)
  p_inb := nat_inb;
  p_pred := fun h _ s x => let '(n, sx, _) := s in
    pois_predictive lgam x n sx (fst h) (snd h);
  p_score := fun h _ s => let '(n, sx, sl) := s in
    pois_marginal lgam n sx sl (fst h) (snd h);
  p_coll := true                                           (* 127-128 *)
|}.

(* ------------------------------------------------------------------ *)
(** ** Normal (normal.py) *)

(** Hyperparameters (m, r, s, nu). *)
Record nhyp : Type := NHyp { n_m : R; n_r : R; n_s : R; n_nu : R }.

(** normal.py:27-29. *)
Definition LOG2PI : R := ln 2 + ln PI.

(** normal.py:183-191; returns (mn, rn, sn, nun). *)
Definition normal_posterior (N sum_x sum_x_sq : R) (h : nhyp) : R * R * R * R :=
  let rn := n_r h + N in
  let nun := n_nu h + N in
  let mn := (n_r h * n_m h + sum_x) / rn in
  let sn := n_s h + sum_x_sq + n_r h * n_m h * n_m h - rn * mn * mn in
  let sn := if Reqb sn 0 then n_s h else sn in
  (mn, rn, sn, nun).

(** normal.py:193-200. *)
Definition normal_log_Z (lgam : R -> R) (r s nu : R) : res R :=
  rbind (plog r) (fun lr =>
  rbind (plog s) (fun ls =>
  Ok (((nu + 1) / 2) * ln 2 + (1/2) * ln PI - (1/2) * lr - (nu / 2) * ls
      + lgam (nu / 2)))).

(** normal.py:165-173. *)
Definition normal_predictive (lgam : R -> R) (x N sum_x sum_x_sq : R) (h : nhyp)
  : res R :=
  let '(_, rn, sn, nun) := normal_posterior N sum_x sum_x_sq h in
  let '(_, rm, sm, num) :=
    normal_posterior (N + 1) (sum_x + x) (sum_x_sq + x * x) h in
  rbind (normal_log_Z lgam rn sn nun) (fun ZN =>
  rbind (normal_log_Z lgam rm sm num) (fun ZM =>
  Ok (- (1/2) * LOG2PI + ZM - ZN))).

(** normal.py:175-181. *)
Definition normal_marginal (lgam : R -> R) (N sum_x sum_x_sq : R) (h : nhyp)
  : res R :=
  let '(_, rn, sn, nun) := normal_posterior N sum_x sum_x_sq h in
  rbind (normal_log_Z lgam (n_r h) (n_s h) (n_nu h)) (fun Z0 =>
  rbind (normal_log_Z lgam rn sn nun) (fun ZN =>
  Ok (- (N / 2) * LOG2PI + ZN - Z0))).

(** normal.py:108-110 (set_hypers assertions; [m] is unrestricted). *)
Definition nhyp_ok (h : nhyp) : bool :=
  Rltb 0 (n_r h) && Rltb 0 (n_s h) && Rltb 0 (n_nu h).

Definition rfin (r : res R) : res ext := rbind r (fun v => Ok (Fin v)).

(** normal.py:32-206; statistics (N, sum_x, sum_x_sq).  No value is
    rejected. *)
Definition Normal (lgam : R -> R) : prim := {|
  pS := Z * R * R; pH := nhyp; pQ := unit;
  p_init := (0%Z, 0, 0);                                      (* 51-53 *)
  p_check := fun x => Ok x;
  p_add := fun x s => let '(n, sx, sq) := s in
    ((n + 1)%Z, sx + x, sq + x * x);                          (* 67-69 *)
  p_rem := fun x s => let '(n, sx, sq) := s in
    ((n - 1)%Z, sx - x, sq - x * x);                          (* 74-76 *)
  p_hok := nhyp_ok;
  p_inb := fun _ => true;                                     (* 78-83 *)
  p_pred := fun h _ s x => let '(n, sx, sq) := s in
    rfin (normal_predictive lgam x (IZR n) sx sq h);
  p_score := fun h _ s => let '(n, sx, sq) := s in
    rfin (normal_marginal lgam (IZR n) sx sq h);
  p_coll := true                                           (* 146-147 *)
|}.

(* ------------------------------------------------------------------ *)
(** ** Lognormal (lognormal.py) *)

(** lognormal.py:26-163; statistics (N, sum_log_x, sum_log_x_sq). *)
Definition Lognormal (lgam : R -> R) : prim := {|
  pS := Z * R * R; pH := nhyp; pQ := unit;
  p_init := (0%Z, 0, 0);                                      (* 40-42 *)
  p_check := fun x => if Rleb x 0 then Err ValueError else Ok x; (* 56-57 *)
  p_add := fun x s => let '(n, sx, sq) := s in
    ((n + 1)%Z, sx + ln x, sq + ln x * ln x);                 (* 58-60 *)
  p_rem := fun x s => let '(n, sx, sq) := s in
    ((n - 1)%Z, sx - ln x, sq - ln x * ln x);                 (* 65-67 *)
  p_hok := nhyp_ok;                                           (* 109-111 *)
  p_inb := fun x => negb (Rleb x 0);                          (* 72 *)
  p_pred := fun h _ s x => let '(n, sx, sq) := s in           (* 74-77 *)
    rbind (plog x) (fun lx =>
    rbind (normal_predictive lgam lx (IZR n) sx sq h) (fun v =>
    Ok (Fin (- lx + v))));
  p_score := fun h _ s => let '(n, sx, sq) := s in            (* 95-99 *)
    rbind (normal_marginal lgam (IZR n) sx sq h) (fun v => Ok (Fin (- sx + v)));
  p_coll := true                                           (* 144-145 *)
|}.

(* ------------------------------------------------------------------ *)
(** ** Von Mises (vonmises.py) *)

(** Hyperparameters (a, b, k). *)
Record vhyp : Type := VHyp { v_a : R; v_b : R; v_k : R }.

(** [0 <= x <= 2*pi], vonmises.py:63,79. *)
Definition vm_inb (x : R) : bool := Rleb 0 x && Rleb x (2 * PI).

(** vonmises.py:192-202, first component [an].  The assertions of lines
    194-197 are those of [vm_guard] (N is never negative on a reachable
    object, see the proofs). *)
Definition vm_an (sum_sin sum_cos : R) (h : vhyp) : R :=
  let p_cos := v_k h * sum_cos + v_a h * cos (v_b h) in
  let p_sin := v_k h * sum_sin + v_a h * sin (v_b h) in
  sqrt (p_cos * p_cos + p_sin * p_sin).

(** Assertions of vonmises.py:168-170, 180-183 and 194-197. *)
Definition vm_guard (N : Z) (h : vhyp) : bool :=
  (0 <=? N)%Z && Rltb 0 (v_a h) && (Rleb 0 (v_b h) && Rleb (v_b h) (2 * PI))
  && Rltb 0 (v_k h).

(** vonmises.py:204-207. *)
Definition vm_log_Z (lbes : R -> R) (a : R) : res R :=
  if Rltb 0 a then Ok (lbes a) else Err AssertionError.

(** vonmises.py:166-176. *)
Definition vm_predictive (lbes : R -> R) (x : R) (N : Z) (ss sc : R) (h : vhyp)
  : res ext :=
  if vm_guard N h then
    rbind (vm_log_Z lbes (vm_an ss sc h)) (fun ZN =>
    rbind (vm_log_Z lbes (vm_an (ss + sin x) (sc + cos x) h)) (fun ZM =>
    Ok (Fin (- ln (2 * PI) - lbes (v_k h) + ZM - ZN))))
  else Err AssertionError.

(** vonmises.py:178-190. *)
Definition vm_marginal (lbes : R -> R) (N : Z) (ss sc : R) (h : vhyp) : res ext :=
  if vm_guard N h then
    rbind (vm_log_Z lbes (v_a h)) (fun Z0 =>
    rbind (vm_log_Z lbes (vm_an ss sc h)) (fun ZN =>
    Ok (Fin (- IZR N * (ln (2 * PI) + lbes (v_k h)) + ZN - Z0))))
  else Err AssertionError.

(** vonmises.py:34-207; statistics (N, sum_sin_x, sum_cos_x).  [set_hypers]
    (109-115) does not check [k]. *)
Definition Vonmises (lbes : R -> R) : prim := {|
  pS := Z * R * R; pH := vhyp; pQ := unit;
  p_init := (0%Z, 0, 0);                                      (* 47-49 *)
  p_check := fun x => if vm_inb x then Ok x else Err ValueError; (* 63-64 *)
  p_add := fun x s => let '(n, ss, sc) := s in
    ((n + 1)%Z, ss + sin x, sc + cos x);                      (* 65-67 *)
  p_rem := fun x s => let '(n, ss, sc) := s in
    ((n - 1)%Z, ss - sin x, sc - cos x);                      (* 72-74 *)
  p_hok := fun h => Rltb 0 (v_a h) && Rltb 0 (v_b h)
    && (Rleb 0 (v_b h) && Rleb (v_b h) (2 * PI));             (* 110-112 *)
  p_inb := vm_inb;
  p_pred := fun h _ s x => let '(n, ss, sc) := s in vm_predictive lbes x n ss sc h;
  p_score := fun h _ s => let '(n, ss, sc) := s in vm_marginal lbes n ss sc h;
  p_coll := true                                           (* 147-148 *)
|}.

(* ------------------------------------------------------------------ *)
(** ** Beta (beta.py), uncollapsed *)

(** np.allclose(a, b) with the default tolerances:
    |a - b| <= 1e-8 + 1e-5 * |b|. *)
Definition allclose (a b : R) : bool :=
  Rleb (Rabs (a - b)) (/ 100000000 + / 100000 * Rabs b).

(** beta.py:62-65. *)
Definition beta_clip (x : R) : R :=
  if allclose 0 x then 1 / 1000 else if allclose 1 x then 999 / 1000 else x.

Definition unit_inb (x : R) : bool := Rltb 0 x && Rltb x 1.

(** Assertion of beta.py:184,192,204; parameters (strength, balance). *)
Definition beta_guard (q : R * R) : bool :=
  Rltb 0 (fst q) && (Rltb 0 (snd q) && Rltb (snd q) 1).

(** scipy.stats.beta.logpdf inside (0,1), used at beta.py:187,206. *)
Definition beta_logpdf (lgam : R -> R) (x a b : R) : R :=
  (a - 1) * ln x + (b - 1) * ln (1 - x) - betaln lgam a b.

(** beta.py:189-200. *)
Definition beta_likelihood (lgam : R -> R) (N : Z) (sl sml : R) (q : R * R) : R :=
  let alpha := fst q * snd q in
  let beta := fst q * (1 - snd q) in
  0 - IZR N * betaln lgam alpha beta + (alpha - 1) * sl + (beta - 1) * sml.

(** beta.py:202-207 with the fixed hyperparameters mu=5, alpha=beta=1
    (beta.py:45-47); scipy.stats.expon.logpdf(s, scale=mu) = -s/mu - log mu. *)
Definition beta_prior (lgam : R -> R) (q : R * R) : R :=
  (- (fst q) / 5 - ln 5) + beta_logpdf lgam (snd q) 1 1.

(** beta.py:25-213; statistics (N, sum_log_x, sum_minus_log_x), parameters
    (strength, balance); hyperparameters are fixed, set_hypers is a no-op. *)
Definition Beta (lgam : R -> R) : prim := {|
  pS := Z * R * R; pH := unit; pQ := R * R;
  p_init := (0%Z, 0, 0);                                      (* 41-43 *)
  p_check := fun x => let x := beta_clip x in
    if unit_inb x then Ok x else Err ValueError;              (* 62-67 *)
  p_add := fun x s => let '(n, sl, sm) := s in
    ((n + 1)%Z, sl + ln x, sm + ln (1 - x));                  (* 68-70 *)
  p_rem := fun x s => let '(n, sl, sm) := s in
    ((n - 1)%Z, sl - ln x, sm - ln (1 - x));                  (* 75-77 *)
  p_hok := fun _ => true;
  p_inb := unit_inb;                                          (* 82 *)
  p_pred := fun _ q s x =>
    if beta_guard q
    then Ok (Fin (beta_logpdf lgam x (fst q * snd q) (fst q * (1 - snd q))))
    else Err AssertionError;                                  (* 182-187 *)
  p_score := fun _ q s => let '(n, sl, sm) := s in
    if beta_guard q
    then Ok (Fin (beta_likelihood lgam n sl sm q + beta_prior lgam q))
    else Err AssertionError;                                   (* 96-102 *)
  p_coll := false                                          (* 163-164 *)
|}.

(* ------------------------------------------------------------------ *)
(** ** Truncated normal (normal_trunc.py), uncollapsed *)

(** normal_trunc.py:175-179; [cdf] is the standard normal cdf.  np.log of a
    non-positive number is -inf or NaN. *)
Definition nt_normalizer (cdf : R -> R) (mu sigma l h : R) : ext :=
  let d := cdf ((h - mu) / sigma) - cdf ((l - mu) / sigma) in
  if Rltb 0 d then Fin (ln d) else if Reqb d 0 then NInf else NaN.

(** scipy.stats.norm.logpdf, normal_trunc.py:181-183. *)
Definition norm_logpdf (x mu sigma : R) : R :=
  - ((x - mu) / sigma * ((x - mu) / sigma)) / 2 - ln (2 * PI) / 2 - ln sigma.

(** normal_trunc.py:185-191. *)
Definition nt_likelihood (N : Z) (sx sq sigma mu : R) : R :=
  - (IZR N / 2) * ln (2 * PI) - IZR N * ln sigma
  - 1 / (2 * sigma * sigma) * (IZR N * (mu * mu) - 2 * mu * sx + sq).

(** normal_trunc.py:193-197: Gamma(shape 2, scale 2) for sigma; for mu
    scipy.stats.uniform.logpdf(mu, loc=l, scale=l+h), which is NaN when the
    scale is not positive and -inf outside [l, l + (l+h)]. *)
Definition nt_prior (lgam : R -> R) (mu sigma l h : R) : ext :=
  let log_sigma := ln sigma - sigma / 2 - lgam 2 - 2 * ln 2 in
  let log_mu :=
    if Rltb 0 (l + h)
    then if Rleb l mu && Rleb mu (l + (l + h)) then Fin (- ln (l + h)) else NInf
    else NaN in
  eadd log_mu (Fin log_sigma).

(** [-n * x] for an extended [x] and an integer-valued float [n]. *)
Definition escale (n : Z) (x : ext) : ext :=
  match x with
  | Fin a => Fin (IZR n * a)
  | NaN => NaN
  | PInf => if (n =? 0)%Z then NaN else if (0 <? n)%Z then PInf else NInf
  | NInf => if (n =? 0)%Z then NaN else if (0 <? n)%Z then NInf else PInf
  end.

(** normal_trunc.py:28-210; statistics (N, sum_x, sum_x_sq), parameters
    (mu, sigma), distargs l, h; set_hypers is a no-op. *)
Definition NormalTrunc (lgam cdf : R -> R) (l h : R) : prim := {|
  pS := Z * R * R; pH := unit; pQ := R * R;
  p_init := (0%Z, 0, 0);                                      (* 44-46 *)
  p_check := fun x =>
    if Rleb l x && Rleb x h then Ok x else Err ValueError;    (* 61-63 *)
  p_add := fun x s => let '(n, sx, sq) := s in
    ((n + 1)%Z, sx + x, sq + x * x);                          (* 64-66 *)
  p_rem := fun x s => let '(n, sx, sq) := s in
    ((n - 1)%Z, sx - x, sq - x * x);                          (* 71-73 *)
  p_hok := fun _ => true;
  p_inb := fun x => Rleb l x && Rleb x h;                     (* 78 *)
  p_pred := fun _ q s x =>                                    (* 80-84 *)
    Ok (esub (Fin (norm_logpdf x (fst q) (snd q)))
             (nt_normalizer cdf (fst q) (snd q) l h));
  p_score := fun _ q s => let '(n, sx, sq) := s in            (* 99-106 *)
    Ok (esub (eadd (Fin (nt_likelihood n sx sq (snd q) (fst q)))
                   (nt_prior lgam (fst q) (snd q) l h))
             (escale n (nt_normalizer cdf (fst q) (snd q) l h)));
  p_coll := false                                          (* 156-157 *)
|}.
