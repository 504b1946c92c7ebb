(** Model of composition in /repo/src/crosscat/state.py: components of other kinds
    composed onto a crosscat state, queries of the composite, and the pairwise summaries
    of rows and columns.

    Simplifications.
    - A composed component is known by its outputs and inputs and by the results of its
      logpdf and simulate; the latter get the number of the particle.
    - [hooked_cgpms] is a plain dictionary whose order Python leaves open; the model
      keeps the order of insertion.
    - Probabilities that the code represents by the floats 0. and 1. are real numbers. *)
From Verif Require Export Query.
Local Open Scope R_scope.

Record foreign : Type := Foreign {
  f_sig : sig;
  f_logpdf : Z -> dict val -> dict val -> res ext;
  f_simulate : nat -> Z -> list Z -> dict val -> dict val -> res (dict val)
}.

Record cstate : Type := CState {
  cs_state : state;
  cs_hooked : dict foreign;       (* hooked_cgpms *)
  cs_next : Z;                    (* token_generator *)
  cs_composite : bool             (* _composite *)
}.

(** State.__init__, state.py:162-163 and 182-184. *)
Definition first_token : Z := 57481%Z.

(** outputs and inputs of a View, view.py:72,140. *)
Definition view_sig (w : view) : sig := Sig (v_out w :: dkeys (v_dims w)) [].

(** build_cgpms, state.py:426-427. *)
Definition build_cgpms (s : state) (hooked : dict foreign) : list sig :=
  map (fun vw => view_sig (snd vw)) (s_views s) ++ map (fun tf => f_sig (snd tf)) hooked.

(** build_network, state.py:422-424. *)
Definition build_network (cs : cstate) : res (list Z) :=
  network_init (build_cgpms (cs_state cs) (cs_hooked cs)).

(** any(d.is_conditional() for d in self.dims()), state.py:361. *)
Definition conditional (s : state) : bool :=
  existsb (fun vw => existsb (fun ca => m_cond (a_M (snd ca))) (v_dims (snd vw))) (s_views s).

(** _update_is_composite, state.py:358-362. *)
Definition update_is_composite (cs : cstate) : cstate :=
  CState (cs_state cs) (cs_hooked cs) (cs_next cs)
    (negb (is_nil (cs_hooked cs)) || conditional (cs_state cs)).

(** compose_cgpm, state.py:340-350. *)
Definition compose (cs : cstate) (f : foreign) : cstate * res Z :=
  let token := cs_next cs in
  let cs1 := CState (cs_state cs) (dset token f (cs_hooked cs)) (cs_next cs + 1)%Z (cs_composite cs) in
  match build_network cs1 with
  | Ok _ => (update_is_composite cs1, Ok token)
  | Err ValueError =>
      (CState (cs_state cs1) (ddel token (cs_hooked cs1)) (cs_next cs1) (cs_composite cs1), Err ValueError)
  | Err e => (cs1, Err e)
  end.

(** decompose_cgpm, state.py:352-356. *)
Definition decompose (cs : cstate) (token : Z) : cstate * res unit :=
  if dmem token (cs_hooked cs) then
    let cs1 := update_is_composite
                 (CState (cs_state cs) (ddel token (cs_hooked cs)) (cs_next cs) (cs_composite cs)) in
    (cs1, rbind (build_network cs1) (fun _ => Ok tt))
  else (cs, Err KeyError).

(** Methods of the state proper; incorporate_dim, unincorporate_dim and update_cctype end
    with _update_is_composite (state.py:235, 258 and 333), which an exception skips. *)
Definition on_state {A} (refresh : bool) (f : state -> state * res A) (cs : cstate) : cstate * res A :=
  let '(s, r) := f (cs_state cs) in
  let cs1 := CState s (cs_hooked cs) (cs_next cs) (cs_composite cs) in
  (match r with Ok _ => if refresh then update_is_composite cs1 else cs1 | Err _ => cs1 end, r).

(* ------------------------------------------------------------------ *)
(** ** Queries of a composite *)

(** The observed cells of the row in the given columns, state.py:436-444; a missing value
    is not observed. *)
Definition populate_from (s : state) (rowid : Z) (cols targets : list Z) (constraints : dict val)
  : res (dict val) :=
  rbind (observed_cells (tab (s_X s)) rowid (targets ++ dkeys constraints) cols) (fun data =>
  Ok (merged constraints data)).

(** _populate_constraints, state.py:429-445: the first output is left out. *)
Definition state_populate (s : state) (rowid : Z) (targets : list Z) (constraints : dict val)
  : res (dict val) :=
  rbind (n_rows s) (fun n =>
  if hypothetical n rowid then Ok constraints
  else populate_from s rowid (tl (s_outs s)) targets constraints).

(** The component of the network with number [l]: the views come first. *)
Inductive member : Type := InView (w : view) | Hooked (f : foreign) | NoMember.
Definition member_at (cs : cstate) (l : Z) : member :=
  let nv := length (s_views (cs_state cs)) in
  match nth_error (s_views (cs_state cs)) (Z.to_nat l) with
  | Some vw => InView (snd vw)
  | None => match nth_error (cs_hooked cs) (Z.to_nat l - nv) with
            | Some tf => Hooked (snd tf)
            | None => NoMember
            end
  end.

Section CompositeQueries.
  (** The draws of the particles: those of the view's own network and those of the
      values, and of the clusters in View.simulate. *)
  Variable kdraw : nat -> Z -> nat -> nat -> list ext -> nat.
  Variable xdraw : nat -> Z -> nat -> nat -> Z -> Z -> res R.
  Variable zdraw : nat -> Z -> nat -> list ext -> nat.
  Variable cs : cstate.

  (** [cgpm.logpdf(rowid, targets, None, inputs)]. *)
  Definition member_logpdf (rowid : Z) (i : nat) (l : Z) (targets inputs : dict val) : res ext :=
    match member_at cs l with
    | InView w => vquery_logpdf (kdraw i l) (xdraw i l) (tab (s_X (cs_state cs))) w rowid targets [] inputs
    | Hooked f => f_logpdf f rowid targets inputs
    | NoMember => Err IndexError
    end.
  (** [cgpm.simulate(rowid, targets, constraints, inputs)]. *)
  Definition member_simulate (rowid : Z) (i : nat) (l : Z) (targets : list Z) (constraints inputs : dict val)
    : res (dict val) :=
    match member_at cs l with
    | InView w =>
        rbind (vquery_simulate_N (kdraw i l) (xdraw i l) (tab (s_X (cs_state cs))) w (zdraw i l) rowid targets
                 constraints inputs None) (fun a =>
        match a with One d => Ok d | Many _ => Err TypeError end)
    | Hooked f => f_simulate f i rowid targets constraints inputs
    | NoMember => Err IndexError
    end.

  Definition to_cells (d : dict val) : dict cell :=
    concat (map (fun kv => match snd kv with VCell x => [(fst kv, x)] | VClus _ => [] end) d).

  (** logpdf of a composite, state.py:392-402. *)
  Definition composite_logpdf (accuracy : nat) (rowid : Z) (targets constraints inputs : dict val) : res ext :=
    rbind (state_validate (cs_state cs) rowid false (dkeys targets) (to_cells constraints)) (fun _ =>
    rbind (state_populate (cs_state cs) rowid (dkeys targets) constraints) (fun constraints' =>
    rbind (build_network cs) (fun topo =>
    network_logpdf (build_cgpms (cs_state cs) (cs_hooked cs)) topo (member_logpdf rowid) (member_simulate rowid)
      accuracy targets constraints' inputs))).

  (** simulate of a composite with [n] samples, state.py:407-417. *)
  Definition composite_simulate (draws : nat -> list ext -> nat) (accuracy : nat) (rowid : Z) (targets : list Z)
    (constraints inputs : dict val) (n : nat) : res (list (dict val)) :=
    rbind (state_validate (cs_state cs) rowid true targets (to_cells constraints)) (fun _ =>
    rbind (state_populate (cs_state cs) rowid targets constraints) (fun constraints' =>
    rbind (build_network cs) (fun topo =>
    simulate_n (build_cgpms (cs_state cs) (cs_hooked cs)) topo (member_logpdf rowid) (member_simulate rowid)
      draws accuracy targets constraints' inputs n))).
End CompositeQueries.

(* ------------------------------------------------------------------ *)
(** ** Dependence of columns *)

(** _dependence_probability_composite, state.py:556-575. *)
Definition related (fuel : nat) (cgpms : list sig) (Zv : dict Z) (c : Z) : res (list Z) :=
  match dget c Zv with
  | None => retrieve_ancestors fuel cgpms c
  | Some z => Ok (map fst (filter (fun cz => (snd cz =? z)%Z) Zv))
  end.
Definition views_of (Zv : dict Z) (l : list Z) : list Z :=
  concat (map (fun i => match dget i Zv with Some z => [z] | None => [] end) l).
Definition dependence_composite (fuel : nat) (cgpms : list sig) (Zv : dict Z) (c0 c1 : Z) : res R :=
  if existsb (fun g => zmem c0 (g_outputs g) && zmem c1 (g_outputs g)) cgpms then Ok 1      (* 559-560 *)
  else rbind (related fuel cgpms Zv c0) (fun a0 =>
       rbind (related fuel cgpms Zv c1) (fun a1 =>
       if overlap a0 a1 then Ok 1                                                           (* 567-568 *)
       else if overlap (views_of Zv a0) (views_of Zv a1) then Ok 1                          (* 570-573 *)
       else Ok 0)).

(** dependence_probability, state.py:538-544. *)
Definition dependence (fuel : nat) (cs : cstate) (c0 c1 : Z) : res R :=
  let s := cs_state cs in
  if zmem c0 (s_outs s) && zmem c1 (s_outs s) then
    match dget c0 (s_zv s), dget c1 (s_zv s) with
    | Some z0, Some z1 => Ok (if (z0 =? z1)%Z then 1 else 0)
    | _, _ => Err KeyError
    end
  else rbind (rsequence (map (fun i => match dget i (s_zv s) with
                                       | Some z => Ok (i, z) | None => Err KeyError end) (s_outs s))) (fun Zv =>
       dependence_composite fuel (build_cgpms s (cs_hooked cs)) Zv c0 c1).

(** Square matrices and np.eye. *)
Definition matrix : Type := nat -> nat -> ext.
Definition eye : matrix := fun i j => if Nat.eqb i j then Fin 1 else Fin 0.
Definition mset (D : matrix) (i j : nat) (x : ext) : matrix :=
  fun a b => if Nat.eqb a i && Nat.eqb b j then x else D a b.

(** itertools.combinations(l, 2). *)
Fixpoint combinations {A} (l : list A) : list (A * A) :=
  match l with [] => [] | x :: l' => map (fun y => (x, y)) l' ++ combinations l' end.

(** The loops of state.py:551-553 and 591-593, with the positions of the two items. *)
Fixpoint fill {A} (value : A -> A -> res ext) (ps : list ((A * nat) * (A * nat))) (D : matrix) : res matrix :=
  match ps with
  | [] => Ok D
  | ((x, i), (y, j)) :: ps' =>
      rbind (value x y) (fun d => fill value ps' (mset (mset D j i d) i j d))
  end.

(** reindex, state.py:550: the last position counts. *)
Definition reindex (l : list Z) : dict nat :=
  fold_left (fun d kc => dset (snd kc) (fst kc) d) (combine (seq 0 (length l)) l) [].
Definition position (l : list Z) (c : Z) : nat := match dget c (reindex l) with Some k => k | None => 0%nat end.

(** dependence_probability_pairwise, state.py:546-554. *)
Definition dependence_pairwise (fuel : nat) (cs : cstate) (colnos : option (list Z)) : res matrix :=
  let cols := match colnos with None => s_outs (cs_state cs) | Some l => l end in
  fill (fun a b => rbind (dependence fuel cs a b) (fun x => Ok (Fin x)))
    (map (fun p => ((fst p, position cols (fst p)), (snd p, position cols (snd p))))
                               (combinations cols)) eye.

(** row_similarity, state.py:580-584.  The set of views is a set of objects; the mean of no
    numbers is NaN. *)
Definition row_similarity (s : state) (row0 row1 : Z) (cols : option (list Z)) : res ext :=
  let cols := match cols with None => s_outs s | Some l => l end in
  rbind (rsequence (map (fun c => match dget c (s_zv s) with Some v => Ok v | None => Err KeyError end) cols)) (fun vs =>
  rbind (rsequence (map (fun v =>
    match dget v (s_views s) with
    | None => Err KeyError
    | Some w => match dget row0 (v_rows w), dget row1 (v_rows w) with
                | Some k0, Some k1 => Ok (if (k0 =? k1)%Z then 1 else 0)
                | _, _ => Err KeyError
                end
    end) (nodup Z.eq_dec vs))) (fun l =>
  Ok (if is_nil l then NaN else Fin (Rsum l / INR (length l))))).

(** row_similarity_pairwise, state.py:586-594. *)
Definition row_similarity_pairwise (s : state) (cols : option (list Z)) : res matrix :=
  rbind (n_rows s) (fun n =>
  fill (fun r0 r1 => row_similarity s r0 r1 cols)
    (map (fun p => ((fst p, Z.to_nat (fst p)), (snd p, Z.to_nat (snd p)))) (combinations (range n))) eye).
