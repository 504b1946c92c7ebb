(** Model of the inference schedule of /repo/src/crosscat/state.py: transition,
    transition_foreign, _transition_generic and the counters that they keep.

    Simplifications.
    - The kernels are numbered in the order of the table of state.py:737-751: 0 alpha,
      1 view_alphas, 2 column_params, 3 column_hypers, 4 rows, 5 columns.
    - The clock is an argument: [clock t] is the time elapsed at the t-th test.
    - The loop of line 888 need not end; [fuel] bounds the number of its passes, and
      running out of it is the result [None].
    - The progress bar is not modelled.
    - A set of views is visited in the order of the first occurrence. *)
From Verif Require Export Compose.
Local Open Scope R_scope.

(** _proportion_done, state.py:869-878. *)
Definition proportion_done (N : option Z) (S : option R) (iters : Z) (elapsed : R) : res R :=
  rbind (match S with
         | None => Ok 0
         | Some s => if Reqb s 0 then Err ZeroDivisionError else Ok (elapsed / s)
         end) (fun p_seconds =>
  rbind (match N with
         | None => Ok 0
         | Some n => if (n =? 0)%Z then Err ZeroDivisionError else Ok (IZR iters / IZR n)
         end) (fun p_iters =>
  Ok (Rmax p_iters p_seconds))).

Section Generic.
  Context {W K : Type}.
  (** The call of kernel [k], the t-th call of all. *)
  Variable call : nat -> K -> W -> W * res unit.
  (** _increment_diagnostics. *)
  Variable record : W -> W * res unit.
  Variables (N : option Z) (S : option R) (clock : nat -> R) (checkpoint : option Z).

  (** The for loop, state.py:889-895: the number of calls so far and whether the loop
      was left by its break. *)
  Fixpoint one_pass (iters : Z) (ks : list K) (t : nat) (w : W) : W * nat * res bool :=
    match ks with
    | [] => (w, t, Ok false)
    | k :: ks' =>
        match proportion_done N S iters (clock t) with
        | Err e => (w, t, Err e)
        | Ok p =>
            if Rleb 1 p then (w, t, Ok true)
            else let '(w1, r) := call t k w in
                 match r with
                 | Err e => (w1, Datatypes.S t, Err e)
                 | Ok _ => one_pass iters ks' (Datatypes.S t) w1
                 end
        end
    end.

  (** [if checkpoint and (iters % checkpoint == 0)], state.py:898. *)
  Definition due (iters : Z) : bool :=
    match checkpoint with None => false | Some c => negb (c =? 0)%Z && (iters mod c =? 0)%Z end.

  (** The while loop, state.py:888-901; the result is the number of passes. *)
  Fixpoint passes (fuel : nat) (ks : list K) (iters : Z) (t : nat) (w : W) : option (W * res Z) :=
    match fuel with
    | O => None
    | Datatypes.S fuel' =>
        let '(w1, t1, r) := one_pass iters ks t w in
        match r with
        | Err e => Some (w1, Err e)
        | Ok true => Some (w1, Ok iters)
        | Ok false =>
            let iters := (iters + 1)%Z in
            if due iters then
              let '(w2, r2) := record w1 in
              match r2 with
              | Err e => Some (w2, Err e)
              | Ok _ => passes fuel' ks iters t1 w2
              end
            else passes fuel' ks iters t1 w1
        end
    end.
End Generic.

(** _transition_generic, state.py:866-905. *)
Definition transition_generic {W K} (call : nat -> K -> W -> W * res unit) (record : W -> W * res unit)
  (ks : list K) (N : option Z) (S : option R) (clock : nat -> R) (checkpoint : option Z) (fuel : nat) (w : W)
  : option (W * res Z) :=
  let N := match N, S with None, None => Some 1%Z | _, _ => N end in          (* 880-881 *)
  match ks with
  | [] => Some (w, Ok 0%Z)
  | _ => passes call record N S clock checkpoint fuel ks 0 0 w
  end.

(* ------------------------------------------------------------------ *)
(** ** transition *)

(** The state with its diagnostics, state.py:166-170. *)
Record tstate : Type := TState {
  t_state : state;
  t_iters : dict Z;                             (* diagnostics['iterations'] *)
  t_diag : list (ext * R * dict Z)              (* logscore, column_crp_alpha, column_partition *)
}.

(** _increment_iterations, state.py:907-909. *)
Definition increment (k : Z) (d : dict Z) : dict Z :=
  dset k (match dget k d with Some p => p | None => 0 end + 1)%Z d.

(** _increment_diagnostics, state.py:911-914. *)
Definition record_diagnostics (lgam : R -> R) (w : tstate) : tstate * res unit :=
  match state_score lgam (t_state w) with
  | Err e => (w, Err e)
  | Ok l => (TState (t_state w) (t_iters w)
               (t_diag w ++ [(l, c_alpha (s_crp (t_state w)), s_zv (t_state w))]), Ok tt)
  end.

(** The random choices of one kernel call. *)
Record choices : Type := Choices {
  ch_draw : list ext -> nat;
  ch_draws : nat -> nat -> list ext -> nat;
  ch_order : nat -> list nat;
  ch_perm : Z -> list Z -> list Z;             (* permutation of the rows of a view *)
  ch_cols : list Z -> list Z;                  (* permutation of the columns *)
  ch_col : nat -> cdraws
}.

Section Transition.
  Variable lgam : R -> R.
  Variable rand : nat -> choices.
  Variables (rowids cols views : option (list Z)).

  (** [set(self.Zv(col) for col in cols) if cols else self.views], state.py:769 and 799. *)
  Definition chosen_views (s : state) : res (list Z) :=
    match views with
    | Some l => Ok l
    | None =>
        match cols with
        | Some (c :: l) =>
            rbind (rsequence (map (fun c => match dget c (s_zv s) with Some v => Ok v | None => Err KeyError end)
                                (c :: l))) (fun vs => Ok (nodup Z.eq_dec vs))
        | _ => Ok (dkeys (s_views s))
        end
    end.
  (** [cols] defaults to the outputs, state.py:776, 783 and 805. *)
  Definition chosen_cols (s : state) : list Z := match cols with Some l => l | None => s_outs s end.
  (** The rows that a view visits, view.py:247-252. *)
  Definition chosen_rows (s : state) (v : Z) : list Z :=
    match rowids with
    | Some l => l
    | None => match dget v (s_views s) with Some w => dkeys (v_rows w) | None => [] end
    end.

  (** The kernel with its arguments, state.py:738-751 and 763-810. *)
  Definition kernel_at (h : choices) (k : Z) (s : state) : res kernel :=
    if (k =? 0)%Z then Ok (KAlpha lgam (ch_draw h))
    else if (k =? 1)%Z then rbind (chosen_views s) (fun vs => Ok (KViewAlphas lgam (ch_draws h) vs))
    else if (k =? 2)%Z then Ok (KParams (chosen_cols s))
    else if (k =? 3)%Z then Ok (KHypers (chosen_cols s) (ch_draws h) (ch_order h))
    else if (k =? 4)%Z then
      rbind (chosen_views s) (fun vs => Ok (KRows (ch_draws h) vs (fun v => ch_perm h v (chosen_rows s v))))
    else Ok (KColumns (ch_col h) 1 (ch_cols h (chosen_cols s))).

  (** One call of a kernel; the rows kernel returns at once, without counting, if there is
      one row (state.py:796-797). *)
  Definition call_kernel (t : nat) (k : Z) (w : tstate) : tstate * res unit :=
    match (if (k =? 4)%Z then rbind (n_rows (t_state w)) (fun n => Ok (n =? 1)%Z) else Ok false) with
    | Err e => (w, Err e)
    | Ok true => (w, Ok tt)
    | Ok false =>
        match kernel_at (rand t) k (t_state w) with
        | Err e => (w, Err e)
        | Ok q =>
            let '(s, r) := run_kernel (t_state w) q in
            match r with
            | Err e => (TState s (t_iters w) (t_diag w), Err e)
            | Ok _ => (TState s (increment k (t_iters w)) (t_diag w), Ok tt)
            end
        end
    end.

  Definition all_kernels : list Z := [0; 1; 2; 3; 4; 5]%Z.

  (** transition, state.py:727-761. *)
  Definition transition (N : option Z) (S : option R) (clock : nat -> R) (kernels : option (list Z))
    (checkpoint : option Z) (fuel : nat) (w : tstate) : option (tstate * res Z) :=
    if (match cols with None => false | Some l => existsb (fun c => negb (zmem c (s_outs (t_state w)))) l end)
    then Some (w, Err ValueError)                                               (* 733-734 *)
    else
      let ks := match kernels with None => all_kernels | Some l => l end in
      if existsb (fun k => negb (zmem k all_kernels)) ks then Some (w, Err KeyError)      (* 757 *)
      else if is_nil ks then Some (w, Err AssertionError)                                 (* 758 *)
      else transition_generic call_kernel (record_diagnostics lgam) ks N S clock checkpoint fuel w.
End Transition.

(* ------------------------------------------------------------------ *)
(** ** transition_foreign *)

(** The state with composed components and its counters, keyed by token. *)
Record fstate : Type := FState { f_cs : cstate; f_iters : dict Z }.

(** The tokens whose components are transitioned, state.py:849-863. *)
Definition foreign_kernels (cs : cstate) (cols : option (list Z)) : res (list Z) :=
  let cols := match cols with
              | Some l => l
              | None => concat (map (fun tf => g_outputs (f_sig (snd tf))) (cs_hooked cs))
              end in
  if existsb (fun c => zmem c (s_outs (cs_state cs))) cols then Err ValueError
  else Ok (map fst (filter (fun tf => existsb (fun i => zmem i (g_outputs (f_sig (snd tf)))) cols) (cs_hooked cs))).

(** [step t f] is the component after its own transition (or the exception that this
    raises), state.py:854-858. *)
Definition call_foreign (step : nat -> foreign -> res foreign) (t : nat) (token : Z) (w : fstate)
  : fstate * res unit :=
  match dget token (cs_hooked (f_cs w)) with
  | None => (w, Err KeyError)
  | Some f =>
      match step t f with
      | Err e => (w, Err e)
      | Ok f' =>
          (FState (CState (cs_state (f_cs w)) (dset token f' (cs_hooked (f_cs w)))
                     (cs_next (f_cs w)) (cs_composite (f_cs w)))
             (increment token (f_iters w)), Ok tt)
      end
  end.

(** transition_foreign, state.py:846-864. *)
Definition transition_foreign (step : nat -> foreign -> res foreign) (cols : option (list Z)) (N : option Z)
  (S : option R) (clock : nat -> R) (fuel : nat) (w : fstate) : option (fstate * res Z) :=
  match foreign_kernels (f_cs w) cols with
  | Err e => Some (w, Err e)
  | Ok ks => transition_generic (call_foreign step) (fun w => (w, Ok tt)) ks N S clock None fuel w
  end.
