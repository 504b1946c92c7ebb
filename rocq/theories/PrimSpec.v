(** What the properties of the primitive distributions say, written without
    the update and formula helpers of the model. *)
From Verif Require Export Prim.
Local Open Scope R_scope.

(** The rows a history of calls leaves behind, read off the calls and their
    outcomes: the last accepted incorporate of a row counts unless an accepted
    unincorporate follows.  [stored x] is the value kept for [x]. *)
Fixpoint ledger {P : prim} (stored : R -> R)
  (tr : list (pop P * res unit)) (m : Z -> option R) : Z -> option R :=
  match tr with
  | [] => m
  | (OpInc r x, Ok _) :: tr' =>
      ledger stored tr' (fun k => if (k =? r)%Z then Some (stored x) else m k)
  | (OpUninc r, Ok _) :: tr' =>
      ledger stored tr' (fun k => if (k =? r)%Z then None else m k)
  | _ :: tr' => ledger stored tr' m
  end.

(** C01.  [stats] computes the statistics from scratch. *)
Definition tracks_rows (P : prim) (stored : R -> R) (stats : list R -> pS P) : Prop :=
  forall h q ops s tr,
    prim_run P (prim_new P h q) ops = (s, tr) ->
    (forall r, dget r (p_data s) = ledger stored tr (fun _ => None) r) /\
    NoDup (dkeys (p_data s)) /\
    p_stats s = stats (dvals (p_data s)).

(** C02. *)
Definition undoes (P : prim) : Prop :=
  forall s r x s1,
    prim_incorporate P s r x = (s1, Ok tt) ->
    prim_unincorporate P s1 r = (s, Ok tt).

(** C03: same final rows, same hyperparameters and parameters. *)
Definition exchangeable (P : prim) : Prop :=
  forall h1 q1 ops1 s1 tr1 h2 q2 ops2 s2 tr2,
    prim_run P (prim_new P h1 q1) ops1 = (s1, tr1) ->
    prim_run P (prim_new P h2 q2) ops2 = (s2, tr2) ->
    (forall r, dget r (p_data s1) = dget r (p_data s2)) ->
    p_hyp s1 = p_hyp s2 -> p_par s1 = p_par s2 ->
    p_stats s1 = p_stats s2 /\
    prim_logpdf_score P s1 = prim_logpdf_score P s2 /\
    forall r x, prim_logpdf P s1 r x = prim_logpdf P s2 r x.

(** C04, for values in [support] and parameters in [qok]. *)
Definition predictive_is_ratio (P : prim) (support : R -> Prop)
  (qok : pQ P -> Prop) : Prop :=
  forall h q ops s tr r x,
    p_hok P h = true ->
    prim_run P (prim_new P h q) ops = (s, tr) ->
    qok (p_par s) ->
    dget r (p_data s) = None -> support x ->
    exists before after s',
      prim_incorporate P s r x = (s', Ok tt) /\
      prim_logpdf_score P s = Ok (Fin before) /\
      prim_logpdf_score P s' = Ok (Fin after) /\
      prim_logpdf P s r x = Ok (Fin (after - before)).

(** C05: [exc] is the exception class raised on rejection. *)
Definition rejects_iff_impossible (P : prim) (support : R -> Prop)
  (qok : pQ P -> Prop) (exc : exn) : Prop :=
  forall h q ops s tr r x,
    p_hok P h = true ->
    prim_run P (prim_new P h q) ops = (s, tr) ->
    qok (p_par s) ->
    dget r (p_data s) = None ->
    (support x ->
       snd (prim_incorporate P s r x) = Ok tt /\
       exists v, prim_logpdf P s r x = Ok (Fin v)) /\
    (~ support x ->
       prim_incorporate P s r x = (s, Err exc) /\
       prim_logpdf P s r x = Ok NInf).

(** C04 iterated: the score is the sum of the predictive log densities of the
    rows in the order in which they arrive.  [seq_logpdf] incorporates the
    rows one by one and adds up the log densities assigned just before. *)
Fixpoint seq_logpdf (P : prim) (s : pstate P) (rows : list (Z * R))
  : option (R * pstate P) :=
  match rows with
  | [] => Some (0, s)
  | (r, x) :: rows' =>
      match prim_logpdf P s r x, prim_incorporate P s r x with
      | Ok (Fin v), (s', Ok _) =>
          match seq_logpdf P s' rows' with
          | Some (t, s'') => Some (v + t, s'')
          | None => None
          end
      | _, _ => None
      end
  end.

Definition score_is_sequential (P : prim) (support : R -> Prop)
  (qok : pQ P -> Prop) : Prop :=
  forall h q rows,
    p_hok P h = true -> qok q ->
    NoDup (map fst rows) -> Forall (fun rx => support (snd rx)) rows ->
    exists z total s',
      prim_logpdf_score P (prim_new P h q) = Ok (Fin z) /\
      seq_logpdf P (prim_new P h q) rows = Some (total, s') /\
      p_data s' = rows /\
      prim_logpdf_score P s' = Ok (Fin (z + total)).

(** The probability denoted by the outcome of a logpdf call. *)
Definition prob (r : res ext) : R :=
  match r with Ok v => lexp v | Err _ => 0 end.
