(** Model of the queries on views and states:
    /repo/src/crosscat/sampling.py, the logpdf and simulate methods of
    /repo/src/mixtures/view.py and of /repo/src/crosscat/state.py.

    Simplifications.
    - [rowid=None] is the row number -1, which is hypothetical and held by no
      component.
    - The values drawn by the component distributions are delivered by arguments
      (a column, a cluster and a number give a value or an exception).
    - Dictionaries of targets and constraints hold cells; where the exposed
      cluster variable may occur too (view.py), values are of type [val]. *)
From Verif Require Export State Importance.
Local Open Scope R_scope.

Definition norow : Z := (-1)%Z.

(* ------------------------------------------------------------------ *)
(** ** sampling.py *)

(** _logpdf_row, sampling.py:102-107: the columns are given the cluster and no
    other input. *)
Definition row_density (v : view) (targets : dict cell) (k : Z) : res ext :=
  rsum_ext (map (fun cx => match dget (fst cx) (v_dims v) with
                           | None => Err KeyError
                           | Some a => a_logpdf a norow k (snd cx) []
                           end) targets).

(** view.hypothetical, view.py:452-453. *)
Definition v_hypothetical (v : view) (rowid : Z) : bool :=
  hypothetical (Z.of_nat (length (v_rows v))) rowid.

(** The two lists of log densities of sampling.py:73-79 and 88-94: the clusters,
    their log prior weights and the log densities of the constraints. *)
Definition cluster_weights (v : view) (constraints : dict cell)
  : res (list Z * list ext * list ext) :=
  rbind (crp_gibbs_tables (v_crp v) norow 1) (fun K =>
  rbind (rsequence (map (fun k => crp_predictive k (Z.of_nat (length (v_rows v)))
                                    (c_counts (v_crp v)) (c_alpha (v_crp v))) K)) (fun lp_crp =>
  rbind (rsequence (map (row_density v constraints) K)) (fun lp_constraints =>
  if forallb eisinf lp_constraints then Err ValueError                          (* 78-79 *)
  else Ok (K, lp_crp, lp_constraints)))).

(** np.add. *)
Definition eadds (a b : list ext) : list ext := map (fun p => eadd (fst p) (snd p)) (combine a b).

(** view_logpdf, sampling.py:70-82. *)
Definition view_logpdf (v : view) (rowid : Z) (targets constraints : dict cell) : res ext :=
  if negb (v_hypothetical v rowid) then
    match dget rowid (v_rows v) with
    | None => Err KeyError
    | Some k => row_density v targets k                                         (* 72 *)
    end
  else
    rbind (cluster_weights v constraints) (fun w =>
    let '(K, lp_crp, lp_constraints) := w in
    rbind (log_normalize (eadds lp_crp lp_constraints)) (fun lp_cluster =>      (* 80 *)
    rbind (rsequence (map (row_density v targets) K)) (fun lp_targets =>        (* 81 *)
    logsumexp (eadds lp_cluster lp_targets)))).                                 (* 82 *)

(** state_logpdf, sampling.py:37-49. *)
Definition state_logpdf (s : state) (rowid : Z) (targets constraints : dict cell) : res ext :=
  rbind (partition_dict (s_zv s) constraints) (fun cl =>
  rbind (partition_dict (s_zv s) targets) (fun tl =>
  rsum_ext (map (fun vt =>
    match dget (fst vt) (s_views s) with
    | None => Err KeyError
    | Some w => view_logpdf w rowid (snd vt)
                  (match dget (fst vt) cl with Some c => c | None => [] end)
    end) tl))).

(** Python's [zip( *ls)]. *)
Fixpoint zip_rows {A} (ls : list (list A)) : list (list A) :=
  match ls with
  | [] => []
  | [l] => map (fun x => [x]) l
  | l :: ls' => map (fun p => fst p :: snd p) (combine l (zip_rows ls'))
  end.
(** gu.merged of any number of dictionaries, general.py:50-54. *)
Definition merged_all {A} (ds : list (dict A)) : dict A := fold_left dupdate ds [].

(** _simulate_row, sampling.py:110-116: [src c k i] is the i-th value that column
    [c] draws in cluster [k]. *)
Definition simulate_row (v : view) (src : Z -> Z -> nat -> res R) (targets : list Z) (k : Z) (n : nat)
  : res (list (dict R)) :=
  rbind (rsequence (map (fun c =>
    if dmem c (v_dims v)
    then rsequence (map (fun i => rbind (src c k i) (fun x => Ok [(c, x)])) (seq 0 n))
    else Err KeyError) targets)) (fun samples =>
  Ok (map merged_all (zip_rows samples))).

(** [{k: n for k, n in enumerate(np.bincount(ks)) if n > 0}], sampling.py:97, in
    ascending order of the clusters.  bincount rejects negative numbers, and (in the
    older versions of numpy) an empty list. *)
Definition count_in (k : Z) (ks : list Z) : nat := count_occ Z.eq_dec ks k.
Definition bincount (ks : list Z) : res (list (Z * nat)) :=
  if existsb (fun k => (k <? 0)%Z) ks || is_nil ks then Err ValueError
  else Ok (map (fun k => (k, count_in k ks)) (zsort (nodup Z.eq_dec ks))).

(** view_simulate, sampling.py:85-99. *)
Definition view_simulate (draws : nat -> list ext -> nat) (src : Z -> Z -> nat -> res R)
  (v : view) (rowid : Z) (targets : list Z) (constraints : dict cell) (n : nat)
  : res (list (dict R)) :=
  if negb (v_hypothetical v rowid) then
    match dget rowid (v_rows v) with
    | None => Err KeyError
    | Some k => simulate_row v src targets k n                                  (* 87 *)
    end
  else
    rbind (cluster_weights v constraints) (fun w =>
    let '(K, lp_crp, lp_constraints) := w in
    rbind (log_pflip_many draws (eadds lp_crp lp_constraints) K n) (fun ks =>   (* 95-96 *)
    rbind (bincount ks) (fun counts =>
    rbind (rsequence (map (fun kn => simulate_row v src targets (fst kn) (snd kn)) counts))
      (fun samples => Ok (concat samples))))).                                  (* 98-99 *)

(** state_simulate, sampling.py:52-67, with [N = n] samples per view; [draws] and
    [src] serve one view each. *)
Definition state_samples (draws : Z -> nat -> list ext -> nat) (src : Z -> Z -> Z -> nat -> res R)
  (s : state) (rowid : Z) (targets : list Z) (constraints : dict cell) (n : nat)
  : res (list (dict R)) :=
  rbind (partition_dict (s_zv s) constraints) (fun cl =>
  rbind (partition_list (s_zv s) targets) (fun tl =>
  rbind (rsequence (map (fun vt =>
    match dget (fst vt) (s_views s) with
    | None => Err KeyError
    | Some w => view_simulate (draws (fst vt)) (src (fst vt)) w rowid (snd vt)
                  (match dget (fst vt) cl with Some c => c | None => [] end) n
    end) tl)) (fun samples =>
  Ok (map merged_all (zip_rows samples))))).                                    (* 66 *)

(** The result is a list if [N] is given and else one sample, sampling.py:55,67. *)
Inductive answer (A : Type) : Type := Many (l : list A) | One (a : A).
Arguments Many {A}. Arguments One {A}.
Definition state_simulate (draws : Z -> nat -> list ext -> nat) (src : Z -> Z -> Z -> nat -> res R)
  (s : state) (rowid : Z) (targets : list Z) (constraints : dict cell) (N : option nat)
  : res (answer (dict R)) :=
  rbind (state_samples draws src s rowid targets constraints (match N with Some n => n | None => 1%nat end))
    (fun samples =>
  match N with
  | Some _ => Ok (Many samples)
  | None => match samples with [] => Err IndexError | x :: _ => Ok (One x) end
  end).

(* ------------------------------------------------------------------ *)
(** ** State: validation *)

(** np.isnan(X[c][r]). *)
Definition is_nan_at (X : table) (c r : Z) : res bool :=
  rbind (X c r) (fun x => Ok (match x with None => true | Some _ => false end)).

(** [any] over tests that may raise, left to right. *)
Fixpoint rany {A} (f : A -> res bool) (l : list A) : res bool :=
  match l with
  | [] => Ok false
  | x :: l' => rbind (f x) (fun b => if b then Ok true else rany f l')
  end.

Definition has_dup (l : list Z) : bool := negb (Nat.eqb (length (nodup Z.eq_dec l)) (length l)).
Definition overlap (a b : list Z) : bool := existsb (fun x => zmem x b) a.

(** [not good_constraint(rowid, e)], state.py:467-471 and view.py:510-513. *)
Definition bad_constraint (X : table) (outs : list Z) (rowid : Z) (ec : Z * cell) : res bool :=
  if negb (zmem (fst ec) outs) then Ok false
  else rbind (X (fst ec) rowid) (fun x =>
       match x with
       | None => Ok false
       | Some a => Ok (match snd ec with Some b => negb (allclose a b) | None => true end)
       end).

(** _validate_cgpm_query, state.py:447-476; [simulate] tells the two kinds of
    queries apart. *)
Definition state_validate (s : state) (rowid : Z) (simulate : bool) (targets : list Z)
  (constraints : dict cell) : res unit :=
  rbind (n_rows s) (fun n =>
  let fresh := hypothetical n rowid in
  if simulate && has_dup targets then Err ValueError
  else rbind (if negb fresh && negb simulate
              then rany (fun q => rbind (is_nan_at (tab (s_X s)) q rowid) (fun b => Ok (negb b))) targets
              else Ok false) (fun b1 =>
  if b1 then Err ValueError
  else if is_nil constraints then Ok tt
  else if overlap targets (dkeys constraints) then Err ValueError
  else rbind (if fresh then Ok false
              else rany (bad_constraint (tab (s_X s)) (s_outs s) rowid) constraints) (fun b2 =>
  if b2 then Err ValueError else Ok tt))).

(** logpdf and simulate of a state that is not a composite, state.py:392-417. *)
Definition query_logpdf (s : state) (rowid : Z) (targets constraints : dict cell) : res ext :=
  rbind (state_validate s rowid false (dkeys targets) constraints) (fun _ =>
  state_logpdf s rowid targets constraints).
Definition query_simulate (draws : Z -> nat -> list ext -> nat) (src : Z -> Z -> Z -> nat -> res R)
  (s : state) (rowid : Z) (targets : list Z) (constraints : dict cell) (N : option nat)
  : res (answer (dict R)) :=
  rbind (state_validate s rowid true targets constraints) (fun _ =>
  state_simulate draws src s rowid targets constraints N).

(* ------------------------------------------------------------------ *)
(** ** view.py: queries through an importance network *)

(** A value of a variable of a view: a cell of a column or a cluster. *)
Inductive val : Type := VCell (x : cell) | VClus (k : Z).

(** The components of build_network, view.py:384-388: the Crp and the columns. *)
Definition view_sigs (v : view) : list sig :=
  Sig [v_out v] [] :: map (fun ca => Sig [fst ca] (v_out v :: d_ins (a_d (snd ca)))) (v_dims v).

(** The cluster and the cells among the inputs that a column gets (dim.py:239-255). *)
Definition input_cluster (o : Z) (inputs : dict val) : res Z :=
  match dget o inputs with Some (VClus k) => Ok k | Some (VCell _) => Err TypeError | None => Err ValueError end.
Definition input_cells (ins : list Z) (inputs : dict val) : res (list cell) :=
  rsequence (map (fun i => match dget i inputs with
                           | Some (VCell x) => Ok x | Some (VClus _) => Err TypeError | None => Err KeyError end) ins).

(** logpdf of the components. *)
Definition component_logpdf (v : view) (rowid : Z) (l : Z) (targets inputs : dict val) : res ext :=
  if (l =? 0)%Z then
    match targets with
    | [(_, VClus k)] => crp_logpdf (v_crp v) rowid k
    | _ => Err AssertionError
    end
  else match nth_error (v_dims v) (Z.to_nat l - 1) with
  | None => Err IndexError
  | Some (c, a) =>
      rbind (input_cluster (v_out v) inputs) (fun k =>
      rbind (input_cells (d_ins (a_d a)) inputs) (fun ins =>
      match dget c targets with
      | Some (VCell x) => a_logpdf a rowid k x ins
      | Some (VClus _) => Err TypeError
      | None => Err KeyError
      end))
  end.

(** simulate of the components; the draws of the i-th particle. *)
Definition component_simulate (v : view) (kdraw : list ext -> nat) (xdraw : Z -> Z -> res R)
  (rowid : Z) (l : Z) (targets : list Z) (constraints inputs : dict val) : res (dict val) :=
  if (l =? 0)%Z then
    rbind (crp_simulate kdraw (v_crp v) rowid) (fun k => Ok [(v_out v, VClus k)])
  else match nth_error (v_dims v) (Z.to_nat l - 1) with
  | None => Err IndexError
  | Some (c, a) =>
      rbind (input_cluster (v_out v) inputs) (fun k =>
      rbind (input_cells (d_ins (a_d a)) inputs) (fun ins =>
      match all_some ins with
      | None => Err AssertionError                                               (* dim.py:140 *)
      | Some _ => rbind (xdraw c k) (fun x => Ok [(c, VCell (Some x))])
      end))
  end.

(** _validate_cgpm_query, view.py:496-518. *)
Definition view_validate (X : table) (v : view) (rowid : Z) (simulate : bool) (targets : list Z)
  (constraints : dict val) : res unit :=
  if simulate && has_dup targets then Err ValueError
  else if overlap targets (dkeys constraints) then Err ValueError
  else if v_hypothetical v rowid then Ok tt
  else if zmem (v_out v) targets || dmem (v_out v) constraints then Err ValueError
  else rbind (rany (fun ec => match snd ec with
                              | VCell x => bad_constraint X (v_out v :: dkeys (v_dims v)) rowid (fst ec, x)
                              | VClus _ => Err TypeError
                              end) constraints) (fun b =>
       if b then Err ValueError else Ok tt).

(** The observed cells of the row, view.py:464-471. *)
Fixpoint observed_cells (X : table) (rowid : Z) (skip : list Z) (cols : list Z) : res (dict val) :=
  match cols with
  | [] => Ok []
  | c :: cols' =>
      if zmem c skip then observed_cells X rowid skip cols'
      else rbind (X c rowid) (fun x =>
           rbind (observed_cells X rowid skip cols') (fun d =>
           Ok (match x with None => d | Some _ => (c, VCell x) :: d end)))
  end.

(** _populate_constraints, view.py:455-475. *)
Definition view_populate (X : table) (v : view) (rowid : Z) (simulate : bool) (targets : list Z)
  (constraints : dict val) : res (dict val) :=
  rbind (view_validate X v rowid simulate targets constraints) (fun _ =>
  if v_hypothetical v rowid then Ok constraints
  else rbind (observed_cells X rowid (targets ++ dkeys constraints) (dkeys (v_dims v))) (fun data =>
       match dget rowid (v_rows v) with
       | None => Err KeyError
       | Some k => Ok (merged constraints (dset (v_out v) (VClus k) data))
       end)).

Section ViewQueries.
  (** The draws of the components: the number of the call of the network, of the
      particle, and the column and cluster. *)
  Variable kdraw : nat -> nat -> list ext -> nat.
  Variable xdraw : nat -> nat -> Z -> Z -> res R.
  Variable X : table.
  Variable v : view.

  (** network.logpdf and network.simulate with accuracy 1, view.py:384-388. *)
  Definition net_logpdf (call : nat) (rowid : Z) (targets constraints inputs : dict val) : res ext :=
    rbind (network_init (view_sigs v)) (fun topo =>
    network_logpdf (view_sigs v) topo (fun i => component_logpdf v rowid)
      (fun i => component_simulate v (kdraw call i) (xdraw call i) rowid) 1 targets constraints inputs).
  Definition net_simulate (call : nat) (rowid : Z) (targets : list Z) (constraints inputs : dict val)
    (n : nat) : res (list (dict val)) :=
    rbind (network_init (view_sigs v)) (fun topo =>
    simulate_n (view_sigs v) topo (fun i => component_logpdf v rowid)
      (fun i => component_simulate v (kdraw call i) (xdraw call i) rowid)
      (fun _ _ => 0%nat) 1 targets constraints inputs n).

  Definition calls {A} (l : list A) : list (nat * A) := combine (seq 0 (length l)) l.

  (** The last branch of logpdf, view.py:313-329: the cluster is neither a target nor
      a constraint. *)
  Definition view_marginal (rowid : Z) (targets constraints inputs : dict val) : res ext :=
    rbind (crp_gibbs_tables (v_crp v) norow 1) (fun K =>
    let constraints_k := map (fun k => merged constraints [(v_out v, VClus k)]) K in
    rbind (rsequence (map (fun jc => net_logpdf (fst jc) rowid (snd jc) [] inputs)
                        (calls constraints_k))) (fun lp_constraints_unorm =>
    rbind (log_normalize lp_constraints_unorm) (fun lp_constraints =>
    rbind (rsequence (map (fun jc => net_logpdf (length K + fst jc) rowid targets (snd jc) inputs)
                        (calls constraints_k))) (fun lp_targets =>
    logsumexp (eadds lp_constraints lp_targets))))).

  (** logpdf, view.py:275-329. *)
  Definition vquery_logpdf (rowid : Z) (targets constraints0 inputs : dict val) : res ext :=
    rbind (view_populate X v rowid false (dkeys targets) constraints0) (fun constraints =>
    let rowid := if v_hypothetical v rowid then rowid else norow in              (* 286-287 *)
    if dmem (v_out v) constraints then                                           (* 290 *)
      net_logpdf 0 rowid targets constraints inputs
    else match dget (v_out v) targets with
    | Some k =>                                                                  (* 294 *)
        let constraints_z := [(v_out v, k)] in
        let targets_nz := filter (fun cx => negb (fst cx =? v_out v)%Z) targets in
        let targets_numer := merged targets_nz constraints in
        (* line 307 passes the inputs as constraints *)
        rbind (net_logpdf 0 rowid constraints_z inputs []) (fun lp_cluster =>
        rbind (if is_nil targets_numer then Ok (Fin 0)
               else net_logpdf 1 rowid targets_numer constraints_z inputs) (fun lp_numer =>
        rbind (if is_nil constraints then Ok (Fin 0)
               else rbind (view_validate X v rowid false (dkeys constraints) []) (fun _ =>
                    view_marginal rowid constraints [] [])) (fun lp_denom =>
        Ok (esub (eadd lp_cluster lp_numer) lp_denom))))
    | None => view_marginal rowid targets constraints inputs
    end).

  (** simulate, view.py:334-368, as a list of samples ([N=None] asks for one and
      returns the first). *)
  Definition vquery_simulate (draws : nat -> list ext -> nat) (rowid : Z) (targets : list Z)
    (constraints0 inputs : dict val) (n : nat) : res (list (dict val)) :=
    rbind (view_populate X v rowid true targets constraints0) (fun constraints =>
    let rowid := if v_hypothetical v rowid then rowid else norow in
    if dmem (v_out v) constraints then net_simulate 0 rowid targets constraints inputs n
    else
      let exposed := zmem (v_out v) targets in
      let targets := filter (fun q => negb (q =? v_out v)%Z) targets in          (* 348-349 *)
      rbind (crp_gibbs_tables (v_crp v) norow 1) (fun K =>
      let constr2 := map (fun k => merged constraints [(v_out v, VClus k)]) K in
      rbind (rsequence (map (fun jc => net_logpdf (fst jc) rowid (snd jc) [] []) (calls constr2)))
        (fun lps =>
      rbind (log_pflip_many draws lps K n) (fun ks =>
      rbind (bincount ks) (fun counts =>
      rbind (rsequence (map (fun jkn =>
          let k := fst (snd jkn) in
          rbind (net_simulate (length K + fst jkn) rowid targets
                   (merged constraints [(v_out v, VClus k)]) inputs (snd (snd jkn))) (fun s =>
          Ok (if exposed then map (fun l => merged l [(v_out v, VClus k)]) s else s)))
        (calls counts))) (fun samples =>
      Ok (concat samples))))))).
  Definition vquery_simulate_N (draws : nat -> list ext -> nat) (rowid : Z) (targets : list Z)
    (constraints inputs : dict val) (N : option nat) : res (answer (dict val)) :=
    rbind (vquery_simulate draws rowid targets constraints inputs
             (match N with Some n => n | None => 1%nat end)) (fun samples =>
    match N with
    | Some _ => Ok (Many samples)
    | None => match samples with [] => Err IndexError | x :: _ => Ok (One x) end
    end).
End ViewQueries.
