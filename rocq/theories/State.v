(** Model of /repo/src/crosscat/state.py: a crosscat state, its data table, its
    column partition and the views.  Queries and composition with foreign cgpms
    are in other files.

    Simplifications.
    - [self.crp] is a Dim whose only input is the constant 0, so it holds one Crp
      object, the field [s_crp]; it exists once a column has been inserted.
    - The class of a new column, its distribution arguments and its
      hyperparameters arrive as a column without rows (an [adim]); the type names
      are not modelled.
    - An observation is split by the caller into cells and clusters: [obs] holds
      the entries for the columns, [clus] the entries whose key is the cluster
      variable of a view.
    - A constructor of a view draws its concentration, its grid and its row
      partition; these draws are a [vseed].
    - Diagnostics counters and the debug assertions of [_check_partitions] are not
      modelled; C25 states what the latter check. *)
From Verif Require Export View Partition.
From Verif Require CrpSim.
Local Open Scope R_scope.

(** [l[i]] with Python's negative indices. *)
Definition py_nth {A} (l : list A) (i : Z) : res A :=
  let n := Z.of_nat (length l) in
  let j := if (i <? 0)%Z then (i + n)%Z else i in
  if (0 <=? j)%Z then
    match nth_error l (Z.to_nat j) with Some x => Ok x | None => Err IndexError end
  else Err IndexError.
Definition py_set {A} (l : list A) (i : Z) (x : A) : list A :=
  let k := Z.to_nat i in firstn k l ++ match skipn k l with [] => [] | _ :: t => x :: t end.

Record state : Type := State {
  s_outs : list Z;                (* outputs *)
  s_X : dict (list cell);         (* X *)
  s_crp : crp;                    (* crp.clusters[0] *)
  s_grid : list R;                (* crp.hyper_grids['alpha'] *)
  s_views : dict view;            (* views *)
  s_Cd : list (list Z);           (* Cd *)
  s_Ci : list (list Z)            (* Ci *)
}.

(** [self.X[c][r]]. *)
Definition tab (X : dict (list cell)) : table :=
  fun c r => match dget c X with None => Err KeyError | Some l => py_nth l r end.

Definition set_views (s : state) (vs : dict view) : state :=
  State (s_outs s) (s_X s) (s_crp s) (s_grid s) vs (s_Cd s) (s_Ci s).
Definition set_X (s : state) (X : dict (list cell)) : state :=
  State (s_outs s) X (s_crp s) (s_grid s) (s_views s) (s_Cd s) (s_Ci s).
Definition set_outs (s : state) (o : list Z) : state :=
  State o (s_X s) (s_crp s) (s_grid s) (s_views s) (s_Cd s) (s_Ci s).
Definition set_scrp (s : state) (c : crp) : state :=
  State (s_outs s) (s_X s) c (s_grid s) (s_views s) (s_Cd s) (s_Ci s).

Definition s_zv (s : state) : dict Z := c_data (s_crp s).            (* Zv(), 1006-1008 *)

(** crp_id_view, state.py:139. *)
Definition crp_id_view : Z := 10000000%Z.

(** n_rows, state.py:930-932. *)
Definition n_rows (s : state) : res Z :=
  match s_outs s with
  | [] => Err IndexError
  | c :: _ => match dget c (s_X s) with
              | None => Err KeyError | Some l => Ok (Z.of_nat (length l)) end
  end.

(** hypothetical, state.py:1156-1157. *)
Definition hypothetical (n rowid : Z) : bool := negb ((0 <=? rowid)%Z && (rowid <? n)%Z).

(* ------------------------------------------------------------------ *)
(** ** Construction of views *)

Record vseed : Type := VSeed {
  vs_alpha : R; vs_grid : list R; vs_draw : nat -> list ext -> nat
}.

(** Rows seated by simulation, view.py:105-108. *)
Fixpoint seat_rows (draw : nat -> list ext -> nat) (rows : list Z) (c : crp) : res crp :=
  match rows with
  | [] => Ok c
  | i :: rows' =>
      rbind (crp_simulate (draw (length rows')) c i) (fun k =>
      let '(c', r) := crp_incorporate c i k in
      rbind r (fun _ => seat_rows draw rows' c'))
  end.

(** Rows seated as given, view.py:109-111. *)
Fixpoint seat_given (zr : list (Z * Z)) (c : crp) : res crp :=
  match zr with
  | [] => Ok c
  | (i, k) :: zr' =>
      let '(c', r) := crp_incorporate c i k in rbind r (fun _ => seat_given zr' c')
  end.

Definition range (n : Z) : list Z := map Z.of_nat (seq 0 (Z.to_nat n)).

(** View.__init__ without columns, view.py:64-111; [zr] is the row partition if
    given.  The number of rows is that of the first column of the table. *)
Definition view_make (X : dict (list cell)) (o : Z) (seed : vseed) (zr : option (list Z))
  : res view :=
  match X with
  | [] => Err IndexError
  | (_, l) :: _ =>
      let n := Z.of_nat (length l) in
      let c0 := crp_new (vs_alpha seed) in
      rbind (match zr with
             | None => seat_rows (vs_draw seed) (range n) c0
             | Some z => seat_given (combine (range (Z.of_nat (length z))) z) c0
             end) (fun c =>
      Ok (View o c (vs_grid seed) []))
  end.

(** A column to be built: a column of its class without rows, its hyperparameter
    grids and the numbers picking the initial values (view.py:114-129). *)
Record cspec : Type := CSpec {
  cs_col : adim; cs_grids : list (list R); cs_picks : nat -> nat
}.
Definition col_make (k : cspec) : adim * res unit :=
  a_call (cs_col k) (CallGrids (cs_grids k) (cs_picks k)).

(** The loop view.py:114-129 over the columns. *)
Fixpoint view_columns (X : table) (w : view) (cols : list (Z * cspec)) : res view :=
  match cols with
  | [] => Ok w
  | (c, k) :: cols' =>
      let '(a, r) := col_make k in
      rbind r (fun _ =>
      let '(w', _, r2) := view_incorporate_dim X w c a true in
      rbind r2 (fun _ =>
      rbind (match dget c (v_dims w') with Some a' => a_score a' | None => Err KeyError end) (fun _ =>
      view_columns X w' cols')))
  end.

(** The loop state.py:140-158: one view for each distinct value of the column
    partition; [order] is the iteration order of the set. *)
Record vspec : Type := VSpec {
  vp_seed : vseed; vp_zr : option (list Z)
}.
Fixpoint view_outputs (zv : dict Z) (v : Z) (outs : list Z) : res (list Z) :=   (* 144 *)
  match outs with
  | [] => Ok []
  | c :: outs' =>
      match dget c zv with
      | None => Err KeyError
      | Some v' => rbind (view_outputs zv v outs') (fun l => Ok (if (v' =? v)%Z then c :: l else l))
      end
  end.
Fixpoint make_views (X : dict (list cell)) (outs : list Z) (zv : dict Z) (vspecs : Z -> vspec)
  (cspecs : Z -> cspec) (order : list Z) : res (dict view) :=
  match order with
  | [] => Ok []
  | v :: order' =>
      rbind (view_outputs zv v outs) (fun mine =>
      rbind (view_make X (crp_id_view + v) (vp_seed (vspecs v)) (vp_zr (vspecs v))) (fun w =>
      rbind (view_columns (tab X) w (map (fun c => (c, cspecs c)) mine)) (fun w' =>
      rbind (make_views X outs zv vspecs cspecs order') (fun ws => Ok ((v, w') :: ws)))))
  end.

(** __init__, state.py:47-182, for a given column partition [zv] (the constrained
    and unconstrained simulators of column partitions are modelled in CrpSim). *)
Definition state_init (X : dict (list cell)) (zv : list (Z * Z)) (alpha : R) (grid : list R)
  (Cd Ci : list (list Z)) (vspecs : Z -> vspec) (cspecs : Z -> cspec) (order : list Z)
  : res state :=
  let outs := dkeys X in
  rbind (seat_given zv (crp_new alpha)) (fun c =>
  if (length (c_data c) =? length outs)%nat then                      (* 124 *)
    rbind (make_views X outs (c_data c) vspecs cspecs order) (fun ws =>
    Ok (State outs X c grid ws Cd Ci))
  else Err AssertionError).

(* ------------------------------------------------------------------ *)
(** ** Loops over views and columns *)

(** [for v in vs: f(self.views[v])]. *)
Fixpoint views_loop (f : nat -> Z -> view -> view * res unit) (vs : list Z) (views : dict view)
  : dict view * res unit :=
  match vs with
  | [] => (views, Ok tt)
  | v :: vs' =>
      match dget v views with
      | None => (views, Err KeyError)
      | Some w =>
          let '(w', r) := f (length vs') v w in
          match r with
          | Err e => (dset v w' views, Err e)
          | Ok _ => views_loop f vs' (dset v w' views)
          end
      end
  end.

(** A call on the column [c] through [dim_for(c)], state.py:1013-1020. *)
Definition dim_call (s : state) (c : Z) (o : dcall) : state * res unit :=
  match dget c (s_zv s) with
  | None => (s, Err KeyError)
  | Some v =>
      match dget v (s_views s) with
      | None => (s, Err KeyError)
      | Some w => let '(w', r) := view_call w c o in (set_views s (dset v w' (s_views s)), r)
      end
  end.
Fixpoint dims_call (s : state) (cols : list Z) (o : nat -> Z -> dcall) : state * res unit :=
  match cols with
  | [] => (s, Ok tt)
  | c :: cols' =>
      let '(s1, r) := dim_call s c (o (length cols') c) in
      match r with
      | Err e => (s1, Err e)
      | Ok _ => dims_call s1 cols' o
      end
  end.

(* ------------------------------------------------------------------ *)
(** ** Rows *)

(** The loop state.py:278-279. *)
Fixpoint append_row (outs : list Z) (obs : dict cell) (X : dict (list cell))
  : dict (list cell) * res unit :=
  match outs with
  | [] => (X, Ok tt)
  | c :: outs' =>
      match dget c X with
      | None => (X, Err KeyError)
      | Some l =>
          append_row outs' obs
            (dset c (l ++ [match dget c obs with Some x => x | None => None end]) X)
      end
  end.

(** incorporate, state.py:262-289. *)
Definition state_incorporate (draws : nat -> nat -> list ext -> nat) (s : state) (rowid : Z)
  (obs : dict cell) (clus : dict Z) : state * res unit :=
  match n_rows s with
  | Err e => (s, Err e)
  | Ok n =>
      if negb (rowid =? n)%Z then (s, Err ValueError)                  (* 264-265 *)
      else if negb (forallb (fun c => zmem c (s_outs s)) (dkeys obs)) then (s, Err ValueError)
      else if existsb (fun x : cell => match x with None => true | _ => false end) (dvals obs)
      then (s, Err ValueError)                                         (* 274-275 *)
      else
        let '(X, r) := append_row (s_outs s) obs (s_X s) in
        let s1 := set_X s X in
        match r, n_rows s1 with
        | Err e, _ | _, Err e => (s1, Err e)
        | Ok _, Ok n1 =>
            let rowid := if hypothetical n1 rowid then (n1 - 1)%Z else rowid in   (* 281-282 *)
            let '(ws, r2) := views_loop (fun i _ w =>
              match table_row (tab X) w rowid with
              | Err e => (w, Err e)
              | Ok q => view_incorporate (tab X) (draws i) w rowid (dget (v_out w) clus) q
              end) (dkeys (s_views s)) (s_views s) in
            (set_views s1 ws, r2)
        end
  end.

(** The loop state.py:301-302. *)
Fixpoint pop_row (outs : list Z) (X : dict (list cell)) : dict (list cell) * res unit :=
  match outs with
  | [] => (X, Ok tt)
  | c :: outs' =>
      match dget c X with
      | None => (X, Err KeyError)
      | Some [] => (X, Err IndexError)
      | Some l => pop_row outs' (dset c (removelast l) X)
      end
  end.

(** unincorporate, state.py:291-306. *)
Definition state_unincorporate (s : state) (rowid : Z) : state * res unit :=
  match n_rows s with
  | Err e => (s, Err e)
  | Ok n =>
      if negb (rowid =? n - 1)%Z then (s, Err ValueError)
      else if (n =? 1)%Z then (s, Err ValueError)
      else
        let '(X, r) := pop_row (s_outs s) (s_X s) in
        match r with
        | Err e => (set_X s X, Err e)
        | Ok _ =>
            let '(ws, r2) := views_loop (fun _ _ w => view_unincorporate w rowid)
                               (dkeys (s_views s)) (s_views s) in
            (set_views (set_X s X) ws, r2)
        end
  end.

(** The loop state.py:314-315; missing columns have been rejected before. *)
Fixpoint set_cells (rowid : Z) (obs : dict cell) (X : dict (list cell)) : dict (list cell) :=
  match obs with
  | [] => X
  | (c, x) :: obs' =>
      set_cells rowid obs'
        (match dget c X with Some l => dset c (py_set l rowid x) X | None => X end)
  end.

(** [{c: observation[c] for c in view_variables}]. *)
Definition sub_obs {A} (obs : dict A) (cols : list Z) : dict A :=
  dict_of (flat_map (fun c => match dget c obs with Some x => [(c, x)] | None => [] end) cols).

(** [all(isnan(self.X[c][rowid]) for c in observation)], state.py:312: evaluation stops
    at the first observed cell. *)
Fixpoint all_nan (X : table) (rowid : Z) (cols : list Z) : res bool :=
  match cols with
  | [] => Ok true
  | c :: cols' =>
      rbind (X c rowid) (fun x =>
      match x with Some _ => Ok false | None => all_nan X rowid cols' end)
  end.

(** force_cell, state.py:309-320. *)
Definition state_force_cell (s : state) (rowid : Z) (obs : dict cell) : state * res unit :=
  match n_rows s with
  | Err e => (s, Err e)
  | Ok n =>
      if hypothetical n rowid then (s, Err ValueError)                 (* 310-311 *)
      else match all_nan (tab (s_X s)) rowid (dkeys obs) with
      | Err e => (s, Err e)
      | Ok false => (s, Err ValueError)                                (* 312-313 *)
      | Ok true =>
          let X := set_cells rowid obs (s_X s) in
          match partition_list (s_zv s) (dkeys obs) with               (* 316-317 *)
          | Err e => (set_X s X, Err e)
          | Ok queries =>
              let '(ws, r) := views_loop (fun _ v w =>
                view_force_cell (tab X) w rowid
                  (sub_obs obs (match dget v queries with Some l => l | None => [] end)))
                (dkeys queries) (s_views s) in
              (set_views (set_X s X) ws, r)
          end
      end
  end.

(* ------------------------------------------------------------------ *)
(** ** Reassignment of a column *)

(** _dim_get_data_logp, state.py:1030-1040, on the column object [a]. *)
Definition data_logp (X : table) (w : view) (c : Z) (a : adim) : view * adim * res ext :=
  let reassign := m_coll (a_M a) || negb (dmem c (v_dims w)) in
  let '(w1, a1, r) := view_incorporate_dim X w c a reassign in
  match r with
  | Err e => (w1, a1, Err e)
  | Ok _ =>
      match a_score a1 with
      | Err e => (w1, a1, Err e)
      | Ok lp => let '(w2, r2) := view_unincorporate_dim w1 c in (w2, a1, rbind r2 (fun _ => Ok lp))
      end
  end.

(** The proposals and their data probabilities, state.py:1063-1071 and 1076-1084,
    over a dictionary of views.  The column object itself, [shared], is proposed to
    every view if the class is collapsed, and to the view it is in; the other views
    get copies of the original [a].  In the list of proposals [None] stands for the
    column object. *)
Fixpoint data_logps (X : table) (c : Z) (a shared : adim) (ws : dict view)
  : dict view * adim * res (list (option adim * ext)) :=
  match ws with
  | [] => ([], shared, Ok [])
  | (v, w) :: ws' =>
      let alias := m_coll (a_M a) || dmem c (v_dims w) in
      let '(w1, a1, r) := data_logp X w c (if alias then shared else a) in
      let shared1 := if alias then a1 else shared in
      match r with
      | Err e => ((v, w1) :: ws', shared1, Err e)
      | Ok lp =>
          let '(ws2, shared2, r2) := data_logps X c a shared1 ws' in
          ((v, w1) :: ws2, shared2,
           rbind r2 (fun l => Ok ((if alias then None else Some a1, lp) :: l)))
      end
  end.

(** The auxiliary views, state.py:1077-1080. *)
Fixpoint aux_views (X : dict (list cell)) (seeds : nat -> vseed) (ts : list Z) : res (dict view) :=
  match ts with
  | [] => Ok []
  | t :: ts' =>
      rbind (view_make X (crp_id_view + t) (seeds (length ts')) None) (fun w =>
      rbind (aux_views X seeds ts') (fun ws => Ok ((t, w) :: ws)))
  end.

(** [l.index(x)]. *)
Fixpoint index_of (x : Z) (l : list Z) : res nat :=
  match l with
  | [] => Err ValueError
  | y :: l' => if (x =? y)%Z then Ok O else rbind (index_of x l') (fun i => Ok (S i))
  end.

Definition set_nth {A} (i : nat) (x : A) (l : list A) : list A :=
  firstn i l ++ match skipn i l with [] => [] | _ :: t => x :: t end.

(** The columns that [col] must avoid, state.py:1098. *)
Definition avoid (Ci : list (list Z)) (col : Z) : list Z :=
  flat_map (fun p => if zmem col p then filter (fun a => negb (a =? col)%Z) p else []) Ci.

(** state.py:1099-1101. *)
Fixpoint mask (s : state) (keys : list Z) (l : list Z) (w : list ext) : res (list ext) :=
  match l with
  | [] => Ok w
  | a :: l' =>
      match dget a (s_zv s) with
      | None => Err KeyError
      | Some v => rbind (index_of v keys) (fun i => mask s keys l' (set_nth i NInf w))
      end
  end.

(** _migrate_dim, state.py:1125-1145. *)
Definition migrate_to (reassign : bool) (s : state) (c va vb : Z) (a : adim) : state * res unit :=
  match dget va (c_counts (s_crp s)), dget va (s_views s) with
  | None, _ | _, None => (s, Err KeyError)
  | Some nva, Some wa =>
      let '(wa1, r1) := if dmem c (v_dims wa) then view_unincorporate_dim wa c else (wa, Ok tt) in
      let s1 := set_views s (dset va wa1 (s_views s)) in
      match r1 with
      | Err e => (s1, Err e)
      | Ok _ =>
      match dget vb (s_views s1) with
      | None => (s1, Err KeyError)
      | Some wb =>
          let '(wb1, a1, r2) := view_incorporate_dim (tab (s_X s)) wb c a reassign in
          let s2 := set_views s1 (dset vb wb1 (s_views s1)) in
          match rbind r2 (fun _ => a_score a1) with
          | Err e => (s2, Err e)
          | Ok _ =>
              let '(k1, r3) := crp_unincorporate (s_crp s2) c in
              match r3 with
              | Err e => (set_scrp s2 k1, Err e)
              | Ok _ =>
                  let '(k2, r4) := crp_incorporate k1 c vb in
                  match r4 with
                  | Err e => (set_scrp s2 k2, Err e)
                  | Ok _ =>
                      let s3 := set_scrp s2 k2 in
                      if (nva =? 1)%Z then
                        if dmem va (c_counts k2) then (s3, Err AssertionError)      (* 1148 *)
                        else (set_views s3 (ddel va (s_views s3)), Ok tt)
                      else (s3, Ok tt)
                  end
              end
          end
      end
      end
  end.

(** The same with [reassign] not given, state.py:1131-1132. *)
Definition migrate_dim (s : state) (c va vb : Z) (a : adim) : state * res unit :=
  migrate_to (m_coll (a_M a)) s c va vb a.

Definition dim_for (s : state) (c : Z) : res adim :=
  match dget c (s_zv s) with
  | None => Err KeyError
  | Some v => match dget v (s_views s) with
              | None => Err KeyError
              | Some w => match dget c (v_dims w) with None => Err KeyError | Some a => Ok a end
              end
  end.

(** The random choices of one column step. *)
Record cdraws : Type := CDraws { cd_draw : list ext -> nat; cd_seeds : nat -> vseed }.

(** state.py:1063-1104: the candidate views, the weights, the proposals and the
    auxiliary views, with the state after the weights have been computed.  Python 2
    leaves the variable of the list comprehension of line 1068 bound to the last
    proposal, which is what line 1076 copies. *)
Record cplan : Type := CPlan {
  cp_tables : list Z;               (* tables *)
  cp_weights : list ext;            (* logp_views, after masking *)
  cp_props : list (option adim);    (* dims_proposal *)
  cp_shared : adim;                 (* the column object itself *)
  cp_aux : dict view                (* views_proposal_aux, by table *)
}.
Definition column_plan (seeds : nat -> vseed) (s : state) (c : Z) (m : nat) (a : adim)
  : state * res cplan :=
  let X := tab (s_X s) in
  let '(ws, sh, r) := data_logps X c a a (s_views s) in
  let s1 := set_views s ws in
  match r with
  | Err e => (s1, Err e)
  | Ok ex =>
      (s1,
       rbind (crp_gibbs_tables (s_crp s) c m) (fun tables =>
       rbind (aux_views (s_X s) seeds (skipn (length ws) tables)) (fun auxs =>
       let src := match last (map fst ex) None with Some b => b | None => sh end in
       let '(auxs1, sh2, r2) := data_logps X c src sh auxs in
       rbind r2 (fun ax =>
       rbind (crp_gibbs_logps (s_crp s) c m) (fun logp_crp =>
       let props := ex ++ ax in
       if (length props =? length logp_crp)%nat then                   (* 1092 *)
         let logp_views := map (fun pl => eadd (snd (fst pl)) (Fin (snd pl)))
                             (combine props logp_crp) in
         rbind (mask s (dkeys ws) (avoid (s_Ci s) c) logp_views) (fun w =>
         if (length tables =? length w)%nat                            (* 1104 *)
         then Ok (CPlan tables w (map fst props) sh2 auxs1)
         else Err AssertionError)
       else Err AssertionError)))))
  end.

(** _gibbs_transition_dim, state.py:1050-1123. *)
Definition all_dims (s : state) : res (list adim) := rsequence (map (dim_for s) (s_outs s)).
Definition transition_dim (d : cdraws) (s : state) (c : Z) (m : nat) : state * res unit :=
  match all_dims s with
  | Err e => (s, Err e)
  | Ok ds =>
      if existsb (fun a => m_cond (a_M a)) ds then (s, Err ValueError)        (* 1053-1055 *)
      else match s_Cd s with
      | _ :: _ => (s, Err ValueError)                                          (* 1056-1059 *)
      | [] =>
          match dim_for s c with
          | Err e => (s, Err e)
          | Ok a =>
              let '(s1, r) := column_plan (cd_seeds d) s c m a in
              match r with
              | Err e => (s1, Err e)
              | Ok p =>
                  match log_pflip (cd_draw d) (cp_weights p)
                          (combine (cp_tables p) (cp_props p)) with            (* 1105-1106 *)
                  | Err e => (s1, Err e)
                  | Ok (vb, prop) =>
                      let b := match prop with None => cp_shared p | Some b => b end in
                      match dget c (s_zv s1) with
                      | None => (s1, Err KeyError)
                      | Some va =>
                          if (va =? vb)%Z then                                  (* 1117-1121 *)
                            match dget va (s_views s1) with
                            | None => (s1, Err KeyError)
                            | Some wa =>
                                let '(wa1, b1, r1) :=
                                  view_incorporate_dim (tab (s_X s1)) wa c b (m_coll (a_M b)) in
                                (set_views s1 (dset va wa1 (s_views s1)),
                                 rbind r1 (fun _ => rbind (a_score b1) (fun _ => Ok tt)))
                            end
                          else
                            match zmax_list (dkeys (s_views s1)) with
                            | None => (s1, Err ValueError)
                            | Some mx =>
                                if (mx <? vb)%Z then                            (* 1113-1115 *)
                                  match dget vb (cp_aux p) with
                                  | None => (s1, Err IndexError)
                                  | Some w => migrate_dim (set_views s1 (dset vb w (s_views s1))) c va vb b
                                  end
                                else migrate_dim s1 c va vb b
                            end
                      end
                  end
              end
          end
      end
  end.

(** transition_dims, state.py:803-809; [cols] is the permuted list. *)
Fixpoint transition_dims (d : nat -> cdraws) (m : nat) (s : state) (cols : list Z)
  : state * res unit :=
  match cols with
  | [] => (s, Ok tt)
  | c :: cols' =>
      let '(s1, r) := transition_dim (d (length cols')) s c m in
      match r with
      | Err e => (s1, Err e)
      | Ok _ => transition_dims d m s1 cols'
      end
  end.

(* ------------------------------------------------------------------ *)
(** ** Columns *)

(** incorporate_dim, state.py:187-237.  [v] is the view, if given; [seed] the draws of
    a new view; [d] those of the column step, [hd] and [ho] those of the
    hyperparameter step. *)
Definition state_incorporate_dim (s : state) (T : list cell) (col : Z) (k : cspec)
  (v : option Z) (seed : vseed) (d : cdraws) (hd : nat -> list ext -> nat) (ho : list nat)
  : state * res unit :=
  match n_rows s with
  | Err e => (s, Err e)
  | Ok n =>
      if negb (Z.of_nat (length T) =? n)%Z then (s, Err ValueError)      (* 190-193 *)
      else if zmem col (s_outs s) then (s, Err ValueError)               (* 198-201 *)
      else
        let X := dset col T (s_X s) in
        let s1 := set_outs (set_X s X) (s_outs s ++ [col]) in
        let v_add := match v with Some v => v | None => 0%Z end in
        match (match dget v_add (s_views s1) with
               | Some w => Ok w
               | None => view_make X (crp_id_view + v_add) seed None
               end) with
        | Err e => (s1, Err e)
        | Ok w =>
            let s2 := set_views s1 (dset v_add w (s_views s1)) in
            let '(a, r) := col_make k in
            match r with
            | Err e => (s2, Err e)
            | Ok _ =>
                let '(w1, a1, r1) := view_incorporate_dim (tab X) w col a true in
                let s3 := set_views s2 (dset v_add w1 (s_views s2)) in
                match rbind r1 (fun _ => a_score a1) with
                | Err e => (s3, Err e)
                | Ok _ =>
                    let '(c, r2) := crp_incorporate (s_crp s3) col v_add in
                    let s4 := set_scrp s3 c in
                    match r2 with
                    | Err e => (s4, Err e)
                    | Ok _ =>
                        let '(s5, r3) := match v with
                                         | None => transition_dims (fun _ => d) 1 s4 [col]
                                         | Some _ => (s4, Ok tt)
                                         end in
                        match r3 with
                        | Err e => (s5, Err e)
                        | Ok _ => dim_call s5 col (CallHypers hd ho)
                        end
                    end
                end
            end
        end
  end.

(** unincorporate_dim, state.py:239-260. *)
Definition state_unincorporate_dim (s : state) (col : Z) : state * res unit :=
  if (length (s_outs s) =? 1)%nat then (s, Err ValueError)
  else if negb (zmem col (s_outs s)) then (s, Err ValueError)
  else
    match dget col (s_zv s) with
    | None => (s, Err KeyError)
    | Some v =>
        match dget v (s_views s), dget v (c_counts (s_crp s)) with
        | None, _ | _, None => (s, Err KeyError)
        | Some w, Some nv =>
            let '(w1, r) := view_unincorporate_dim w col in
            let s1 := set_views s (dset v w1 (s_views s)) in
            match r with
            | Err e => (s1, Err e)
            | Ok _ =>
                let '(c, r2) := crp_unincorporate (s_crp s1) col in
                let s2 := set_scrp s1 c in
                match r2 with
                | Err e => (s2, Err e)
                | Ok _ =>
                    if (nv =? 1)%Z && dmem v (c_counts c) then (s2, Err AssertionError)
                    else
                      let s3 := if (nv =? 1)%Z then set_views s2 (ddel v (s_views s2)) else s2 in
                      if dmem col (s_X s3) then
                        (set_outs (set_X s3 (ddel col (s_X s3)))
                           (filter (fun i => negb (i =? col)%Z) (s_outs s3)), Ok tt)
                      else (s3, Err KeyError)
                end
            end
        end
    end.

(** update_cctype, state.py:325-335; [a] is the new column (view.py:196-218). *)
Definition state_update_cctype (s : state) (col : Z) (a : adim) (grids : list (list R))
  (picks : nat -> nat) (hd : nat -> list ext -> nat) (ho : list nat) : state * res unit :=
  if negb (zmem col (s_outs s)) then (s, Err AssertionError)
  else
    match dget col (s_zv s) with
    | None => (s, Err KeyError)
    | Some v =>
        match dget v (s_views s) with
        | None => (s, Err KeyError)
        | Some w =>
            let '(w1, r) := view_update_cctype (tab (s_X s)) w col a in
            let s1 := set_views s (dset v w1 (s_views s)) in
            match r with
            | Err e => (s1, Err e)
            | Ok _ =>
                let '(s2, r2) := dim_call s1 col (CallGrids grids picks) in
                match r2 with
                | Err e => (s2, Err e)
                | Ok _ =>
                    let '(s3, r3) := dim_call s2 col CallParams in
                    match r3 with
                    | Err e => (s3, Err e)
                    | Ok _ => dim_call s3 col (CallHypers hd ho)
                    end
                end
            end
        end
    end.

(* ------------------------------------------------------------------ *)
(** ** Inference kernels *)

(** The kernels of state.py:738-761 and their arguments: [vs] are the views and [cols]
    the columns they visit, in order, everything else are random choices. *)
Inductive kernel : Type :=
| KAlpha (lgam : R -> R) (draw : list ext -> nat)                          (* 763-765 *)
| KViewAlphas (lgam : R -> R) (draws : nat -> nat -> list ext -> nat) (vs : list Z)   (* 767-772 *)
| KParams (cols : list Z)                                                  (* 774-779 *)
| KHypers (cols : list Z) (draws : nat -> nat -> list ext -> nat) (order : nat -> list nat)
| KGrids (cols : list Z) (grids : Z -> list (list R)) (picks : Z -> nat -> nat)
| KRows (draws : nat -> nat -> list ext -> nat) (vs : list Z) (rows : Z -> list Z)     (* 795-801 *)
| KColumns (d : nat -> cdraws) (m : nat) (cols : list Z).                  (* 803-809 *)

Definition run_kernel (s : state) (k : kernel) : state * res unit :=
  match k with
  | KAlpha lgam draw =>
      let '(c, r) := crp_transition_alpha lgam draw (s_grid s) (s_crp s) in (set_scrp s c, r)
  | KViewAlphas lgam draws vs =>
      let '(ws, r) := views_loop (fun i _ w => view_transition_alpha lgam (draws i) w) vs (s_views s) in
      (set_views s ws, r)
  | KParams cols => dims_call s cols (fun _ _ => CallParams)
  | KHypers cols draws order => dims_call s cols (fun i _ => CallHypers (draws i) (order i))
  | KGrids cols grids picks => dims_call s cols (fun _ c => CallGrids (grids c) (picks c))
  | KRows draws vs rows =>
      match n_rows s with
      | Err e => (s, Err e)
      | Ok n =>
          if (n =? 1)%Z then (s, Ok tt)                                     (* 796-797 *)
          else
            let '(ws, r) := views_loop (fun i v w =>
              transition_rows (tab (s_X s)) (draws i) w (rows v)) vs (s_views s) in
            (set_views s ws, r)
      end
  | KColumns d m cols => transition_dims d m s cols
  end.

Fixpoint run_kernels (s : state) (ks : list kernel) : state * res unit :=
  match ks with
  | [] => (s, Ok tt)
  | k :: ks' =>
      let '(s1, r) := run_kernel s k in
      match r with
      | Err e => (s1, Err e)
      | Ok _ => run_kernels s1 ks'
      end
  end.

(** logpdf_score_crp, state.py:369-378. *)
Definition state_score_crp (lgam : R -> R) (s : state) : res ext :=
  match s_Ci s, s_Cd s with
  | _ :: _, _ => Err ValueError
  | [], [] => crp_score lgam (s_crp s)
  | [], Cd => CrpSim.logp_crp_constrained_dependent lgam (s_zv s) (c_alpha (s_crp s)) Cd
  end.

(** logpdf_score, state.py:384-387. *)
Definition state_score (lgam : R -> R) (s : state) : res ext :=
  rbind (state_score_crp lgam s) (fun p =>
  rbind (rsum_ext (map (view_score lgam) (dvals (s_views s)))) (fun l => Ok (eadd p l))).
