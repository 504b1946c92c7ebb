(** Model of /repo/src/mixtures/view.py: a Dirichlet process mixture of columns
    sharing one row partition (queries are in another file).

    Simplifications.
    - The shared data table [self.X] is the argument [X] of every function: [X c
      r] is [self.X[c][r]] ([Err] if the lookup raises).
    - [self.crp] is a Dim whose only input is the constant 0, so all its rows sit
      in one Crp object [self.crp.clusters[0]]: the field [v_crp].  That object
      exists once a row has been inserted.
    - The exposed cluster variable [outputs[0]] is a field; [outputs[1:]] are the
      keys of the dictionary of columns.  In an observation the cluster is passed
      as a separate optional argument.
    - Python 2 dictionaries iterate in an unspecified order; here it is insertion
      order. *)
From Verif Require Export Dim Crp.
Local Open Scope R_scope.

(** A column of some component class. *)
Record adim : Type := ADim { a_M : model; a_d : dim a_M }.

Record view : Type := View {
  v_out : Z;                     (* outputs[0] *)
  v_crp : crp;                   (* crp.clusters[0] *)
  v_grid : list R;               (* crp.hyper_grids['alpha'] *)
  v_dims : dict adim
}.

Definition table : Type := Z -> Z -> res cell.

Definition v_rows (v : view) : dict Z := c_data (v_crp v).         (* Zr(), 441-443 *)
Definition set_dims (v : view) (ds : dict adim) : view :=
  View (v_out v) (v_crp v) (v_grid v) ds.
Definition set_crp (v : view) (c : crp) : view :=
  View (v_out v) c (v_grid v) (v_dims v).

(** A view without rows and columns (the start of __init__, view.py:78-90). *)
Definition view_new (o : Z) (alpha : R) (grid : list R) : view :=
  View o (crp_new alpha) grid [].

(** _get_input_values without the cluster, view.py:477-481. *)
Definition input_values (X : table) (rowid : Z) (a : adim) : res (list cell) :=
  rsequence (map (fun i => X i rowid) (d_ins (a_d a))).

Definition a_incorporate (a : adim) (rowid k : Z) (x : cell) (ins : list cell)
  : adim * res unit :=
  let '(d, r) := dim_incorporate (a_M a) (a_d a) rowid (Some k) x ins in (ADim (a_M a) d, r).
Definition a_unincorporate (a : adim) (rowid : Z) : adim * res unit :=
  let '(d, r) := dim_unincorporate (a_M a) (a_d a) rowid in (ADim (a_M a) d, r).
Definition a_logpdf (a : adim) (rowid k : Z) (x : cell) (ins : list cell) : res ext :=
  dim_logpdf (a_M a) (a_d a) rowid k x ins.
Definition a_score (a : adim) : res ext := dim_score (a_M a) (a_d a).

(** The loop view.py:162-168 over the columns. *)
Fixpoint dims_incorporate (X : table) (rowid k : Z) (obs : dict cell) (ds : dict adim)
  : dict adim * res unit :=
  match ds with
  | [] => ([], Ok tt)
  | (c, a) :: ds' =>
      match dget c obs with
      | None => (ds, Err KeyError)
      | Some x =>
          match input_values X rowid a with
          | Err e => (ds, Err e)
          | Ok ins =>
              let '(a', r) := a_incorporate a rowid k x ins in
              match r with
              | Err e => ((c, a') :: ds', Err e)
              | Ok _ =>
                  let '(ds2, r2) := dims_incorporate X rowid k obs ds' in
                  ((c, a') :: ds2, r2)
              end
          end
      end
  end.

(** The loop view.py:176-177. *)
Fixpoint dims_unincorporate (rowid : Z) (ds : dict adim) : dict adim * res unit :=
  match ds with
  | [] => ([], Ok tt)
  | (c, a) :: ds' =>
      let '(a', r) := a_unincorporate a rowid in
      match r with
      | Err e => ((c, a') :: ds', Err e)
      | Ok _ => let '(ds2, r2) := dims_unincorporate rowid ds' in ((c, a') :: ds2, r2)
      end
  end.

(** [del dim.clusters[k]] in every column, view.py:182-183. *)
Fixpoint dims_drop_cluster (k : Z) (ds : dict adim) : dict adim * res unit :=
  match ds with
  | [] => ([], Ok tt)
  | (c, a) :: ds' =>
      if dmem k (d_clusters (a_d a)) then
        let a' := ADim (a_M a) (set_clusters (a_d a) (ddel k (d_clusters (a_d a)))) in
        let '(ds2, r2) := dims_drop_cluster k ds' in ((c, a') :: ds2, r2)
      else (ds, Err KeyError)
  end.

(** incorporate with the cluster given, view.py:160-168. *)
Definition view_insert (X : table) (v : view) (rowid k : Z) (obs : dict cell)
  : view * res unit :=
  let '(c, r) := crp_incorporate (v_crp v) rowid k in
  match r with
  | Err e => (set_crp v c, Err e)
  | Ok _ =>
      let '(ds, r2) := dims_incorporate X rowid k obs (v_dims v) in
      (View (v_out v) c (v_grid v) ds, r2)
  end.

(** unincorporate, view.py:174-183. *)
Definition view_unincorporate (v : view) (rowid : Z) : view * res unit :=
  let '(ds, r) := dims_unincorporate rowid (v_dims v) in
  match r with
  | Err e => (set_dims v ds, Err e)
  | Ok _ =>
      match dget rowid (v_rows v) with
      | None => (set_dims v ds, Err KeyError)                      (* 179 *)
      | Some k =>
          let '(c, r2) := crp_unincorporate (v_crp v) rowid in
          match r2 with
          | Err e => (View (v_out v) c (v_grid v) ds, Err e)
          | Ok _ =>
              if dmem k (c_counts c) then (View (v_out v) c (v_grid v) ds, Ok tt)
              else
                let '(ds2, r3) := dims_drop_cluster k ds in
                (View (v_out v) c (v_grid v) ds2, r3)
          end
      end
  end.

(** The row of the table, [{d: self.X[d][rowid] for d in self.dims}]. *)
Definition table_row (X : table) (v : view) (rowid : Z) : res (dict cell) :=
  rsequence (map (fun ca => rbind (X (fst ca) rowid) (fun x => Ok (fst ca, x))) (v_dims v)).

(** _migrate_row, view.py:424-429. *)
Definition view_migrate (X : table) (v : view) (rowid k : Z) : view * res unit :=
  let '(v1, r) := view_unincorporate v rowid in
  match r with
  | Err e => (v1, Err e)
  | Ok _ =>
      match table_row X v1 rowid with
      | Err e => (v1, Err e)
      | Ok obs => view_insert X v1 rowid k obs
      end
  end.

(** _logpdf_cell_gibbs, view.py:412-422; [z] is the row's present cluster. *)
Definition cell_gibbs (X : table) (rowid z k : Z) (c : Z) (a : adim) : adim * res ext :=
  match X c rowid with
  | Err e => (a, Err e)
  | Ok x =>
      match input_values X rowid a with
      | Err e => (a, Err e)
      | Ok ins =>
          if (z =? k)%Z then
            let '(a1, r1) := a_unincorporate a rowid in
            match r1 with
            | Err e => (a1, Err e)
            | Ok _ =>
                match a_logpdf a1 rowid k x ins with
                | Err e => (a1, Err e)
                | Ok lp =>
                    let '(a2, r2) := a_incorporate a1 rowid k x ins in
                    (a2, rbind r2 (fun _ => Ok lp))
                end
            end
          else (a, a_logpdf a rowid k x ins)
      end
  end.

(** The inner list of _logpdf_row_gibbs, view.py:408-410. *)
Fixpoint row_gibbs_dims (X : table) (rowid z k : Z) (ds : dict adim)
  : dict adim * res (list ext) :=
  match ds with
  | [] => ([], Ok [])
  | (c, a) :: ds' =>
      let '(a', r) := cell_gibbs X rowid z k c a in
      match r with
      | Err e => ((c, a') :: ds', Err e)
      | Ok lp =>
          let '(ds2, r2) := row_gibbs_dims X rowid z k ds' in
          ((c, a') :: ds2, rbind r2 (fun l => Ok (lp :: l)))
      end
  end.

(** _logpdf_row_gibbs, view.py:408-410. *)
Fixpoint row_gibbs (X : table) (rowid z : Z) (K : list Z) (ds : dict adim)
  : dict adim * res (list ext) :=
  match K with
  | [] => (ds, Ok [])
  | k :: K' =>
      let '(ds1, r) := row_gibbs_dims X rowid z k ds in
      match r with
      | Err e => (ds1, Err e)
      | Ok l =>
          let '(ds2, r2) := row_gibbs X rowid z K' ds1 in
          (ds2, rbind r2 (fun ls => Ok (esum l :: ls)))
      end
  end.

(** view.py:394-400: the candidate clusters, their weights, and the view after
    the weights have been computed. *)
Definition row_weights (X : table) (v : view) (rowid : Z)
  : view * res (list Z * list ext) :=
  match crp_gibbs_tables (v_crp v) rowid 1, crp_gibbs_logps (v_crp v) rowid 1 with
  | Err e, _ | _, Err e => (v, Err e)
  | Ok K, Ok logp_crp =>
      match dget rowid (v_rows v) with
      | None => (v, Err KeyError)
      | Some z =>
          let '(ds, r) := row_gibbs X rowid z K (v_dims v) in
          (set_dims v ds,
           rbind r (fun logp_data =>
           if (length logp_data =? length logp_crp)%nat               (* 399 *)
           then Ok (K, map (fun ab => eadd (fst ab) (Fin (snd ab)))
                         (combine logp_data logp_crp))
           else Err AssertionError))
      end
  end.

(** _gibbs_transition_row, view.py:393-406. *)
Definition transition_row (X : table) (draw : list ext -> nat) (v : view) (rowid : Z)
  : view * res unit :=
  let '(v1, r) := row_weights X v rowid in
  match r with
  | Err e => (v1, Err e)
  | Ok (K, w) =>
      match log_pflip draw w K with
      | Err e => (v1, Err e)
      | Ok z_b =>
          match dget rowid (v_rows v1) with
          | None => (v1, Err KeyError)
          | Some z => if (z =? z_b)%Z then (v1, Ok tt) else view_migrate X v1 rowid z_b
          end
      end
  end.

(** transition_rows, view.py:247-252; [rows] is the permuted list of rows. *)
Fixpoint transition_rows (X : table) (draws : nat -> list ext -> nat) (v : view)
  (rows : list Z) : view * res unit :=
  match rows with
  | [] => (v, Ok tt)
  | r :: rows' =>
      let '(v1, res1) := transition_row X (draws (length rows')) v r in
      match res1 with
      | Err e => (v1, Err e)
      | Ok _ => transition_rows X draws v1 rows'
      end
  end.

(** incorporate, view.py:149-172; [k] is the cluster, if given. *)
Definition view_incorporate (X : table) (draws : nat -> list ext -> nat) (v : view)
  (rowid : Z) (k : option Z) (obs : dict cell) : view * res unit :=
  let '(v1, r) := view_insert X v rowid (match k with Some k => k | None => 0%Z end) obs in
  match r with
  | Err e => (v1, Err e)
  | Ok _ =>
      match k with
      | Some _ => (v1, Ok tt)
      | None => transition_rows X draws v1 [rowid]
      end
  end.

(** The loop of force_cell, view.py:188-191. *)
Fixpoint force_cells (X : table) (rowid k : Z) (obs : dict cell) (ds : dict adim)
  : dict adim * res unit :=
  match obs with
  | [] => (ds, Ok tt)
  | (c, x) :: obs' =>
      match dget c ds with
      | None => (ds, Err KeyError)
      | Some a =>
          let '(a1, r1) := a_unincorporate a rowid in
          match r1 with
          | Err e => (dset c a1 ds, Err e)
          | Ok _ =>
              match input_values X rowid a1 with
              | Err e => (dset c a1 ds, Err e)
              | Ok ins =>
                  let '(a2, r2) := a_incorporate a1 rowid k x ins in
                  match r2 with
                  | Err e => (dset c a2 ds, Err e)
                  | Ok _ => force_cells X rowid k obs' (dset c a2 ds)
                  end
              end
          end
      end
  end.

(** force_cell, view.py:186-191. *)
Definition view_force_cell (X : table) (v : view) (rowid : Z) (obs : dict cell)
  : view * res unit :=
  match dget rowid (v_rows v) with
  | None => (v, Err KeyError)
  | Some k =>
      let '(ds, r) := force_cells X rowid k obs (v_dims v) in (set_dims v ds, r)
  end.

(** The loop of _bulk_incorporate, view.py:489-492. *)
Fixpoint bulk_rows (X : table) (c : Z) (rows : list (Z * Z)) (a : adim) : adim * res unit :=
  match rows with
  | [] => (a, Ok tt)
  | (rowid, k) :: rows' =>
      match X c rowid with
      | Err e => (a, Err e)
      | Ok x =>
          match input_values X rowid a with
          | Err e => (a, Err e)
          | Ok ins =>
              let '(a1, r) := a_incorporate a rowid k x ins in
              match r with
              | Err e => (a1, Err e)
              | Ok _ => bulk_rows X c rows' a1
              end
          end
      end
  end.

(** view.py:485-488: forget all rows. *)
Definition a_reset (a : adim) : adim :=
  ADim (a_M a) (fresh_aux (a_M a)
    (set_clusters (set_zr (set_zi (a_d a) []) []) [])).

(** _bulk_incorporate, view.py:483-494.  The assertion of line 493 compares the row partition of
    the column with that of the view. *)
Definition zdict_eq (d1 d2 : dict Z) : bool :=
  (length d1 =? length d2)%nat &&
  forallb (fun kv => match dget (fst kv) d2 with
                     | Some v => (v =? snd kv)%Z | None => false end) d1.
Definition bulk_incorporate (X : table) (v : view) (c : Z) (a : adim) : adim * res unit :=
  let '(a1, r) := bulk_rows X c (v_rows v) (a_reset a) in
  match r with
  | Err e => (a1, Err e)
  | Ok _ =>
      if zdict_eq (d_zr (a_d a1) ++ d_zi (a_d a1)) (v_rows v)
      then (ADim (a_M a1)
              (dim_transition_params (a_M a1) (a_d a1)), Ok tt)
      else (a1, Err AssertionError)
  end.

(** incorporate_dim, view.py:134-141 (its result, the score of the column, is
    [a_score] of the inserted column). *)
Definition view_incorporate_dim (X : table) (v : view) (c : Z) (a : adim) (reassign : bool)
  : view * adim * res unit :=
  let '(a1, r) := if reassign then bulk_incorporate X v c a else (a, Ok tt) in
  match r with
  | Err e => (v, a1, Err e)
  | Ok _ => (set_dims v (dset c a1 (v_dims v)), a1, Ok tt)
  end.

(** unincorporate_dim, view.py:143-147. *)
Definition view_unincorporate_dim (v : view) (c : Z) : view * res unit :=
  if dmem c (v_dims v) then (set_dims v (ddel c (v_dims v)), Ok tt) else (v, Err KeyError).

(** logpdf_likelihood, logpdf_prior, logpdf_score, view.py:257-270. *)
Definition view_likelihood (v : view) : res ext := rsum_ext (map a_score (dvals (v_dims v))).
Definition view_score (lgam : R -> R) (v : view) : res ext :=
  rbind (crp_score lgam (v_crp v)) (fun p =>
  rbind (view_likelihood v) (fun l => Ok (eadd p l))).

(** transition_crp_alpha, view.py:230-232: twice dim.py:152-174 on the Crp
    column, whose only hyperparameter is alpha. *)
Fixpoint alpha_scores (lgam : R -> R) (c : crp) (grid : list R) : crp * res (list ext) :=
  match grid with
  | [] => (c, Ok [])
  | a :: grid' =>
      let '(c1, r) := crp_set_hypers c a in
      match rbind r (fun _ => crp_score lgam c1) with
      | Err e => (c1, Err e)
      | Ok s =>
          let '(c2, r2) := alpha_scores lgam c1 grid' in
          (c2, rbind r2 (fun l => Ok (s :: l)))
      end
  end.
Definition crp_transition_alpha (lgam : R -> R) (draw : list ext -> nat) (grid : list R)
  (c : crp) : crp * res unit :=
  let '(c1, r) := alpha_scores lgam c grid in
  match rbind r (fun logps => log_pflip draw logps grid) with
  | Err e => (c1, Err e)
  | Ok a => crp_set_hypers c1 a
  end.
Definition view_transition_alpha (lgam : R -> R) (draws : nat -> list ext -> nat) (v : view)
  : view * res unit :=
  let '(c1, r) := crp_transition_alpha lgam (draws 0%nat) (v_grid v) (v_crp v) in
  match r with
  | Err e => (set_crp v c1, Err e)
  | Ok _ =>
      let '(c2, r2) := crp_transition_alpha lgam (draws 1%nat) (v_grid v) c1 in
      (set_crp v c2, r2)
  end.

(** A call of a hyperparameter, grid or parameter transition on one column,
    view.py:234-244 (one step of the loops) and state.py:779-801. *)
Inductive dcall : Type :=
| CallHypers (draws : nat -> list ext -> nat) (order : list nat)
| CallGrids (grids : list (list R)) (picks : nat -> nat)
| CallParams.

Definition a_call (a : adim) (o : dcall) : adim * res unit :=
  match o with
  | CallHypers draws order =>
      let '(d, r) := dim_transition_hypers (a_M a) draws order (a_d a) in (ADim (a_M a) d, r)
  | CallGrids g p =>
      let '(d, r) := dim_transition_grids (a_M a) (a_d a) g p in (ADim (a_M a) d, r)
  | CallParams => (ADim (a_M a) (dim_transition_params (a_M a) (a_d a)), Ok tt)
  end.
Definition view_call (v : view) (c : Z) (o : dcall) : view * res unit :=
  match dget c (v_dims v) with
  | None => (v, Err KeyError)
  | Some a => let '(a', r) := a_call a o in (set_dims v (dset c a' (v_dims v)), r)
  end.

(** update_cctype, view.py:196-220, after the construction of the new column
    [a]. *)
Definition view_update_cctype (X : table) (v : view) (c : Z) (a : adim) : view * res unit :=
  let '(v1, r) := view_unincorporate_dim v c in
  match r with
  | Err e => (v1, Err e)
  | Ok _ => let '(v2, _, r2) := view_incorporate_dim X v1 c a true in (v2, r2)
  end.
