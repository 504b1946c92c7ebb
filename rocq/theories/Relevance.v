(** Model of /repo/src/mixtures/relevance.py and of relevance_probability in
    /repo/src/crosscat/state.py.

    Simplifications.
    - The dictionaries [values_target] and [values_query] get the cluster as an entry
      before each insertion and lose it afterwards (relevance.py:232-235, 258-267);
      here the cluster is a separate argument, as in [View].
    - The checks made when the environment asks for debugging (relevance.py:109-110,
      165-207, 219-220) are not modelled.
    - The draws of the components of the network behind view.logpdf are the arguments
      [kdraw] and [xdraw] of [Query]. *)
From Verif Require Export Query.
Local Open Scope R_scope.

(** get_cluster_logpdf_score, relevance.py:312-316. *)
Definition cluster_score (v : view) (k : Z) : res ext :=
  if dmem k (c_counts (v_crp v)) then
    rsum_ext (map (fun a => match dget k (d_clusters (a_d a)) with
                            | None => Err KeyError
                            | Some c => m_score (a_M a) c
                            end) (dvals (v_dims v)))
  else Ok (Fin 0).

(** get_view_logpdf_score, relevance.py:303-309. *)
Definition tables_score (lgam : R -> R) (v : view) (kt kq : Z) : res ext :=
  rbind (crp_score lgam (v_crp v)) (fun lp_crp =>
  rbind (cluster_score v kq) (fun lp =>
  rbind (if (kt =? kq)%Z then Ok lp
         else rbind (cluster_score v kt) (fun lp2 => Ok (eadd lp lp2))) (fun lp_clusters =>
  Ok (eadd lp_crp lp_clusters)))).

(** [for r in rows: view.unincorporate(r)]. *)
Fixpoint remove_rows (v : view) (rows : list Z) : view * res unit :=
  match rows with
  | [] => (v, Ok tt)
  | r :: rows' =>
      let '(v1, res1) := view_unincorporate v r in
      match res1 with
      | Err e => (v1, Err e)
      | Ok _ => remove_rows v1 rows'
      end
  end.

(** [for r, values, k in rows: view.incorporate(r, values with cluster k)]. *)
Fixpoint place_rows (X : table) (v : view) (rows : list (Z * dict cell * Z)) : view * res unit :=
  match rows with
  | [] => (v, Ok tt)
  | (r, obs, k) :: rows' =>
      let '(v1, res1) := view_insert X v r k obs in
      match res1 with
      | Err e => (v1, Err e)
      | Ok _ => place_rows X v1 rows'
      end
  end.

(** The rows [rows], all with cluster [k]. *)
Definition at_table (rows : list (Z * dict cell)) (k : Z) : list (Z * dict cell * Z) :=
  map (fun ro => (ro, k)) rows.

(** A list comprehension over tables, whose elements are computed by [f], which
    changes the view. *)
Fixpoint for_tables (f : view -> Z -> view * res ext) (v : view) (ks : list Z) : view * res (list ext) :=
  match ks with
  | [] => (v, Ok [])
  | k :: ks' =>
      let '(v1, r) := f v k in
      match r with
      | Err e => (v1, Err e)
      | Ok x => let '(v2, r2) := for_tables f v1 ks' in (v2, rbind r2 (fun l => Ok (x :: l)))
      end
  end.

(** Insert rows, compute, remove rows: the shape of relevance.py:226-249 and 252-277. *)
Definition with_rows (X : table) (placed : list (Z * dict cell * Z)) (removed : list Z)
  (f : view -> res ext) (v : view) : view * res ext :=
  let '(v1, r1) := place_rows X v placed in
  match r1 with
  | Err e => (v1, Err e)
  | Ok _ =>
      match f v1 with
      | Err e => (v1, Err e)
      | Ok x =>
          let '(v2, r2) := remove_rows v1 removed in (v2, rbind r2 (fun _ => Ok x))
      end
  end.

(** np.subtract. *)
Definition esubs (a b : list ext) : list ext := map (fun p => esub (fst p) (snd p)) (combine a b).

Section Relevance.
  Variable lgam : R -> R.
  Variable kdraw : nat -> nat -> list ext -> nat.
  Variable xdraw : nat -> nat -> Z -> Z -> res R.
  Variable X : table.

  (** logpdf_assignments_marginalize_target, relevance.py:226-249. *)
  Definition condition_logp (query : list (Z * dict cell)) (values_target : dict cell) (v : view) (k : Z)
    : view * res ext :=
    with_rows X (at_table query k) (map fst query) (fun v1 =>
      rbind (tables_score lgam v1 k k) (fun lp_clusters =>
      rbind (vquery_logpdf kdraw xdraw X v1 norow
               (map (fun cx => (fst cx, VCell (snd cx))) values_target) [] []) (fun lp_predictive =>
      Ok (eadd lp_predictive lp_clusters)))) v.

  (** logpdf_assignments with the same table for target and query, relevance.py:252-277. *)
  Definition same_logp (target : Z * dict cell) (query : list (Z * dict cell)) (v : view) (k : Z)
    : view * res ext :=
    with_rows X ((target, k) :: at_table query k) (fst target :: map fst query)
      (fun v1 => tables_score lgam v1 k k) v.

  (** relevance_probability, relevance.py:24-223. *)
  Definition relevance_probability (v : view) (rowid_target : Z) (rowid_query : list Z) : view * res ext :=
    if is_nil rowid_query then (v, Err ValueError)                                (* 95-96 *)
    else if zmem rowid_target rowid_query then (v, Ok (Fin 1))                    (* 97-98 *)
    else
    match dget rowid_target (v_rows v), table_row X v rowid_target,
          rsequence (map (table_row X v) rowid_query),
          rsequence (map (fun r => match dget r (v_rows v) with
                                   | Some k => Ok k | None => Err KeyError end) rowid_query) with
    | None, _, _, _ => (v, Err KeyError)                                          (* 101 *)
    | _, Err e, _, _ | _, _, Err e, _ | _, _, _, Err e => (v, Err e)
    | Some z, Ok obs, Ok obss, Ok zs =>
        let query := combine rowid_query obss in
        let '(v0, r0) := remove_rows v (rowid_target :: rowid_query) in           (* 113-115 *)
        match r0 with
        | Err e => (v0, Err e)
        | Ok _ =>
            let tables_crp := zsort (dkeys (c_counts (v_crp v0))) in              (* 118 *)
            match zmax_list tables_crp with
            | None => (v0, Err ValueError)                                        (* max([]), 287 *)
            | Some m =>
                let tables := tables_crp ++ [(m + 1)%Z] in
                match rsequence (map (fun t => tables_score lgam v0 t t) tables) with   (* 122 *)
                | Err e => (v0, Err e)
                | Ok lp_clusters =>
                    let '(v1, r1) := for_tables (condition_logp query obs) v0 tables in
                    match rbind r1 (fun l => logsumexp (esubs l lp_clusters)) with      (* 138 *)
                    | Err e => (v1, Err e)
                    | Ok lp_condition =>
                        let '(v2, r2) := for_tables (same_logp (rowid_target, obs) query) v1 tables in
                        match rbind r2 (fun l => logsumexp (esubs l lp_clusters)) with  (* 155 *)
                        | Err e => (v2, Err e)
                        | Ok lp_same =>
                            let '(v3, r3) := place_rows X v2
                              ((rowid_target, obs, z) :: combine query zs) in     (* 210-216 *)
                            (v3, rbind r3 (fun _ => Ok (eexp (esub lp_same lp_condition))))  (* 223 *)
                        end
                    end
                end
            end
        end
    end.
End Relevance.

(* ------------------------------------------------------------------ *)
(** ** state.py *)

(** The row over the columns of the view, state.py:606-609. *)
Definition view_part (v : view) (h : dict cell) : dict cell :=
  map (fun c => (c, match dget c h with Some x => x | None => None end)) (dkeys (v_dims v)).
Definition all_missing (d : dict cell) : bool :=
  forallb (fun x => match x with None => true | Some _ => false end) (dvals d).

(** [for d in view.dims: self.X[d].append(row[d])] and its reversal. *)
Definition append_cells (X : dict (list cell)) (row : dict cell) : dict (list cell) :=
  fold_left (fun X cx => match dget (fst cx) X with
                         | Some l => dset (fst cx) (l ++ [snd cx]) X | None => X end) row X.
Definition pop_cells (X : dict (list cell)) (cols : list Z) : dict (list cell) :=
  fold_left (fun X c => match dget c X with
                        | Some l => dset c (removelast l) X | None => X end) cols X.

(** state.py:614-617: table and view after the hypothetical rows, numbered from
    [rowid], have been inserted. *)
Fixpoint add_hypotheticals (draws : Z -> nat -> list ext -> nat) (X : dict (list cell)) (v : view)
  (rowid : Z) (rows : list (dict cell)) : dict (list cell) * view * res unit :=
  match rows with
  | [] => (X, v, Ok tt)
  | row :: rows' =>
      let X1 := append_cells X row in
      let '(v1, r) := view_incorporate (tab X1) (draws rowid) v rowid None row in
      match r with
      | Err e => (X1, v1, Err e)
      | Ok _ => add_hypotheticals draws X1 v1 (rowid + 1) rows'
      end
  end.

(** state.py:625-628, for the rows in the order given. *)
Fixpoint drop_hypotheticals (X : dict (list cell)) (v : view) (rows : list Z)
  : dict (list cell) * view * res unit :=
  match rows with
  | [] => (X, v, Ok tt)
  | r :: rows' =>
      let X1 := pop_cells X (dkeys (v_dims v)) in
      let '(v1, res1) := view_unincorporate v r in
      match res1 with
      | Err e => (X1, v1, Err e)
      | Ok _ => drop_hypotheticals X1 v1 rows'
      end
  end.

(** [all(view.Zr(target) == view.Zr(rq) for rq in rows)], which stops at the first
    row elsewhere, state.py:620-623. *)
Fixpoint all_same (v : view) (target : Z) (rows : list Z) : res bool :=
  match rows with
  | [] => Ok true
  | r :: rows' =>
      match dget target (v_rows v), dget r (v_rows v) with
      | Some k, Some k' => if (k =? k')%Z then all_same v target rows' else Ok false
      | _, _ => Err KeyError
      end
  end.

(** relevance_probability, state.py:599-629. *)
Definition state_relevance (draws : Z -> nat -> list ext -> nat) (s : state) (rowid_target : Z)
  (rowid_query : list Z) (col : Z) (hypotheticals : list (dict cell)) : state * res Z :=
  if negb (zmem col (s_outs s)) then (s, Err AssertionError)
  else
  match dget col (s_zv s) with
  | None => (s, Err KeyError)
  | Some vid =>
      match dget vid (s_views s), n_rows s with
      | None, _ => (s, Err KeyError)
      | _, Err e => (s, Err e)
      | Some v, Ok n =>
          let rows := filter (fun d => negb (all_missing d)) (map (view_part v) hypotheticals) in
          let ids := map (fun i => (n + Z.of_nat i)%Z) (seq 0 (length rows)) in
          let '(X1, v1, r1) := add_hypotheticals draws (s_X s) v n rows in
          let keep X w := set_views (set_X s X) (dset vid w (s_views s)) in
          match r1 with
          | Err e => (keep X1 v1, Err e)
          | Ok _ =>
              let all_rows := rowid_query ++ ids in
              match (if is_nil all_rows then Ok false else all_same v1 rowid_target all_rows) with
              | Err e => (keep X1 v1, Err e)
              | Ok relevance =>
                  let '(X2, v2, r2) := drop_hypotheticals X1 v1 (rev ids) in
                  (keep X2 v2, rbind r2 (fun _ => Ok (if relevance then 1 else 0)%Z))
              end
          end
      end
  end.
