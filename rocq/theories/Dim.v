(** Model of /repo/src/mixtures/dim.py: one column of a mixture.

    A [model] is the class of the column's component distribution, seen through
    the methods that Dim calls.  [of_prim] presents the primitive classes of
    [Prim] in this form, [regression] the conditional classes of
    /repo/src/regressions (their row book-keeping; the formulas for the density
    and the score are arguments).

    Simplifications.
    - A cell is [Some x] or [None] for NaN.  The observation is the cell of the
      column; [ins] are the cells of the input columns [self.inputs[1:]], in
      order.  Key errors on the observation and input dictionaries are not
      modelled, except for a missing cluster input.
    - Hyperparameters of a class are numbered; [m_hset i v h] replaces the i-th.
    - The assertions on hyperparameters made by the constructors are not
      modelled, those of [set_hypers] are.
    - The parameters which an uncollapsed class draws come from the stream
      [d_tape]; [d_pos] counts the draws. *)
From Verif Require Export Prim LogSpace.
Local Open Scope R_scope.

Definition cell : Type := option R.

Record model : Type := Model {
  mS : Type;                                   (* component object *)
  mH : Type;                                   (* hyperparameters *)
  mQ : Type;                                   (* parameters drawn at construction *)
  m_new : mH -> mQ -> mS;
  m_inc : mS -> Z -> R -> list R -> mS * res unit;
  m_uninc : mS -> Z -> mS * res unit;
  m_logpdf : mS -> Z -> R -> list R -> res ext;
  m_score : mS -> res ext;
  m_set_hypers : mS -> mH -> mS * res unit;
  m_set_params : mS -> mQ -> mS;               (* effect of transition_params *)
  m_rows : mS -> dict (R * list R);            (* self.data *)
  m_keep : R -> R;                             (* the value stored for an observation *)
  m_hyp : mS -> mH;
  m_par : mS -> mQ;
  m_nhyp : nat;
  m_hset : nat -> R -> mH -> mH;
  m_coll : bool;                               (* is_collapsed *)
  m_cond : bool                                (* is_conditional *)
}.

(** A primitive class; the assertion that there are no inputs is
    distribution.py:53,59. *)
Definition of_prim (P : prim) (n : nat) (hset : nat -> R -> pH P -> pH P) : model := {|
  mS := pstate P; mH := pH P; mQ := pQ P;
  m_new := prim_new P;
  m_inc := fun s r x ins =>
    match ins with [] => prim_incorporate P s r x | _ => (s, Err AssertionError) end;
  m_uninc := prim_unincorporate P;
  m_logpdf := fun s r x ins =>
    match ins with [] => prim_logpdf P s r x | _ => Err AssertionError end;
  m_score := prim_logpdf_score P;
  m_set_hypers := prim_set_hypers P;
  m_set_params := fun s q => fst (prim_set_params P s q);
  m_rows := fun s => dmap (fun x => (x, [])) (p_data s);
  m_keep := fun x => match p_check P x with Ok v => v | Err _ => x end;
  m_hyp := p_hyp;
  m_par := p_par;
  m_nhyp := n;
  m_hset := hset;
  m_coll := p_coll P;
  m_cond := false
|}.

(** The conditional classes (linreg.py:94-118,131; forest.py:66-92): a
    dictionary of rows, whose covariates are coded by [code] (dummy coding with
    its assertions), density [pred] and score [score] functions of the
    hyperparameters and the rows. *)
Record rstate (H : Type) : Type := RState { r_data : dict (R * list R); r_hyp : H }.
Arguments RState {H}. Arguments r_data {H}. Arguments r_hyp {H}.

Definition regression (H : Type) (code : list R -> res (list R))
  (pred : H -> list (R * list R) -> R -> list R -> res ext)
  (score : H -> list (R * list R) -> res ext)
  (n : nat) (hset : nat -> R -> H -> H) (coll : bool) : model := {|
  mS := rstate H; mH := H; mQ := unit;
  m_new := fun h _ => RState [] h;
  m_inc := fun s r x ins =>
    if dmem r (r_data s) then (s, Err AssertionError)             (* 95-96 *)
    else match code ins with                                      (* 99 *)
         | Err e => (s, Err e)
         | Ok _ => (RState (dset r (x, ins) (r_data s)) (r_hyp s), Ok tt)
         end;
  m_uninc := fun s r =>
    if dmem r (r_data s) then (RState (ddel r (r_data s)) (r_hyp s), Ok tt)
    else (s, Err ValueError);                                     (* 104-109 *)
  m_logpdf := fun s r x ins =>
    if dmem r (r_data s) then Err AssertionError                  (* 113 *)
    else match code ins with
         | Err e => Err e
         | Ok _ => pred (r_hyp s) (dvals (r_data s)) x ins
         end;
  m_score := fun s => score (r_hyp s) (dvals (r_data s));
  m_set_hypers := fun s h => (RState (r_data s) h, Ok tt);
  m_set_params := fun s _ => s;
  m_rows := r_data;
  m_keep := fun x => x;
  m_hyp := r_hyp;
  m_par := fun _ => tt;
  m_nhyp := n;
  m_hset := hset;
  m_coll := coll;                                (* linreg.py:206, forest.py:168, ols.py:156 *)
  m_cond := true
|}.

(** [not any(np.isnan(inputs2.values()))] and the values, dim.py:252-253. *)
Fixpoint all_some (l : list cell) : option (list R) :=
  match l with
  | [] => Some []
  | None :: _ => None
  | Some x :: l' => match all_some l' with Some r => Some (x :: r) | None => None end
  end.

(** preprocess, dim.py:239-255: the value and inputs, if none is NaN. *)
Definition valid_cell (x : cell) (ins : list cell) : option (R * list R) :=
  match x, all_some ins with
  | Some v, Some l => Some (v, l)
  | _, _ => None
  end.

(** [sum] of log values, some of whose computations may raise. *)
Definition rsum_ext (l : list (res ext)) : res ext :=
  rbind (rsequence l) (fun v => Ok (esum v)).

Section Dim.
  Context (M : model).

  (** dim.py:74-91. *)
  Record dim : Type := Dim {
    d_clusters : dict (mS M);
    d_zr : dict Z;
    d_zi : dict Z;
    d_aux : mS M;
    d_hyp : mH M;
    d_grids : list (list R);              (* hyper_grids, by number *)
    d_set : bool;                         (* [self.hypers] is not empty *)
    d_ins : list Z;                       (* inputs[1:] *)
    d_tape : nat -> mQ M;
    d_pos : nat
  }.

  (** create_aux_model, dim.py:234-237, as a field update. *)
  Definition fresh_aux (d : dim) : dim :=
    Dim (d_clusters d) (d_zr d) (d_zi d)
      (m_new M (d_hyp d) (d_tape d (d_pos d))) (d_hyp d) (d_grids d) (d_set d)
      (d_ins d) (d_tape d) (S (d_pos d)).

  (** __init__, dim.py:33-90. *)
  Definition dim_new (h : mH M) (set : bool) (ins : list Z) (tape : nat -> mQ M) : dim :=
    Dim [] [] [] (m_new M h (tape 0%nat)) h [] set ins tape 1.

  Definition set_clusters (d : dim) (c : dict (mS M)) : dim :=
    Dim c (d_zr d) (d_zi d) (d_aux d) (d_hyp d) (d_grids d) (d_set d)
      (d_ins d) (d_tape d) (d_pos d).
  Definition set_zr (d : dim) (z : dict Z) : dim :=
    Dim (d_clusters d) z (d_zi d) (d_aux d) (d_hyp d) (d_grids d) (d_set d)
      (d_ins d) (d_tape d) (d_pos d).
  Definition set_zi (d : dim) (z : dict Z) : dim :=
    Dim (d_clusters d) (d_zr d) z (d_aux d) (d_hyp d) (d_grids d) (d_set d)
      (d_ins d) (d_tape d) (d_pos d).
  Definition set_hyp (d : dim) (h : mH M) : dim :=
    Dim (d_clusters d) (d_zr d) (d_zi d) (d_aux d) h (d_grids d) (d_set d)
      (d_ins d) (d_tape d) (d_pos d).

  (** dim.py:99-101: make sure cluster [k] exists. *)
  Definition open_cluster (d : dim) (k : Z) : dim :=
    if dmem k (d_clusters d) then d
    else fresh_aux (set_clusters d (dset k (d_aux d) (d_clusters d))).

  (** incorporate, dim.py:95-106. *)
  Definition dim_incorporate (d : dim) (rowid : Z) (k : option Z) (x : cell)
    (ins : list cell) : dim * res unit :=
    if dmem rowid (d_zr d) || dmem rowid (d_zi d) then (d, Err ValueError)  (* 96-97 *)
    else match k with
    | None => (d, Err ValueError)                                  (* 241-244 *)
    | Some k =>
        let d1 := open_cluster d k in
        match valid_cell x ins with
        | Some (v, l) =>
            match dget k (d_clusters d1) with
            | None => (d1, Err KeyError)
            | Some c =>
                let '(c', r) := m_inc M c rowid v l in             (* 103 *)
                let d2 := set_clusters d1 (dset k c' (d_clusters d1)) in
                match r with
                | Ok _ => (set_zr d2 (dset rowid k (d_zr d2)), Ok tt)   (* 104 *)
                | Err e => (d2, Err e)
                end
            end
        | None => (set_zi d1 (dset rowid k (d_zi d1)), Ok tt)      (* 106 *)
        end
    end.

  (** unincorporate, dim.py:108-116. *)
  Definition dim_unincorporate (d : dim) (rowid : Z) : dim * res unit :=
    if dmem rowid (d_zi d) then (set_zi d (ddel rowid (d_zi d)), Ok tt)
    else match dget rowid (d_zr d) with
    | None => (d, Err ValueError)
    | Some k =>
        match dget k (d_clusters d) with
        | None => (d, Err KeyError)
        | Some c =>
            let '(c', r) := m_uninc M c rowid in
            let d1 := set_clusters d (dset k c' (d_clusters d)) in
            match r with
            | Ok _ => (set_zr d1 (ddel rowid (d_zr d1)), Ok tt)
            | Err e => (d1, Err e)
            end
        end
    end.

  (** logpdf_score, dim.py:121-122. *)
  Definition dim_score (d : dim) : res ext :=
    rsum_ext (map (m_score M) (dvals (d_clusters d))).

  (** [self.clusters.get(k, self.aux_model)], dim.py:129. *)
  Definition cluster_of (d : dim) (k : Z) : mS M :=
    match dget k (d_clusters d) with Some c => c | None => d_aux d end.

  (** logpdf, dim.py:127-132 (constraints are always empty). *)
  Definition dim_logpdf (d : dim) (rowid k : Z) (x : cell) (ins : list cell) : res ext :=
    match valid_cell x ins with
    | Some (v, l) => m_logpdf M (cluster_of d k) rowid v l
    | None => Ok (Fin 0)
    end.

  (** [for k in self.clusters: self.clusters[k].set_hypers(h)]: stops at the
      first that raises. *)
  Fixpoint clusters_set_hypers (cs : dict (mS M)) (h : mH M) : dict (mS M) * res unit :=
    match cs with
    | [] => ([], Ok tt)
    | (k, c) :: cs' =>
        let '(c', r) := m_set_hypers M c h in
        match r with
        | Err e => ((k, c') :: cs', Err e)
        | Ok _ => let '(cs2, r2) := clusters_set_hypers cs' h in ((k, c') :: cs2, r2)
        end
    end.

  (** set_hypers, dim.py:207-210. *)
  Definition dim_set_hypers (d : dim) (h : mH M) : dim * res unit :=
    let d1 := set_hyp d h in
    let '(cs, r) := clusters_set_hypers (d_clusters d1) h in
    (set_clusters d1 cs, r).

  (** dim.py:159-166: the score of one grid value; the clusters keep it.
      (set_hypers and logpdf_score alternate per cluster; here all set_hypers
      come first, which only matters for which of two exceptions is raised.) *)
  Definition grid_score (d : dim) (h : nat) (v : R) : dim * res ext :=
    let '(d1, r) := dim_set_hypers d (m_hset M h v (d_hyp d)) in
    match r with
    | Err e => (d1, Err e)
    | Ok _ => (d1, dim_score d1)
    end.

  Fixpoint grid_scores (d : dim) (h : nat) (vs : list R) : dim * res (list ext) :=
    match vs with
    | [] => (d, Ok [])
    | v :: vs' =>
        let '(d1, r) := grid_score d h v in
        match r with
        | Err e => (d1, Err e)
        | Ok s =>
            let '(d2, r2) := grid_scores d1 h vs' in
            (d2, rbind r2 (fun l => Ok (s :: l)))
        end
    end.

  (** dim.py:156-170, for one hyperparameter. *)
  Definition transition_hyper (draw : list ext -> nat) (d : dim) (h : nat) : dim * res unit :=
    match nth_error (d_grids d) h with
    | None => (d, Err KeyError)
    | Some grid =>
        let '(d1, r) := grid_scores d h grid in
        match rbind r (fun logps => log_pflip draw logps grid) with
        | Err e => (d1, Err e)
        | Ok v => (set_hyp d1 (m_hset M h v (d_hyp d1)), Ok tt)
        end
    end.

  (** The loop over the shuffled hyperparameters; [draws] serves its j-th
      step. *)
  Fixpoint transition_each (draws : nat -> list ext -> nat) (d : dim) (order : list nat)
    : dim * res unit :=
    match order with
    | [] => (d, Ok tt)
    | h :: order' =>
        let '(d1, r) := transition_hyper (draws (length order')) d h in
        match r with
        | Err e => (d1, Err e)
        | Ok _ => transition_each draws d1 order'
        end
    end.

  (** transition_hypers, dim.py:152-174; [order] is the outcome of the shuffle of
      line 155. *)
  Definition dim_transition_hypers (draws : nat -> list ext -> nat) (order : list nat)
    (d : dim) : dim * res unit :=
    let '(d1, r) := transition_each draws d order in
    match r with
    | Err e => (d1, Err e)
    | Ok _ =>
        let '(d2, r2) := dim_set_hypers d1 (d_hyp d1) in           (* 172-173 *)
        match r2 with
        | Err e => (d2, Err e)
        | Ok _ => (fresh_aux d2, Ok tt)                            (* 174 *)
        end
    end.

  (** transition_hyper_grids, dim.py:176-184: [grids] is what the class's
      construct_hyper_grids returns, [picks] the random grid positions. *)
  Definition dim_transition_grids (d : dim) (grids : list (list R)) (picks : nat -> nat)
    : dim * res unit :=
    let d1 := Dim (d_clusters d) (d_zr d) (d_zi d) (d_aux d) (d_hyp d) grids (d_set d)
                (d_ins d) (d_tape d) (d_pos d) in
    if d_set d then (fresh_aux d1, Ok tt)
    else
      match rsequence (map (fun i =>
              match nth_error grids i with
              | Some g => match nth_error g (picks i) with
                          | Some v => Ok (i, v) | None => Err ValueError end
              | None => Err KeyError
              end) (seq 0 (length grids))) with
      | Err e => (d1, Err e)
      | Ok ps =>
          let h := fold_left (fun h iv => m_hset M (fst iv) (snd iv) h) ps (d_hyp d) in
          (fresh_aux (Dim (d_clusters d) (d_zr d) (d_zi d) (d_aux d) h grids true
                        (d_ins d) (d_tape d) (d_pos d)), Ok tt)
      end.

  (** transition_params, dim.py:146-150; the new parameters of the clusters are
      the next ones of the stream. *)
  Fixpoint clusters_set_params (tape : nat -> mQ M) (pos : nat) (cs : dict (mS M))
    : dict (mS M) :=
    match cs with
    | [] => []
    | (k, c) :: cs' =>
        (k, m_set_params M c (tape pos)) :: clusters_set_params tape (S pos) cs'
    end.
  Definition dim_transition_params (d : dim) : dim :=
    Dim (clusters_set_params (d_tape d) (d_pos d) (d_clusters d)) (d_zr d) (d_zi d)
      (d_aux d) (d_hyp d) (d_grids d) (d_set d) (d_ins d) (d_tape d)
      (d_pos d + length (d_clusters d)).

  (** Histories of calls on one column. *)
  Inductive dop : Type :=
  | DInc (rowid : Z) (k : option Z) (x : cell) (ins : list cell)
  | DUninc (rowid : Z)
  | DSetHypers (h : mH M)
  | DTransHypers (draws : nat -> list ext -> nat) (order : list nat)
  | DTransGrids (grids : list (list R)) (picks : nat -> nat)
  | DTransParams.

  Definition dim_step (d : dim) (o : dop) : dim * res unit :=
    match o with
    | DInc r k x ins => dim_incorporate d r k x ins
    | DUninc r => dim_unincorporate d r
    | DSetHypers h => dim_set_hypers d h
    | DTransHypers draws order => dim_transition_hypers draws order d
    | DTransGrids g p => dim_transition_grids d g p
    | DTransParams => (dim_transition_params d, Ok tt)
    end.

  Fixpoint dim_run (d : dim) (ops : list dop) : dim * list (dop * res unit) :=
    match ops with
    | [] => (d, [])
    | o :: ops' =>
        let '(d1, r) := dim_step d o in
        let '(d2, tr) := dim_run d1 ops' in
        (d2, (o, r) :: tr)
    end.
End Dim.

Arguments Dim {M}. Arguments d_clusters {M}. Arguments d_zr {M}. Arguments d_zi {M}.
Arguments d_aux {M}. Arguments d_hyp {M}. Arguments d_grids {M}. Arguments d_set {M}.
Arguments d_ins {M}. Arguments d_tape {M}. Arguments d_pos {M}.
Arguments set_clusters {M}. Arguments set_zr {M}. Arguments set_zi {M}. Arguments set_hyp {M}.
Arguments DInc {M}. Arguments DUninc {M}. Arguments DSetHypers {M}.
Arguments DTransHypers {M}. Arguments DTransGrids {M}. Arguments DTransParams {M}.
