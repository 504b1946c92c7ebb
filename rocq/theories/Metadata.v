(** Model of to_metadata and from_metadata of /repo/src/mixtures/view.py and
    /repo/src/crosscat/state.py: writing a view or a state down and building it again.

    Simplifications.
    - The metadata are records; json and pickle are taken to return what they were
      given.
    - A cctype with its distribution arguments is the class of the column ([model]) and
      the numbers of its input columns.
    - The sufficient statistics, the diagnostics, the path of the loom project and the
      factory are written but not read by the constructors, and are left out.
    - What the constructors draw or compute from the data is an argument [redrawn]: the
      grids of the hyperparameters, the parameters of uncollapsed components, the
      numbers for hyperparameters that are not set, and the iteration order of the set
      of views.
    - A composed component is written and rebuilt by its own methods; here it is the
      value itself. *)
From Verif Require Export State Compose.
Local Open Scope R_scope.

(** What is written about a column: cctypes, hypers and distargs, state.py:1203-1214 and
    view.py:579-588.  [cm_tape] is not written: the parameters that the generator will
    give to the column that is built are a function of it, for there need be none of a
    class in general. *)
Record cmeta : Type := CMeta {
  cm_M : model; cm_hyp : mH cm_M; cm_set : bool; cm_ins : list Z; cm_tape : nat -> mQ cm_M
}.
Definition column_meta (a : adim) : cmeta :=
  CMeta (a_M a) (d_hyp (a_d a)) (d_set (a_d a)) (d_ins (a_d a)) (d_tape (a_d a)).

Record redrawn : Type := Redrawn {
  rd_grids : Z -> list (list R);                 (* hyper_grids of a column *)
  rd_picks : Z -> nat -> nat;
  rd_tape : Z -> forall M : model, (nat -> mQ M) -> nat -> mQ M;  (* parameters of a column *)
  rd_vgrid : Z -> list R;                        (* grid of the row partition of a view *)
  rd_grid : list R;                              (* grid of the column partition *)
  rd_draw : nat -> list ext -> nat;
  rd_order : list Z                              (* [set(self.Zv().values())] *)
}.

(** The column that the constructor makes, view.py:114-128. *)
Definition column_spec (f : redrawn) (c : Z) (m : cmeta) : cspec :=
  CSpec (ADim (cm_M m) (dim_new (cm_M m) (cm_hyp m) (cm_set m) (cm_ins m) (rd_tape f c (cm_M m) (cm_tape m))))
    (rd_grids f c) (rd_picks f c).

(** [[view.Zr(i) for i in sorted(view.Zr())]], state.py:1224-1225 and view.py:574-575. *)
Definition row_list (v : view) : res (list Z) :=
  rsequence (map (fun i => match dget i (v_rows v) with Some k => Ok k | None => Err KeyError end)
    (zsort (dkeys (v_rows v)))).

(* ------------------------------------------------------------------ *)
(** ** View *)

(** View.to_metadata, view.py:566-590. *)
Record vmeta : Type := VMeta {
  vm_X : dict (list cell);
  vm_out : Z;
  vm_zr : list Z;
  vm_alpha : R;
  vm_cols : list (Z * cmeta)
}.
Definition view_to_metadata (X : dict (list cell)) (v : view) : res vmeta :=
  rbind (row_list v) (fun z =>
  Ok (VMeta X (v_out v) z (c_alpha (v_crp v))
        (map (fun ca => (fst ca, column_meta (snd ca))) (v_dims v)))).

(** View.from_metadata, view.py:592-606. *)
Definition view_from_metadata (f : redrawn) (m : vmeta) : res view :=
  rbind (view_make (vm_X m) (vm_out m) (VSeed (vm_alpha m) (rd_vgrid f 0) (rd_draw f)) (Some (vm_zr m))) (fun w =>
  view_columns (tab (vm_X m)) w (map (fun cm => (fst cm, column_spec f (fst cm) (snd cm))) (vm_cols m))).

(* ------------------------------------------------------------------ *)
(** ** State *)

(** State.to_metadata, state.py:1189-1240. *)
Record smeta : Type := SMeta {
  mt_rows : list (list cell);         (* X, by rows *)
  mt_outs : list Z;
  mt_alpha : R;
  mt_Zv : list (Z * Z);
  mt_cols : list cmeta;               (* in the order of the outputs *)
  mt_Cd : list (list Z);
  mt_Ci : list (list Z);
  mt_Zrv : list (Z * list Z);
  mt_alphas : list (Z * R)
}.

(** data_array, state.py:923-925: the columns in the order of [X], transposed.  (Columns
    of different lengths, which numpy makes into an array of lists, raise here.) *)
Definition data_rows (X : dict (list cell)) : res (list (list cell)) :=
  match X with
  | [] => Err ValueError
  | (_, l) :: _ =>
      if forallb (fun cl => (length (snd cl) =? length l)%nat) X then
        rsequence (map (fun i => rsequence (map (fun cl => py_nth (snd cl) i) X)) (range (Z.of_nat (length l))))
      else Err ValueError
  end.

Definition state_to_metadata (s : state) : res smeta :=
  rbind (data_rows (s_X s)) (fun rows =>
  rbind (rsequence (map (dim_for s) (s_outs s))) (fun dims =>
  rbind (rsequence (map (fun vw => rbind (row_list (snd vw)) (fun z => Ok (fst vw, z))) (s_views s))) (fun zrv =>
  Ok (SMeta rows (s_outs s) (c_alpha (s_crp s)) (s_zv s) (map column_meta dims) (s_Cd s) (s_Ci s) zrv
        (map (fun vw => (fst vw, c_alpha (v_crp (snd vw)))) (s_views s)))))).

(** [X[:,i].tolist()], state.py:69-70. *)
Definition column_of (rows : list (list cell)) (i : Z) : res (list cell) :=
  rsequence (map (fun row => py_nth row i) rows).
(** [{c: X[:,i] for i, c in enumerate(outputs)}]. *)
Definition table_of (rows : list (list cell)) (outs : list Z) : res (dict (list cell)) :=
  rsequence (map (fun ic => rbind (column_of rows (fst ic)) (fun l => Ok (snd ic, l)))
    (combine (range (Z.of_nat (length outs))) outs)).

(** [l[self.outputs.index(c)]], state.py:147-149. *)
Definition at_output {A} (outs : list Z) (l : list A) (c : Z) : option A := dget c (combine outs l).

(** Equality of two sets, state.py:137. *)
Definition set_eqb (a b : list Z) : bool := forallb (fun x => zmem x b) a && forallb (fun x => zmem x a) b.

(** State.from_metadata, state.py:1246-1265, with the constructor, state.py:47-182.  There
    is a column description for every output; the model raises IndexError otherwise. *)
Definition state_from_metadata (f : redrawn) (m : smeta) : res state :=
  match mt_rows m, mt_cols m with
  | [], _ | _, [] => Err IndexError                                     (* X.shape[1] *)
  | row :: _, k0 :: _ =>
      let outs := mt_outs m in
      if negb (length outs =? length row)%nat then Err AssertionError            (* 65 *)
      else if negb (forallb (fun o => (0 <=? o)%Z) outs) then Err AssertionError (* 66 *)
      else if negb (length (mt_cols m) =? length outs)%nat then Err IndexError
      else
        rbind (table_of (mt_rows m) outs) (fun X =>
        let zv := dict_of (mt_Zv m) in
        let zrv := dict_of (mt_Zrv m) in
        let alphas := dict_of (mt_alphas m) in
        if negb (set_eqb (dkeys zrv) (dvals zv)) then Err AssertionError        (* 137 *)
        else
          state_init X zv (mt_alpha m) (rd_grid f) (mt_Cd m) (mt_Ci m)
            (fun v => VSpec (VSeed (match dget v alphas with Some a => a | None => 0 end)
                               (rd_vgrid f v) (rd_draw f)) (dget v zrv))
            (fun c => column_spec f c (match at_output outs (mt_cols m) c with Some k => k | None => k0 end))
            (rd_order f))
  end.

(* ------------------------------------------------------------------ *)
(** ** States with composed components *)

(** State.to_metadata, state.py:1230-1235; the metadata of a composed component are the
    component itself. *)
Definition cstate_to_metadata (cs : cstate) : res (smeta * dict foreign) :=
  rbind (state_to_metadata (cs_state cs)) (fun m => Ok (m, cs_hooked cs)).

(** The loop state.py:1267-1272; an exception of compose_cgpm leaves from_metadata. *)
Fixpoint hook_all (fs : list foreign) (cs : cstate) : res cstate :=
  match fs with
  | [] => Ok cs
  | g :: fs' => let '(cs', r) := compose cs g in rbind r (fun _ => hook_all fs' cs')
  end.

(** State.from_metadata, state.py:1246-1275; the constructor leaves [_composite] False
    (182). *)
Definition cstate_from_metadata (f : redrawn) (m : smeta * dict foreign) : res cstate :=
  rbind (state_from_metadata f (fst m)) (fun s =>
  hook_all (dvals (snd m)) (CState s [] first_token false)).
