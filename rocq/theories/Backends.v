(** Model of /repo/src/crosscat/lovecat.py and /repo/src/crosscat/loomcat.py: what a
    state hands to the external samplers, and how it takes their answer.

    Simplifications.
    - The samplers themselves (crosscat's LocalEngine, loom) are arguments: what they
      return is an [answer], resp. a [sample].
    - The names of columns ('c%d', 'c%05d') are the outputs themselves.  A key that is the
      decimal string of an integer is that integer.
    - The statistical type of a column is a [ctype]; the hyperparameters handed to lovecat
      are not modelled, except for the assertion on the number of categories.
    - A failure leaves the state half changed; which half is not modelled.
    - Files, directories and the diagnostics are not modelled. *)
From Verif Require Export State.
From Verif Require DummyCode.
Local Open Scope R_scope.

(** [{k: i for (i, k) in enumerate(l)}], as in lovecat.py:111 and 158. *)
Definition coder (l : list Z) : dict Z := dict_of (combine l (range (Z.of_nat (length l)))).

(** [sorted(set(l))], as in lovecat.py:100, 107 and 157. *)
Definition uniq (l : list Z) : list Z := zsort (nodup Z.eq_dec l).

(** [d[k]]. *)
Definition lookup {A} (k : Z) (d : dict A) : res A :=
  match dget k d with Some x => Ok x | None => Err KeyError end.

(* ------------------------------------------------------------------ *)
(** ** lovecat: the table *)

Inductive ctype : Type := TNormal | TCategorical (k : Z) | TOther.

(** An entry of M_c['column_metadata'], lovecat.py:36-54. *)
Record meta : Type := Meta {
  mt_normal : bool;               (* modeltype *)
  mt_value : dict Z;              (* value_to_code *)
  mt_code : dict Z                (* code_to_value *)
}.

(** create_metadata_categorical, lovecat.py:42-54.  [cats] is the list of line 43: the
    observed values without repetition; [sorted] puts them in no particular order when
    there is a NaN among them. *)
Definition metadata (cats : list R) (t : ctype) : res meta :=
  match t with
  | TNormal => Ok (Meta true [] [])
  | TCategorical k =>
      if forallb (fun c => Rleb 0 c && Rltb c (IZR k)) cats then                 (* 44 *)
        let codes := map DummyCode.trunc cats in                                 (* 45 *)
        let ncodes := range (Z.of_nat (length codes)) in                         (* 46 *)
        Ok (Meta false (dict_of (combine ncodes codes)) (dict_of (combine codes ncodes)))
      else Err AssertionError
  | TOther => Err AssertionError
  end.

(** _crosscat_M_c, lovecat.py:25-71; [types] are the types of the columns in the order of
    the outputs, [cats c] the list of line 43 for column [c]. *)
Definition crosscat_M_c (cats : Z -> list R) (types : list ctype) (s : state) : res (list meta) :=
  if negb ((length (s_X s) =? length (s_outs s))%nat && (length (s_outs s) =? length types)%nat)
  then Err AssertionError                                                        (* 32 *)
  else if negb (forallb (fun t => match t with TOther => false | _ => true end) types)
  then Err AssertionError                                                        (* 33 *)
  else rsequence (map (fun ct => metadata (cats (fst ct)) (snd ct)) (combine (s_outs s) types)).

(** crosscat_value_to_code, lovecat.py:76-87. *)
Definition to_code (m : meta) (x : cell) : res cell :=
  match x with
  | None => Ok None
  | Some v =>
      match mt_code m with
      | [] => Ok (Some v)
      | _ => match dget (DummyCode.trunc v) (mt_code m) with
             | None => Err AssertionError
             | Some i => Ok (Some (IZR i))
             end
      end
  end.

(** _crosscat_T, lovecat.py:73-94. *)
Definition crosscat_T (s : state) (M_c : list meta) : res (list (list cell)) :=
  rbind (n_rows s) (fun n =>
  rsequence (map (fun row =>
    rsequence (map (fun cm => rbind (tab (s_X s) (fst cm) row) (to_code (snd cm)))
                 (combine (s_outs s) M_c)))
    (range n))).

(* ------------------------------------------------------------------ *)
(** ** lovecat: the partitions *)

(** One entry of the lists of lovecat.py:102-117. *)
Definition row_codes (w : view) : res (list Z) :=
  let assgn := dvals (v_rows w) in
  rsequence (map (fun k => lookup k (coder (uniq assgn))) assgn).

(** _crosscat_X_D, lovecat.py:97-120. *)
Definition crosscat_X_D (s : state) : res (list (list Z)) :=
  rsequence (map (fun v => rbind (lookup v (s_views s)) row_codes) (uniq (dvals (s_zv s)))).

(** [np.bincount(l)] of non-negative integers. *)
Definition np_bincount (l : list Z) : list Z :=
  match zmax_list l with
  | None => []
  | Some m => map (fun j => Z.of_nat (count_occ Z.eq_dec l j)) (range (m + 1))
  end.

(** view_state, lovecat.py:171-197: the names of the columns of the view ([outputs[1:]],
    the order in which the columns were added), the counts of the rows, the concentration. *)
Record vstate : Type := VState { vt_cols : list Z; vt_counts : list Z; vt_alpha : R }.

(** What _crosscat_X_L returns, lovecat.py:218-223. *)
Record latent : Type := Latent {
  xl_assign : list Z; xl_counts : list Z; xl_alpha : R; xl_views : list vstate;
  xl_dep : dict (list Z)                          (* col_ensure['dependent'] *)
}.

(** _crosscat_X_L, lovecat.py:123-223.  Of col_ensure only the dependent blocks are
    modelled; the independent ones come from crosscat's get_scc_from_tuples. *)
Definition crosscat_X_L (s : state) (M_c : list meta) (X_D : list (list Z)) : res latent :=
  if negb (forallb (fun m => mt_normal m || (0 <? length (mt_code m))%nat) M_c)
  then Err AssertionError                                                        (* 140 *)
  else
    let views_unique := uniq (dvals (s_zv s)) in
    let views_to_code := coder views_unique in
    rbind (rsequence (map (fun o => rbind (lookup o (s_zv s)) (fun v => lookup v views_to_code))
             (s_outs s))) (fun assign =>
    if zmem 0 (np_bincount assign) then Err AssertionError                          (* 163 *)
    else
      rbind (rsequence (map (fun v =>
        rbind (lookup v (s_views s)) (fun w =>
        rbind (lookup v views_to_code) (fun i =>
        rbind (py_nth X_D i) (fun part =>
        if zmem 0 (np_bincount part) then Err AssertionError                        (* 186 *)
        else Ok (VState (dkeys (v_dims w)) (np_bincount part) (c_alpha (v_crp w)))))))
        views_unique)) (fun vs =>
      Ok (Latent assign (np_bincount assign) (c_alpha (s_crp s)) vs
            (dict_of (flat_map (fun block => map (fun c => (c, block)) block) (s_Cd s)))))).

(* ------------------------------------------------------------------ *)
(** ** Taking an answer *)

(** The loops lovecat.py:251-266 and loomcat.py:166-178: a new view for each row
    partition, numbered from [index]. *)
Fixpoint append_views (X : dict (list cell)) (seeds : nat -> vseed) (index : Z)
  (parts : list (list Z)) (views : dict view) : res (dict view) :=
  match parts with
  | [] => Ok views
  | part :: parts' =>
      if dmem index views then Err AssertionError                          (* 257; 170 *)
      else
        rbind (view_make X (crp_id_view + index) (seeds (length parts')) (Some part)) (fun w =>
        append_views X seeds (index + 1) parts' (dset index w views))
  end.

(** The loops lovecat.py:269-272 and loomcat.py:181-184; [reassign] tells whether the
    argument of that name of [_migrate_dim] is true for the column. *)
Fixpoint move_columns (reassign : adim -> bool) (s : state) (to : list (Z * Z))
  : state * res unit :=
  match to with
  | [] => (s, Ok tt)
  | (c, vb) :: to' =>
      match lookup c (s_zv s), dim_for s c with
      | Err e, _ | _, Err e => (s, Err e)
      | Ok va, Ok a =>
          let '(s1, r) := migrate_to (reassign a) s c va vb a in
          match r with
          | Err e => (s1, Err e)
          | Ok _ => move_columns reassign s1 to'
          end
      end
  end.

(** lovecat.py:250-289 and loomcat.py:165-186.  [assign] pairs each output with the number
    of its partition. *)
Definition take_partitions (reassign : adim -> bool) (seeds : nat -> vseed) (s : state)
  (assign : list (Z * Z)) (parts : list (list Z)) : res state :=
  match zmax_list (dkeys (s_views s)) with
  | None => Err ValueError
  | Some mx =>
      let offset := (mx + 1)%Z in
      rbind (append_views (s_X s) seeds offset parts (s_views s)) (fun ws =>
      let '(s1, r) := move_columns reassign (set_views s ws)
                        (map (fun ca => (fst ca, snd ca + offset)%Z) assign) in
      rbind r (fun _ =>
      if (length (s_views s1) =? length parts)%nat then Ok s1              (* 289; 186 *)
      else Err AssertionError))
  end.

(** What lovecat returns: X_L['column_partition'], the concentrations of
    X_L['view_state'], and X_D. *)
Record answer : Type := Answer {
  an_assign : list Z; an_alpha : R; an_alphas : list R; an_parts : list (list Z)
}.

(** _update_state, lovecat.py:226-290.  [seeds v] are the draws of the new view [v]; its
    concentration is that of the answer.  The checks of M_c (228-234) repeat those of
    [crosscat_M_c] on the same M_c. *)
Definition lovecat_update (seeds : nat -> vseed) (s : state) (a : answer) : res state :=
  rbind (n_rows s) (fun n =>
  if negb (forallb (fun p => (Z.of_nat (length p) =? n)%Z) (an_parts a)) then Err AssertionError (* 236 *)
  else if negb (length (an_parts a) =? length (an_alphas a))%nat then Err AssertionError     (* 237 *)
  else if negb (length (an_assign a) =? length (s_outs s))%nat then Err AssertionError       (* 239 *)
  else
    let '(k, r) := crp_set_hypers (s_crp s) (an_alpha a) in                                  (* 242 *)
    rbind r (fun _ =>
    take_partitions (fun d => m_coll (a_M d))
      (fun i => let v := (length (an_parts a) - 1 - i)%nat in
                VSeed (nth v (an_alphas a) 0) (vs_grid (seeds v)) (vs_draw (seeds v)))
      (set_scrp s k) (combine (s_outs s) (an_assign a)) (an_parts a))).

(** lovecat.transition, lovecat.py:349-363: the number of steps and the seconds. *)
Definition lovecat_budget (N : option Z) (S : option R) : res (Z * R) :=
  match N, S with
  | Some n, None => Ok (n, -1)
  | None, Some x => Ok (150000%Z, x)
  | Some n, Some x => Ok (n, x)
  | None, None => Err AssertionError                                             (* 363 *)
  end.

(** lovecat.transition, lovecat.py:329-393, called from State.transition_lovecat
    (state.py:812-826, the test of the types).  The sampler gets M_c, the table, the
    partitions, the budget and the positions of the columns. *)
Definition lovecat (engine : list meta -> list (list cell) -> latent -> list (list Z) ->
    Z * R -> list nat -> answer)
  (seeds : nat -> vseed) (cats : Z -> list R) (types : list ctype)
  (N : option Z) (S : option R) (cols : list Z) (s : state) : res state :=
  if negb (forallb (fun t => match t with TOther => false | _ => true end) types)
  then Err ValueError                                                  (* state.py:817-820 *)
  else
  rbind (all_dims s) (fun ds =>
  if existsb (fun d => m_cond (a_M d)) ds then Err ValueError          (* state.py:821-822 *)
  else
  rbind (lovecat_budget N S) (fun budget =>
  rbind (rsequence (map (fun c => index_of c (s_outs s)) cols)) (fun positions =>    (* 368 *)
  rbind (crosscat_M_c cats types s) (fun M_c =>
  rbind (crosscat_T s M_c) (fun T =>
  rbind (crosscat_X_D s) (fun X_D =>
  rbind (crosscat_X_L s M_c X_D) (fun X_L =>
  lovecat_update seeds s (engine M_c T X_L X_D budget positions)))))))).

(* ------------------------------------------------------------------ *)
(** ** loom *)

(** What loom leaves on disk: the kinds with their features, the output that each feature
    stands for (the names of encoding.json.gz), and the stream of assignments of rows:
    a row and its group in each kind. *)
Record sample : Type := Sample {
  sm_kinds : list (list Z); sm_names : list Z; sm_rows : list (Z * list Z)
}.

(** _retrieve_column_partition, loomcat.py:92-101. *)
Definition loom_columns (x : sample) : dict Z :=
  dict_of (flat_map (fun ki => map (fun f => (f, fst ki)) (snd ki))
             (combine (range (Z.of_nat (length (sm_kinds x)))) (sm_kinds x))).

(** _retrieve_featureid_to_cgpm, loomcat.py:104-116. *)
Definition loom_outputs (x : sample) : dict Z :=
  dict_of (combine (range (Z.of_nat (length (sm_names x)))) (sm_names x)).

(** _retrieve_row_partitions, loomcat.py:119-136. *)
Definition loom_rows (x : sample) : res (list (list Z)) :=
  let kinds := range (Z.of_nat (length (sm_kinds x))) in
  rbind (rsequence (map (fun rg => rbind (rsequence (map (py_nth (snd rg)) kinds))
                                    (fun g => Ok (fst rg, g))) (sm_rows x))) (fun rows =>
  let assignments := dict_of rows in
  rsequence (map (fun k =>
    rsequence (map (fun rowid => rbind (lookup rowid assignments) (fun g => py_nth g k))
                 (zsort (dkeys assignments)))) kinds)).

(** [set(l) == set(m)]. *)
Definition same_set (l m : list Z) : bool :=
  forallb (fun x => zmem x m) l && forallb (fun x => zmem x l) m.

(** [l == m] for lists of integers. *)
Definition zlist_eqb (l m : list Z) : bool := if list_eq_dec Z.eq_dec l m then true else false.

(** _update_state, loomcat.py:139-189. *)
Definition loom_update (seeds : nat -> vseed) (s : state) (x : sample) : res state :=
  let raw := loom_columns x in
  if negb (zlist_eqb (zsort (dkeys raw)) (range (Z.of_nat (length (s_outs s)))))
  then Err AssertionError                                                        (* 151 *)
  else
    let mapping := loom_outputs x in
    if negb (zlist_eqb (zsort (dvals mapping)) (zsort (s_outs s))) then Err AssertionError   (* 157 *)
    else
      rbind (rsequence (map (fun fk => rbind (lookup (fst fk) mapping) (fun o => Ok (o, snd fk))) raw))
        (fun pairs =>
      let Zv_new := dict_of pairs in                                             (* 158 *)
      rbind (loom_rows x) (fun parts =>
      if negb (same_set (dvals Zv_new) (range (Z.of_nat (length parts)))) then Err AssertionError (* 163 *)
      else
        rbind (rsequence (map (fun c => rbind (lookup c Zv_new) (fun v => Ok (c, v))) (s_outs s)))
          (fun assign =>
        take_partitions (fun _ => true) seeds s assign parts))).
