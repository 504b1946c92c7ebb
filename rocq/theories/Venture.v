(** Model of the cgpm defined by a Venturescript program, /repo/src/venturescript/vscgpm.py.

    The interpreter of the program (the ripl) is external.  What the code does with it is
    kept: the observations in force with their labels, the labels of predictions, the
    commands it was given, and the numbers of simulators, inputs and observers the program
    defines.  The observer of an output is taken to record one observation under the label
    it is given, as the programs of the tests do; it may refuse a value ([accepts]).  The
    value of a prediction is an argument ([draw]), as are the labels, which the code makes
    from the generator and the clock.  A label in use is refused, as Venture does;
    exceptions of Venture are RuntimeError.  Values are opaque ([isnan], [veq]).  Rows are
    integers; for the row None see simulate.  Not modelled: plugins, modes, base64. *)
From Verif Require Export Base.
From Coq Require String DecimalString.

(** An observation made in the ripl: row, number of the output, inputs in the order of the
    cgpm, value. *)
Record cell (V : Type) := Cell { c_row : Z; c_out : nat; c_in : list V; c_val : V }.
Arguments Cell {V} _ _ _ _. Arguments c_row {V} _. Arguments c_out {V} _. Arguments c_in {V} _. Arguments c_val {V} _.
Inductive command : Type := Infer (row : Z) (steps : nat) | Transition (n : Z) | Program (source : Z).
Record ripl (V : Type) := Ripl {
  p_obs : list (Z * cell V); p_pred : list Z; p_log : list command;
  p_simulators : nat; p_inputs : nat; p_observers : nat }.
Arguments Ripl {V} _ _ _ _ _ _. Arguments p_obs {V} _. Arguments p_pred {V} _. Arguments p_log {V} _.
Arguments p_simulators {V} _. Arguments p_inputs {V} _. Arguments p_observers {V} _.

(** An entry of self.obs: the key 'inputs' may be absent; 'labels' is made when read. *)
Record vrow (V : Type) := VRow { r_inputs : option (dict V); r_labels : dict Z }.
Arguments VRow {V} _ _. Arguments r_inputs {V} _. Arguments r_labels {V} _.
Record vs (V : Type) := Vs { vs_out : list Z; vs_in : list Z; vs_obs : dict (vrow V); vs_ripl : ripl V }.
Arguments Vs {V} _ _ _ _. Arguments vs_out {V} _. Arguments vs_in {V} _. Arguments vs_obs {V} _. Arguments vs_ripl {V} _.

(** [set(a) == set(b)] and the tests of uniqueness. *)
Definition zsubset (a b : list Z) : bool := forallb (fun x => zmem x b) a.
Definition same_set (a b : list Z) : bool := zsubset a b && zsubset b a.
Fixpoint zunique (l : list Z) : bool :=
  match l with [] => true | a :: l' => negb (zmem a l') && zunique l' end.

(** [l.index(q)]. *)
Fixpoint out_index (q : Z) (l : list Z) : option nat :=
  match l with [] => None | a :: l' => if Z.eqb q a then Some 0%nat else option_map S (out_index q l') end.

Definition p_labels {V} (p : ripl V) : list Z := map fst (p_obs p) ++ p_pred p.

Section Venture.
Context {V : Type} (isnan : V -> bool) (veq : V -> V -> bool) (accepts : cell V -> bool)
  (draw : ripl V -> Z -> nat -> list V -> Z -> V).

(** The ripl: observe, predict, forget, and a command. *)
Definition rip_observe (p : ripl V) (l : Z) (x : cell V) : res (ripl V) :=
  if zmem l (p_labels p) || negb (accepts x) then Err RuntimeError
  else Ok (Ripl (p_obs p ++ [(l, x)]) (p_pred p) (p_log p) (p_simulators p) (p_inputs p) (p_observers p)).
Definition rip_predict (p : ripl V) (l : Z) : res (ripl V) :=
  if zmem l (p_labels p) then Err RuntimeError
  else Ok (Ripl (p_obs p) (p_pred p ++ [l]) (p_log p) (p_simulators p) (p_inputs p) (p_observers p)).
Definition rip_forget (p : ripl V) (l : Z) : res (ripl V) :=
  if zmem l (p_labels p) then
    Ok (Ripl (filter (fun lx => negb (fst lx =? l)%Z) (p_obs p)) (filter (fun a => negb (a =? l)%Z) (p_pred p))
         (p_log p) (p_simulators p) (p_inputs p) (p_observers p))
  else Err RuntimeError.
Definition rip_run (p : ripl V) (k : command) : ripl V :=
  Ripl (p_obs p) (p_pred p) (p_log p ++ [k]) (p_simulators p) (p_inputs p) (p_observers p).

(** VsCGpm.__init__, vscgpm.py:34-78; [p] is the ripl after the program has run. *)
Definition vs_new (outputs inputs : list Z) (p : ripl V) : res (vs V) :=
  if negb (zunique outputs) then Err ValueError                                    (* 39 *)
  else if negb (zunique inputs) then Err ValueError                                (* 41 *)
  else if negb (forallb (fun o => negb (zmem o inputs)) outputs) then Err ValueError
  else if negb (forallb (fun i => negb (zmem i outputs)) inputs) then Err ValueError
  else if negb (Nat.eqb (length outputs) (p_simulators p)) then Err ValueError     (* 66 *)
  else if negb (Nat.eqb (length inputs) (p_inputs p)) then Err ValueError          (* 70 *)
  else if negb (Nat.eqb (length outputs) (p_observers p)) then Err ValueError      (* 74 *)
  else Ok (Vs outputs inputs [] p).

(** [self.obs\[rowid\]], which makes the entry when absent. *)
Definition row_of (c : vs V) (r : Z) : vrow V :=
  match dget r (vs_obs c) with Some w => w | None => VRow None [] end.
Definition set_row (c : vs V) (r : Z) (w : vrow V) : vs V :=
  Vs (vs_out c) (vs_in c) (dset r w (vs_obs c)) (vs_ripl c).
Definition set_ripl (c : vs V) (p : ripl V) : vs V := Vs (vs_out c) (vs_in c) (vs_obs c) p.

(** [\[inputs\[i\] for i in self.inputs\]], vscgpm.py:170 and 177. *)
Fixpoint inputs_list (names : list Z) (inputs : dict V) : res (list V) :=
  match names with
  | [] => Ok []
  | i :: names' =>
      match dget i inputs with
      | None => Err KeyError
      | Some v => rbind (inputs_list names' inputs) (fun l => Ok (v :: l))
      end
  end.

(** VsCGpm._observe_cell, vscgpm.py:176-182; [l] is the label generated. *)
Definition observe_cell (c : vs V) (r q : Z) (v : V) (inputs : dict V) (l : Z) : vs V * res unit :=
  match inputs_list (vs_in c) inputs with
  | Err e => (c, Err e)
  | Ok xs =>
      match out_index q (vs_out c) with
      | None => (c, Err ValueError)
      | Some i =>
          match rip_observe (vs_ripl c) l (Cell r i xs v) with
          | Err e => (c, Err e)
          | Ok p =>
              let w := row_of c r in
              (set_ripl (set_row c r (VRow (r_inputs w) (dset q l (r_labels w)))) p, Ok tt)
          end
      end
  end.
Fixpoint observe_cells (c : vs V) (r : Z) (items : list (Z * V)) (inputs : dict V) (lab : nat -> Z) (k : nat) : vs V * res unit :=
  match items with
  | [] => (c, Ok tt)
  | (q, v) :: items' =>
      match observe_cell c r q v inputs (lab k) with
      | (c', Ok _) => observe_cells c' r items' inputs lab (S k)
      | (c', Err e) => (c', Err e)
      end
  end.

(** VsCGpm._forget_cell, vscgpm.py:184-189. *)
Definition forget_cell (c : vs V) (r q : Z) : vs V * res unit :=
  let w := row_of c r in
  match dget q (r_labels w) with
  | None => (set_row c r w, Ok tt)
  | Some l =>
      match rip_forget (vs_ripl c) l with
      | Err e => (set_row c r w, Err e)
      | Ok p => (set_ripl (set_row c r (VRow (r_inputs w) (ddel q (r_labels w)))) p, Ok tt)
      end
  end.
Fixpoint forget_cells (c : vs V) (r : Z) (qs : list Z) : vs V * res unit :=
  match qs with
  | [] => (c, Ok tt)
  | q :: qs' =>
      match forget_cell c r q with
      | (c', Ok _) => forget_cells c' r qs'
      | (c', Err e) => (c', Err e)
      end
  end.

(** [inputs != self.obs\[rowid\]\['inputs'\]]: equality of dictionaries. *)
Definition deqb (a b : dict V) : bool :=
  Nat.eqb (length a) (length b) &&
  forallb (fun kv => match dget (fst kv) b with Some v => veq (snd kv) v | None => false end) a.
(** VsCGpm._check_matched_inputs, vscgpm.py:251-256: [true] when it raises. *)
Definition contradicts (w : vrow V) (inputs : dict V) : bool :=
  match r_inputs w with Some d => negb (deqb inputs d) | None => false end.
Definition given {A} (d : dict A) : bool := match d with [] => false | _ => true end.
Definition anynan (d : dict V) : bool := existsb (fun kv => isnan (snd kv)) d.

(** VsCGpm._validate_incorporate, vscgpm.py:196-220, which makes the entry of the row or the
    key 'inputs' of it. *)
Definition validate_incorporate (c : vs V) (r : Z) (observation inputs : dict V) : res (vs V * dict V) :=
  if negb (given observation) then Err ValueError                                  (* 198 *)
  else if negb (dmem r (vs_obs c)) && negb (same_set (dkeys inputs) (vs_in c)) then Err ValueError
  else if negb (zsubset (dkeys observation) (vs_out c)) then Err ValueError        (* 204 *)
  else if anynan inputs then Err ValueError                                        (* 207 *)
  else if anynan observation then Err ValueError                                   (* 209 *)
  else match dget r (vs_obs c) with
  | Some w =>
      if existsb (fun q => dmem q (r_labels w)) (dkeys observation) then Err ValueError (* 213 *)
      else if given inputs && contradicts w inputs then Err ValueError             (* 216 *)
      else
        let d := match r_inputs w with Some d => d | None => [] end in
        Ok (set_row c r (VRow (Some d) (r_labels w)), d)                           (* 220 *)
  | None => Ok (set_row c r (VRow (Some inputs) []), inputs)                       (* 219-220 *)
  end.

(** VsCGpm.incorporate, vscgpm.py:80-83. *)
Definition vs_incorporate (lab : nat -> Z) (c : vs V) (r : Z) (observation inputs : dict V) : vs V * res unit :=
  match validate_incorporate c r observation inputs with
  | Err e => (c, Err e)
  | Ok (c', d) => observe_cells c' r observation d lab 0
  end.

(** VsCGpm.unincorporate, vscgpm.py:85-91. *)
Definition vs_unincorporate (c : vs V) (r : Z) : vs V * res unit :=
  if negb (dmem r (vs_obs c)) then (c, Err ValueError)
  else
    match forget_cells c r (vs_out c) with
    | (c', Err e) => (c', Err e)
    | (c', Ok _) =>
        if given (r_labels (row_of c' r)) then (c', Err AssertionError)            (* 90 *)
        else (Vs (vs_out c') (vs_in c') (ddel r (vs_obs c')) (vs_ripl c'), Ok tt)
    end.

(** VsCGpm.logpdf, vscgpm.py:93-94. *)
Definition vs_logpdf (c : vs V) (r : Z) (targets constraints inputs : dict V) : Z := 0%Z.

(** VsCGpm._validate_simulate, vscgpm.py:222-249. *)
Definition validate_simulate (c : vs V) (r : Z) (targets : list Z) (constraints inputs : dict V) : vs V * res (dict V) :=
  if negb (dmem r (vs_obs c)) && negb (same_set (dkeys inputs) (vs_in c)) then (c, Err ValueError)
  else if anynan inputs then (c, Err ValueError)
  else if anynan constraints then (c, Err ValueError)
  else if negb (zsubset (dkeys inputs) (vs_in c)) then (c, Err ValueError)
  else if negb (zsubset (dkeys constraints) (vs_out c)) then (c, Err ValueError)
  else if negb (zsubset targets (vs_out c)) then (c, Err ValueError)
  else if existsb (fun q => zmem q (dkeys constraints)) targets then (c, Err ValueError)
  else
    let '(c', d) :=
      match dget r (vs_obs c) with
      | None => (c, Ok inputs)
      | Some w =>
          if existsb (fun q => dmem q (r_labels w)) (dkeys constraints) then (c, Err ValueError)
          else if given inputs then (if contradicts w inputs then (c, Err ValueError) else (c, Ok inputs))
          else let d := match r_inputs w with Some d => d | None => [] end in
               (set_row c r (VRow (Some d) (r_labels w)), Ok d)                    (* 247 *)
      end in
    match d with
    | Err e => (c', Err e)
    | Ok d => if same_set (dkeys d) (vs_in c) then (c', Ok d) else (c', Err AssertionError)  (* 248 *)
    end.

(** VsCGpm._predict_cell, vscgpm.py:169-174, for each target (107-112). *)
Fixpoint predict_cells (c : vs V) (r : Z) (targets : list Z) (inputs : dict V) (lab : nat -> Z) (k : nat) (sample : dict V) : vs V * res (dict V) :=
  match targets with
  | [] => (c, Ok sample)
  | q :: targets' =>
      match inputs_list (vs_in c) inputs, out_index q (vs_out c) with
      | Err e, _ => (c, Err e)
      | _, None => (c, Err ValueError)
      | Ok xs, Some i =>
          match rip_predict (vs_ripl c) (lab k) with
          | Err e => (c, Err e)
          | Ok p => predict_cells (set_ripl c p) r targets' inputs lab (S k) (dset q (draw (vs_ripl c) r i xs (lab k)) sample)
          end
      end
  end.
Fixpoint forget_labels (c : vs V) (ls : list Z) : vs V * res unit :=
  match ls with
  | [] => (c, Ok tt)
  | l :: ls' =>
      match rip_forget (vs_ripl c) l with
      | Err e => (c, Err e)
      | Ok p => forget_labels (set_ripl c p) ls'
      end
  end.

(** VsCGpm.simulate, vscgpm.py:96-119.  Its argument [N] is not used.  The labels are drawn
    first for the constraints, then for the targets.  (For the row None the command of line
    105 raises TypeError, once the constraints are observed.) *)
Definition vs_simulate (lab : nat -> Z) (c : vs V) (r : Z) (targets : list Z) (constraints inputs : dict V) (N : option nat) :
  vs V * res (dict V) :=
  match validate_simulate c r targets constraints inputs with
  | (c0, Err e) => (c0, Err e)
  | (c0, Ok d) =>
      let n := length constraints in
      match observe_cells c0 r constraints d lab 0 with                            (* 100-103 *)
      | (c1, Err e) => (c1, Err e)
      | (c1, Ok _) =>
          let c2 := if given constraints then set_ripl c1 (rip_run (vs_ripl c1) (Infer r 15)) else c1 in (* 105 *)
          match predict_cells c2 r targets d lab n [] with
          | (c3, Err e) => (c3, Err e)
          | (c3, Ok sample) =>
              match forget_labels c3 (map lab (seq n (length targets))) with       (* 114-115 *)
              | (c4, Err e) => (c4, Err e)
              | (c4, Ok _) =>
                  match forget_cells c4 r (dkeys constraints) with                 (* 117-118 *)
                  | (c5, Err e) => (c5, Err e)
                  | (c5, Ok _) => (c5, Ok sample)
                  end
              end
          end
      end
  end.

(** VsCGpm.transition, vscgpm.py:124-129. *)
Definition vs_transition (c : vs V) (program : option Z) (N : option Z) : vs V :=
  set_ripl c (rip_run (vs_ripl c)
    match program with Some p => Program p | None => Transition (match N with Some n => n | None => 1%Z end) end).

(** Dictionaries with keys that are strings, as json has them. *)
Definition sdict (A : Type) : Type := list (String.string * A).
Fixpoint sset {A} (k : String.string) (v : A) (d : sdict A) : sdict A :=
  match d with
  | [] => [(k, v)]
  | (k', v') :: d' => if String.eqb k k' then (k, v) :: d' else (k', v') :: sset k v d'
  end.
Definition str (z : Z) : String.string := DecimalString.NilZero.string_of_int (Z.to_int z).
Definition int (s : String.string) : option Z := option_map Z.of_int (DecimalString.NilZero.int_of_string s).

(** VsCGpm._obs_to_json and _obs_from_json, vscgpm.py:258-278. *)
Definition keys_str {A} (d : dict A) : sdict A := fold_left (fun e kv => sset (str (fst kv)) (snd kv) e) d [].
Definition keys_int {A} (d : sdict A) : res (dict A) :=
  fold_left (fun e kv => rbind e (fun e => match int (fst kv) with Some z => Ok (dset z (snd kv) e) | None => Err ValueError end)) d (Ok []).
Definition obs_to_json (obs : dict (vrow V)) : sdict (sdict V * sdict Z) :=
  map (fun kw => (fst kw, (keys_str (match r_inputs (snd kw) with Some d => d | None => [] end), keys_str (r_labels (snd kw))))) (keys_str obs).
Fixpoint rows_int (l : dict (sdict V * sdict Z)) : res (dict (vrow V)) :=
  match l with
  | [] => Ok []
  | (r, (i, s)) :: l' =>
      rbind (keys_int i) (fun i => rbind (keys_int s) (fun s => rbind (rows_int l') (fun rest => Ok ((r, VRow (Some i) s) :: rest))))
  end.
Definition obs_from_json (o : sdict (sdict V * sdict Z)) : res (dict (vrow V)) := rbind (keys_int o) rows_int.

(** VsCGpm.to_metadata and from_metadata, vscgpm.py:131-164.  The ripl is saved and loaded
    as it is; the constructor runs the program again when there is one (52-54), which is
    recorded as a command. *)
Record vs_meta := VsMeta { m_source : option Z; m_outputs : list Z; m_inputs : list Z; m_obs : sdict (sdict V * sdict Z); m_binary : ripl V }.
Definition vs_to_metadata (source : option Z) (c : vs V) : vs_meta :=
  VsMeta source (vs_out c) (vs_in c) (obs_to_json (vs_obs c)) (vs_ripl c).
Definition vs_from_metadata (m : vs_meta) : res (vs V) :=
  let p := match m_source m with Some s => rip_run (m_binary m) (Program s) | None => m_binary m end in
  rbind (vs_new (m_outputs m) (m_inputs m) p) (fun c =>
  rbind (obs_from_json (m_obs m)) (fun o => Ok (Vs (vs_out c) (vs_in c) o (vs_ripl c)))).

End Venture.
