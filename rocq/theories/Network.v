(** Model of /repo/src/network/helpers.py. *)
From Verif Require Export Base.
Local Open Scope Z_scope.

(** What the helpers look at in a cgpm: its outputs and its inputs. *)
Record sig : Type := Sig { g_outputs : list Z; g_inputs : list Z }.

Definition pairwise_disjoint (l : list (list Z)) : bool :=
  (fix go l := match l with
               | [] => true
               | a :: l' => forallb (fun b => negb (existsb (fun x => zmem x b) a)) l' && go l'
               end) l.

(** validate_cgpms, helpers.py:23-29. *)
Definition validate_cgpms (cgpms : list sig) : res unit :=
  if negb (forallb (fun c => negb (match g_outputs c with [] => true | _ => false end)) cgpms)
  then Err ValueError
  else if negb (pairwise_disjoint (map g_outputs cgpms)) then Err ValueError
  else Ok tt.

(** [enumerate]. *)
Definition enumerate {A} (l : list A) : list (Z * A) :=
  combine (map Z.of_nat (seq 0 (length l))) l.

(** retrieve_variable_to_cgpm, helpers.py:32-34. *)
Definition variable_to_cgpm (cgpms : list sig) : dict Z :=
  fold_left (fun d ic => fold_left (fun d v => dset v (fst ic) d) (g_outputs (snd ic)) d)
    (enumerate cgpms) [].

(** [list(set(l))]; the order of a Python set is unspecified, the model keeps
    last occurrences. *)
Definition zset (l : list Z) : list Z := nodup Z.eq_dec l.

(** retrieve_adjacency_list, helpers.py:37-42. *)
Definition adjacency_list (cgpms : list sig) (v_to_c : dict Z) : dict (list Z) :=
  map (fun ic => (fst ic, zset (fold_right (fun p acc =>
        match dget p v_to_c with Some i => i :: acc | None => acc end) [] (g_inputs (snd ic)))))
    (enumerate cgpms).

(** retrieve_extraneous_inputs, helpers.py:52-55. *)
Definition extraneous_inputs (cgpms : list sig) (v_to_c : dict Z) : list Z :=
  concat (map (fun c => filter (fun i => negb (dmem i v_to_c)) (g_inputs c)) cgpms).

(** The body of the inner loop of topological_sort, helpers.py:110-114: the
    state is the graph, the sorted nodes and the flag [cyclic]. *)
Definition topo_visit (st : dict (list Z) * list Z * bool) (ne : Z * list Z)
  : dict (list Z) * list Z * bool :=
  let '(graph, sorted, cyclic) := st in
  if forallb (fun e => negb (dmem e graph)) (snd ne)
  then (ddel (fst ne) graph, sorted ++ [fst ne], false)
  else (graph, sorted, cyclic).

(** The outer loop, helpers.py:108-117; [graph.items()] is a snapshot.  [fuel]
    bounds the number of passes; every pass removes a node or raises, see
    [topo_fuel] in NetworkFacts. *)
Fixpoint topo_loop (fuel : nat) (graph : dict (list Z)) (sorted : list Z) : res (list Z) :=
  match graph with
  | [] => Ok sorted
  | _ =>
      match fuel with
      | O => Err RuntimeError
      | S fuel' =>
          let '(graph', sorted', cyclic) := fold_left topo_visit graph (graph, sorted, true) in
          if cyclic then Err ValueError else topo_loop fuel' graph' sorted'
      end
  end.

(** topological_sort, helpers.py:90-118. *)
Definition topological_sort (graph : dict (list Z)) : res (list Z) :=
  topo_loop (length graph) graph [].

(** The inputs of the cgpm that outputs [v]. *)
Definition inputs_of (cgpms : list sig) (v : Z) : list Z :=
  match dget v (variable_to_cgpm cgpms) with
  | Some i => match nth_error cgpms (Z.to_nat i) with Some c => g_inputs c | None => [] end
  | None => []
  end.

(** The inner function of retrieve_ancestors, helpers.py:63-66.  [fuel] bounds
    the recursion depth; RuntimeError is Python's recursion limit. *)
Fixpoint rconcat (l : list (res (list Z))) : res (list Z) :=
  match l with
  | [] => Ok []
  | r :: l' => rbind r (fun a => rbind (rconcat l') (fun b => Ok (a ++ b)))
  end.
Fixpoint ancestors (fuel : nat) (cgpms : list sig) (v : Z) : res (list Z) :=
  match fuel with
  | O => Err RuntimeError
  | S fuel' =>
      let parents := inputs_of cgpms v in
      rbind (rconcat (map (ancestors fuel' cgpms) parents)) (fun l => Ok (l ++ parents))
  end.
(** retrieve_ancestors, helpers.py:58-67. *)
Definition retrieve_ancestors (fuel : nat) (cgpms : list sig) (q : Z) : res (list Z) :=
  if dmem q (variable_to_cgpm cgpms) then ancestors fuel cgpms q else Err ValueError.

(** retrieve_descendents, helpers.py:69-79. *)
Definition children_of (cgpms : list sig) (v : Z) : list Z :=
  concat (map g_outputs (filter (fun c => zmem v (g_inputs c)) cgpms)).
Fixpoint descendents (fuel : nat) (cgpms : list sig) (v : Z) : res (list Z) :=
  match fuel with
  | O => Err RuntimeError
  | S fuel' =>
      let children := children_of cgpms v in
      rbind (rconcat (map (descendents fuel' cgpms) children)) (fun l => Ok (l ++ children))
  end.
Definition retrieve_descendents (fuel : nat) (cgpms : list sig) (q : Z) : res (list Z) :=
  if dmem q (variable_to_cgpm cgpms) then descendents fuel cgpms q else Err ValueError.

(** A Python set built by updates: new members are appended. *)
Definition set_update (s l : list Z) : list Z :=
  fold_left (fun s x => if zmem x s then s else s ++ [x]) l s.

(** [cgpms[l]]. *)
Definition sig_at (cgpms : list sig) (l : Z) : sig :=
  nth (Z.to_nat l) cgpms (Sig [] []).

(** retrieve_required_inputs, helpers.py:121-132, and the method of the same
    name, importance.py:119-129. *)
Definition required_inputs (cgpms : list sig) (topo targets constraints extraneous : list Z)
  : list Z :=
  let required := fold_left (fun req l =>
      let c := sig_at cgpms l in
      if existsb (fun i => zmem i req || zmem i constraints) (g_outputs c)
      then set_update req (g_inputs c) else req)
    (rev topo) (set_update [] targets) in
  filter (fun t => negb (zmem t targets) && negb (zmem t constraints) && negb (zmem t extraneous))
    required.
