(** Model of how an engine is written down and built again:
    /repo/src/crosscat/engine.py, lines 391-436.

    Simplifications.
    - The states have no composed components; Metadata.v and C41 treat those of one state.
    - What the constructor of a state draws from its seed is an argument, one [redrawn] for
      each state (engine.py:409, 416).
    - The factory entry and pickling are left out.
    - A dictionary entry that has been deleted is [None]; the rows in the description of a
      state beside it are then not looked at. *)
From Verif Require Export Metadata Engine.
From Coq Require Import List.
Import ListNotations.

(** The metadata of an engine, engine.py:394-402. *)
Record emeta : Type := EMeta {
  em_X : list (list cell);
  em_states : list (option (list (list cell)) * smeta)     (* the entry 'X' apart *)
}.

(** [m['X'] = rows], engine.py:414; other entries as they are. *)
Definition with_rows (rows : list (list cell)) (m : smeta) : smeta :=
  SMeta rows (mt_outs m) (mt_alpha m) (mt_Zv m) (mt_cols m) (mt_Cd m) (mt_Ci m) (mt_Zrv m) (mt_alphas m).

(** to_metadata, engine.py:394-401: the data are those of the first state, and each state's
    own are deleted. *)
Definition engine_to_metadata (l : list state) : res emeta :=
  match l with
  | [] => Err IndexError                                         (* self.states[0] *)
  | s0 :: _ =>
      rbind (data_rows (s_X s0)) (fun X =>
      rbind (rsequence (map state_to_metadata l)) (fun ms =>
      Ok (EMeta X (map (fun m => (None, with_rows [] m)) ms))))
  end.

(** The loop engine.py:413-414, which changes the metadata it was given. *)
Definition repopulate (em : emeta) : emeta :=
  EMeta (em_X em) (map (fun xm => (Some (em_X em), snd xm)) (em_states em)).

(** retrieve_state, engine.py:416-417, on one description. *)
Definition retrieve (f : redrawn) (xm : option (list (list cell)) * smeta) : res state :=
  match fst xm with
  | None => Err KeyError
  | Some rows => state_from_metadata f (with_rows rows (snd xm))
  end.

(** from_metadata, engine.py:404-422: the metadata afterwards and the states. *)
Definition engine_from_metadata (m : mapper) (fs : list redrawn) (em : emeta) : emeta * res (list state) :=
  let em' := repopulate em in
  (em', make_states m (map (fun fx => retrieve (fst fx) (snd fx)) (combine fs (em_states em')))).
