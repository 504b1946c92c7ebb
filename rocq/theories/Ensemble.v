(** Model of how an engine combines the answers of its states by likelihood weight,
    /repo/src/crosscat/engine.py:361-389.

    Simplifications.
    - [logpdf s rowid targets constraints inputs] is the call of logpdf on a state; like
      every call it returns the state after it.
    - np.bincount of no draws is the empty array (older numpy raises ValueError). *)
From Verif Require Export Engine.
From Coq Require Import List Arith ZArith.
Import ListNotations.
Local Open Scope nat_scope.

(** np.bincount, engine.py:382. *)
Definition count (i : nat) (l : list nat) : nat := length (filter (Nat.eqb i) l).
Definition bincount (l : list nat) : list nat :=
  match l with [] => [] | _ => map (fun i => count i l) (seq 0 (S (list_max l))) end.

Section Ensemble.
  Context {St : Type}.
  Variable logpdf : St -> Z -> dict ext -> dict ext -> dict ext -> St * res ext.

  (** [assert len(logpdfs) == len(self.states) if statenos is None else len(statenos)],
      engine.py:364-365 and 375-376: the conditional expression is the whole condition. *)
  Definition asserted {B} (given : list B) (statenos : option (list Z)) (e : engine St) : bool :=
    match statenos with
    | None => length given =? num_states e
    | Some ns => negb (length ns =? 0)
    end.
  Definition listed (statenos : option (list Z)) : list Z := match statenos with Some ns => ns | None => [] end.
  (** [self.logpdf(rowid, constraints, inputs, ...)], engine.py:367-368 and 380-381: the third
      parameter of Engine.logpdf is [constraints]. *)
  Definition state_weights (m : mapper) (rowid : Z) (constraints inputs : dict ext) (statenos : option (list Z))
    (e : engine St) : engine St * res (list ext) :=
    evaluate m (fun s => logpdf s rowid constraints inputs []) (listed statenos) e.

  (** _likelihood_weighted_integrate, engine.py:361-371. *)
  Definition lw_integrate (m : mapper) (logpdfs : list ext) (rowid : Z) (constraints inputs : dict ext)
    (statenos : option (list Z)) (e : engine St) : engine St * res ext :=
    if asserted logpdfs statenos e then
      match constraints with
      | _ :: _ =>
          let '(e', ws) := state_weights m rowid constraints inputs statenos e in
          (e', rbind ws (logmeanexp_weighted logpdfs))
      | [] => (e, logmeanexp logpdfs)
      end
    else (e, Err AssertionError).

  (** _likelihood_weighted_resample, engine.py:373-389; [draws] and [subset] are the draws
      of the generator: the states, and for each state that many of the positions. *)
  Variable draws : nat -> list ext -> nat.
  Variable subset : nat -> nat -> nat -> list nat.
  Definition picked {B} (samples : list (list B)) (indexes : list (list nat)) : res (list B) :=
    rbind (rsequence (map (fun si => rsequence (map (fun i =>
      match nth_error (fst si) i with Some a => Ok a | None => Err IndexError end) (snd si))) (combine samples indexes)))
      (fun l => Ok (concat l)).
  Definition lw_resample {B} (m : mapper) (samples : list (list B)) (rowid : Z) (constraints inputs : dict ext)
    (statenos : option (list Z)) (e : engine St) : engine St * res (list B) :=
    if asserted samples statenos e then
      if forallb (fun s => length s =? length (hd [] samples)) (tl samples) then     (* 377 *)
        match samples with
        | [] => (e, Err IndexError)                                                  (* 378 *)
        | s0 :: _ =>
            let N := length s0 in
            let '(e', ws) := match constraints with
                             | [] => (e, Ok (repeat (Fin 0) (length samples)))       (* 379 *)
                             | _ :: _ => state_weights m rowid constraints inputs statenos e
                             end in
            (e', rbind ws (fun ws =>
                 rbind (log_pflip_many draws ws (seq 0 (length ws)) N) (fun flips =>
                 let n_model := bincount flips in                                    (* 382 *)
                 picked samples (map (fun jn => subset (fst jn) N (snd jn))
                   (combine (seq 0 (length n_model)) n_model)))))
        end
      else (e, Err AssertionError)
    else (e, Err AssertionError).
End Ensemble.
