(** Model of the log-space helpers and of the weighted coin flips of
    /repo/src/utils/general.py.

    Floats are the extended reals of [Ext]: rounding and overflow are not
    modelled.  A numpy array is a list. *)
From Verif Require Export Ext.
Local Open Scope R_scope.

(** Python's built-in [max] on a non-empty list of floats: the running maximum
    is replaced only when the next element compares strictly greater, so the
    position of a NaN matters. *)
Definition pymax (a : ext) (l : list ext) : ext :=
  fold_left (fun m x => if eltb m x then x else m) l a.

(** Python's built-in [min]. *)
Definition pymin (a : ext) (l : list ext) : ext :=
  fold_left (fun m x => if eltb x m then x else m) l a.

(** Python's built-in [sum] on floats. *)
Definition esum (l : list ext) : ext := fold_left eadd l (Fin 0).

(** logsumexp, general.py:141-157. *)
Definition logsumexp (array : list ext) : res ext :=
  match array with
  | [] => Ok NInf                                                (* 143-144 *)
  | a :: l =>
      let m := pymax a l in                                      (* 145 *)
      if eisinf m && negb (eeqb (pymin a l) (eopp m))
         && forallb (fun x => negb (eisnan x)) array             (* 151-152 *)
      then Ok m                                                  (* 153 *)
      else rbind (elog (esum (map (fun x => eexp (esub x m)) array)))
             (fun v => Ok (eadd m v))                            (* 157 *)
  end.

(** log_normalize, general.py:80-82. *)
Definition log_normalize (logp : list ext) : res (list ext) :=
  rbind (logsumexp logp) (fun z => Ok (map (fun x => esub x z) logp)).

(** Numpy's division of floats (no exception, IEEE special values).  The sign
    of zero is not modelled: a finite number divided by zero counts zero as
    positive zero. *)
Definition ediv (x y : ext) : ext :=
  match x, y with
  | NaN, _ | _, NaN => NaN
  | Fin a, Fin b =>
      if Reqb b 0 then
        (if Reqb a 0 then NaN else if Rltb 0 a then PInf else NInf)
      else Fin (a / b)
  | Fin _, _ => Fin 0
  | PInf, Fin b => if Rltb b 0 then NInf else PInf
  | NInf, Fin b => if Rltb b 0 then PInf else NInf
  | _, _ => NaN
  end.

(** normalize, general.py:84-86. *)
Definition normalize (p : list ext) : list ext :=
  map (fun x => ediv x (esum p)) p.

(** logmeanexp, general.py:159-183. *)
Definition logmeanexp (array : list ext) : res ext :=
  match array with
  | [] => Ok NInf                                                (* 162-164 *)
  | _ =>
      let noninfs := filter (fun a => negb (eeqb a NInf)) array in   (* 176 *)
      rbind (logsumexp noninfs) (fun z =>
      rbind (plog (INR (length array))) (fun n =>
      Ok (esub z (Fin n))))                                      (* 183 *)
  end.

(** logmeanexp_weighted, general.py:185-201. *)
Definition logmeanexp_weighted (log_A log_W : list ext) : res ext :=
  if Nat.eqb (length log_W) (length log_A) then                  (* 199 *)
    rbind (logsumexp (map (fun wa => eadd (fst wa) (snd wa)) (combine log_W log_A)))
      (fun num => rbind (logsumexp log_W) (fun den => Ok (esub num den)))
  else Err AssertionError.

(** numpy's [RandomState.choice(array, p=p)]: raises ValueError unless [p] has
    the length of [array] and consists of non-negative numbers (that they sum
    to one is guaranteed by the caller's normalisation and exact arithmetic);
    otherwise returns the element at an index drawn from [p].  The index is
    delivered by [draw], an arbitrary function standing for the generator's
    state; what numpy guarantees about it is the predicate [draw_ok] below. *)
Definition ext_nonneg (x : ext) : bool :=
  match x with Fin a => Rleb 0 a | PInf => true | _ => false end.

Definition choice {A} (draw : list ext -> nat) (array : list A) (p : list ext)
  : res A :=
  if Nat.eqb (length array) (length p) && forallb ext_nonneg p then
    match nth_error array (draw p) with
    | Some a => Ok a
    | None => Err IndexError
    end
  else Err ValueError.

(** Contract of the generator: an index of a strictly positive entry, whenever
    there is one. *)
Definition draw_ok (draw : list ext -> nat) : Prop :=
  forall p, forallb ext_nonneg p = true -> (exists x, In x p /\ eltb (Fin 0) x = true) ->
    exists x, nth_error p (draw p) = Some x /\ eltb (Fin 0) x = true.

(** pflip with [size=None], general.py:128-139. *)
Definition pflip {A} (draw : list ext -> nat) (p : list ext) (array : list A)
  : res A :=
  match p with
  | [_] => match array with a :: _ => Ok a | [] => Err IndexError end  (* 132-133 *)
  | _ => choice draw array (normalize p)                               (* 136-139 *)
  end.

(** pflip with [size=n]: numpy draws n indices; [draws j] is the generator at
    the j-th draw. *)
Fixpoint rsequence {A} (l : list (res A)) : res (list A) :=
  match l with
  | [] => Ok []
  | r :: l' => rbind r (fun a => rbind (rsequence l') (fun b => Ok (a :: b)))
  end.

Definition pflip_many {A} (draws : nat -> list ext -> nat) (p : list ext)
  (array : list A) (n : nat) : res (list A) :=
  match p with
  | [_] => match array with a :: _ => Ok (repeat a n) | [] => Err IndexError end
  | _ =>
      if Nat.eqb (length array) (length p) && forallb ext_nonneg (normalize p) then
        rsequence (map (fun j => choice (draws j) array (normalize p)) (seq 0 n))
      else Err ValueError
  end.

(** log_pflip, general.py:123-126. *)
Definition log_pflip {A} (draw : list ext -> nat) (logp : list ext)
  (array : list A) : res A :=
  rbind (log_normalize logp) (fun lp => pflip draw (map eexp lp) array).

Definition log_pflip_many {A} (draws : nat -> list ext -> nat) (logp : list ext)
  (array : list A) (n : nat) : res (list A) :=
  rbind (log_normalize logp) (fun lp => pflip_many draws (map eexp lp) array n).
