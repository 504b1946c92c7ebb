(** Model of /repo/src/utils/sampling.py: mh_sample (25-144), slice_sample with
    _find_slice_interval (146-234) and rejection_sample (236-280).

    The functions called back are arguments and may raise.  The random generator is an
    argument too: the value of each call is arbitrary, up to what the documentation of the
    generator promises ([rand] in [0, 1), [uniform(a, b)] between a and b).  Draws are
    indexed by the iteration and, where an iteration makes several, by their number.

    Simplifications.
    - A domain is a pair of bounds, [None] standing for the infinite one.
    - The tuning of [jump_std] (sampling.py:126-136) only influences the distribution of
      the draws of [rng.normal], which are arbitrary here, and is left out.
    - Loops take a bound on the number of iterations; [None] means that the call has not
      returned by then. *)
From Verif Require Export Base Ext.
From Coq Require Import List ZArith Reals Bool.
Import ListNotations.
Local Open Scope Z_scope.

Definition dom : Type := (option R * option R)%type.
Definition above (D : dom) (x : R) : bool := match fst D with None => true | Some l => Rleb l x end.
Definition below (D : dom) (x : R) : bool := match snd D with None => true | Some h => Rleb x h end.
Definition sabove (D : dom) (x : R) : bool := match fst D with None => true | Some l => Rltb l x end.
Definition sbelow (D : dom) (x : R) : bool := match snd D with None => true | Some h => Rltb x h end.

(** [if num_samples == 1: return samples\[0\]], 141-144, 205-208 and 277-280. *)
Inductive result : Type := One (x : R) | Many (l : list R).
Definition as_result (num : Z) (samples : list R) : res result :=
  if num =? 1 then match samples with x :: _ => Ok (One x) | [] => Err IndexError end else Ok (Many samples).

(* ------------------------------------------------------------------ *)
(** ** mh_sample *)

(** The first of [n] trials strictly inside of the domain, 92-98. *)
Fixpoint first_inside (D : dom) (nrm : nat -> R) (n k : nat) : res R :=
  match n with
  | O => Err RuntimeError
  | S n' => if sabove D (nrm k) && sbelow D (nrm k) then Ok (nrm k) else first_inside D nrm n' (S k)
  end.
(** jumpfun, 83-98; [nrm k] is what the [k]-th call of rng.normal returns. *)
Definition jump (D : dom) (nrm : nat -> R) (x : R) : res R :=
  match D with
  | (Some l, Some h) =>
      if Reqb l 0 && Reqb h 1 then
        let x' := Rabs (nrm 0%nat) in
        Ok (if Rltb 1 x' then frac_part x' else x')
      else first_inside D nrm 1000 0
  | (Some l, None) => if Rleb 0 l then Ok (Rabs (x + nrm 0%nat)) else first_inside D nrm 1000 0
  | _ => first_inside D nrm 1000 0
  end.

Section MH.
  Context (f : R -> res ext) (D : dom) (nrm : Z -> nat -> R) (rand : Z -> R) (num burn lag : Z).

  (** One pass of the loop up to the decision, 110-120; [log(0)] raises ValueError. *)
  Definition mh_step (i : Z) (st : R * ext) : res (R * ext) :=
    let '(x, logp) := st in
    rbind (jump D (nrm i) x) (fun x' =>
    if negb (sabove D x' && sbelow D x') then Err AssertionError else
    rbind (f x') (fun logp' =>
    rbind (plog (rand i)) (fun lu =>
    Ok (if eltb (Fin lu) (esub logp' logp) then (x', logp') else (x, logp))))).

  (** The loop, 108-139; [i] is the counter [iters].  [iters % 0.] raises
      ZeroDivisionError. *)
  Fixpoint mh_loop (fuel : nat) (i : Z) (st : R * ext) (samples : list R) : option (res (list R)) :=
    if Z.of_nat (length samples) <? num then
      match fuel with
      | O => None
      | S fuel' =>
          match mh_step i st with
          | Err e => Some (Err e)
          | Ok st' =>
              if burn <? i then
                if lag =? 0 then Some (Err ZeroDivisionError)
                else mh_loop fuel' (i + 1) st' (if i mod lag =? 0 then samples ++ [fst st'] else samples)
              else mh_loop fuel' (i + 1) st' samples
          end
      end
    else Some (Ok samples).

  (** mh_sample, 25-144. *)
  Definition mh_sample (fuel : nat) (x : R) : option (res result) :=
    if negb (above D x && below D x) then Some (Err AssertionError)
    else match f x with
         | Err e => Some (Err e)
         | Ok logp => match mh_loop fuel 1 (x, logp) [] with
                      | None => None
                      | Some r => Some (rbind r (as_result num))
                      end
         end.
End MH.

(* ------------------------------------------------------------------ *)
(** ** slice_sample *)

(** [bind] for a call that may not have returned yet. *)
Definition obind {A B} (r : option (res A)) (g : A -> option (res B)) : option (res B) :=
  match r with None => None | Some (Err e) => Some (Err e) | Some (Ok a) => g a end.

Section Slice.
  Context (f : R -> res ext) (D : dom) (w : R).

  (** [while f(a) > u: a -= w; if a < D\[0\]: ...], 220-224. *)
  Fixpoint grow_left (fuel : nat) (u : ext) (a : R) : option (res R) :=
    match fuel with
    | O => None
    | S fuel' =>
        obind (Some (f a)) (fun fa =>
        if eltb u fa then
          let a' := (a - w)%R in
          match fst D with
          | Some l => if Rltb a' l then Some (Ok l) else grow_left fuel' u a'
          | None => grow_left fuel' u a'
          end
        else Some (Ok a))
    end.
  (** Likewise to the right, 229-233. *)
  Fixpoint grow_right (fuel : nat) (u : ext) (b : R) : option (res R) :=
    match fuel with
    | O => None
    | S fuel' =>
        obind (Some (f b)) (fun fb =>
        if eltb u fb then
          let b' := (b + w)%R in
          match snd D with
          | Some h => if Rltb h b' then Some (Ok h) else grow_right fuel' u b'
          | None => grow_right fuel' u b'
          end
        else Some (Ok b))
    end.
  (** _find_slice_interval, 210-234. *)
  Definition find_slice_interval (fuel : nat) (r x : R) (u : ext) : option (res (R * R)) :=
    let a := (x - r * w)%R in
    let b := (x + (1 - r) * w)%R in
    obind (match fst D with
           | Some l => if Rltb a l then Some (Ok l) else grow_left fuel u a
           | None => grow_left fuel u a
           end) (fun a =>
    obind (match snd D with
           | Some h => if Rltb h b then Some (Ok h) else grow_right fuel u b
           | None => grow_right fuel u b
           end) (fun b => Some (Ok (a, b)))).

  (** The inner loop, 191-200; [uni k a b] is what the [k]-th call of rng.uniform(a, b)
      returns. *)
  Fixpoint shrink (fuel : nat) (uni : nat -> R -> R -> R) (u : ext) (x a b : R) (k : nat) : option (res R) :=
    match fuel with
    | O => None
    | S fuel' =>
        let x' := uni k a b in
        obind (Some (f x')) (fun fx =>
        if eltb u fx then Some (Ok x')
        else if Rltb x x' then shrink fuel' uni u x a x' (S k)
        else shrink fuel' uni u x x' b (S k))
    end.

  Context (rand1 rand2 : Z -> R) (uni : Z -> nat -> R -> R -> R) (num burn lag : Z).

  (** The outer loop, 185-203. *)
  Fixpoint slice_loop (fuel inner : nat) (i : Z) (x : R) (samples : list R) : option (res (list R)) :=
    if Z.of_nat (length samples) <? num then
      match fuel with
      | O => None
      | S fuel' =>
          let i := i + 1 in
          obind (Some (plog (rand1 i))) (fun lu =>
          obind (Some (f x)) (fun fx =>
          let u := eadd (Fin lu) fx in
          obind (find_slice_interval inner (rand2 i) x u) (fun '(a, b) =>
          obind (shrink inner (uni i) u x a b 0) (fun x =>
          if burn <=? i then
            if lag =? 0 then Some (Err ZeroDivisionError)
            else slice_loop fuel' inner i x (if i mod lag =? 0 then samples ++ [x] else samples)
          else slice_loop fuel' inner i x samples))))
      end
    else Some (Ok samples).

  (** slice_sample, 146-208; [x] is what proposal_fun returns. *)
  Definition slice_sample (fuel inner : nat) (x : R) : option (res result) :=
    match slice_loop fuel inner 0 x [] with
    | None => None
    | Some r => Some (rbind r (as_result num))
    end.
End Slice.

(* ------------------------------------------------------------------ *)
(** ** rejection_sample *)

(** Python's [r * x] for a float [r]. *)
Definition fscale (r : R) (x : ext) : ext :=
  match x with
  | Fin a => Fin (r * a)
  | NaN => NaN
  | PInf => if Reqb r 0 then NaN else if Rltb 0 r then PInf else NInf
  | NInf => if Reqb r 0 then NaN else if Rltb 0 r then NInf else PInf
  end.
(** Python's [x <= y] on floats. *)
Definition eleb (x y : ext) : bool := eltb x y || eeqb x y.

Section Rejection.
  Context (target proposal : R -> res ext) (draw : nat -> res R) (rand : nat -> R) (num : Z).

  (** The loop, 260-275. *)
  Fixpoint rejection_loop (fuel i : nat) (samples : list R) : option (res (list R)) :=
    if Z.of_nat (length samples) <? num then
      match fuel with
      | O => None
      | S fuel' =>
          obind (Some (draw i)) (fun x =>
          obind (Some (proposal x)) (fun qx =>
          obind (Some (target x)) (fun px =>
          let u := fscale (rand i) qx in
          if negb (eleb px qx) then Some (Err AssertionError)
          else rejection_loop fuel' (S i) (if eltb u px then samples ++ [x] else samples))))
      end
    else Some (Ok samples).
  Definition rejection_sample (fuel : nat) : option (res result) :=
    match rejection_loop fuel 0 [] with
    | None => None
    | Some r => Some (rbind r (as_result num))
    end.
End Rejection.
