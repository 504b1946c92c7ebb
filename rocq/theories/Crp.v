(** Model of /repo/src/primitives/crp.py and of the CRP formulas of
    /repo/src/utils/general.py.

    Simplifications: the observation/target is the integer value itself
    ([int()] of crp.py:47,66 is the identity on it) and the assertions on the
    keys of observation, constraints and inputs are not modelled.  [gammaln] and
    [lgamma] are the argument [lgam]. *)
From Verif Require Export LogSpace.
Local Open Scope R_scope.

(** crp.py:38-43. *)
Record crp : Type := Crp {
  c_N : Z; c_data : dict Z; c_counts : dict Z; c_alpha : R
}.

(** Crp.__init__, crp.py:32-43. *)
Definition crp_new (alpha : R) : crp := Crp 0 [] [] alpha.

(** incorporate, crp.py:45-52 with distribution.py:50-53. *)
Definition crp_incorporate (s : crp) (rowid x : Z) : crp * res unit :=
  if dmem rowid (c_data s) then (s, Err AssertionError)
  else
    let counts0 := if dmem x (c_counts s) then c_counts s else dset x 0%Z (c_counts s) in
    let c := match dget x counts0 with Some c => c | None => 0%Z end in
    (Crp (c_N s + 1) (dset rowid x (c_data s)) (dset x (c + 1)%Z counts0) (c_alpha s), Ok tt).

(** unincorporate, crp.py:54-59.  The KeyError of line 57 comes after the row
    has been popped. *)
Definition crp_unincorporate (s : crp) (rowid : Z) : crp * res unit :=
  match dget rowid (c_data s) with
  | None => (s, Err KeyError)
  | Some x =>
      let data := ddel rowid (c_data s) in
      match dget x (c_counts s) with
      | None => (Crp (c_N s - 1) data (c_counts s) (c_alpha s), Err KeyError)
      | Some c =>
          let counts := dset x (c - 1)%Z (c_counts s) in
          (Crp (c_N s - 1) data
             (if (c - 1 =? 0)%Z then ddel x counts else counts) (c_alpha s), Ok tt)
      end
  end.

(** calc_predictive_logp, crp.py:178-182. *)
Definition crp_predictive (x N : Z) (counts : dict Z) (alpha : R) : res ext :=
  let numerator := match dget x counts with Some c => IZR c | None => alpha end in
  rbind (plog numerator) (fun a =>
  rbind (plog (IZR N + alpha)) (fun b => Ok (Fin (a - b)))).

(** logpdf, crp.py:61-69. *)
Definition crp_logpdf (s : crp) (rowid x : Z) : res ext :=
  match dget rowid (c_data s) with
  | Some t => if (t =? x)%Z then Ok (Fin 0) else Ok NInf
  | None => crp_predictive x (c_N s) (c_counts s) (c_alpha s)
  end.

(** calc_logpdf_marginal, crp.py:184-188. *)
Definition crp_marginal (lgam : R -> R) (N : Z) (counts : dict Z) (alpha : R) : res ext :=
  rbind (plog alpha) (fun la =>
  Ok (Fin (INR (length counts) * la
           + Rsum (map (fun c => lgam (IZR c)) (dvals counts))
           + lgam alpha - lgam (IZR N + alpha)))).

(** logpdf_score, crp.py:83-84. *)
Definition crp_score (lgam : R -> R) (s : crp) : res ext :=
  crp_marginal lgam (c_N s) (c_counts s) (c_alpha s).

(** set_hypers, crp.py:93-95. *)
Definition crp_set_hypers (s : crp) (alpha : R) : crp * res unit :=
  if Rltb 0 alpha then (Crp (c_N s) (c_data s) (c_counts s) alpha, Ok tt)
  else (s, Err AssertionError).

(** The candidate tables of simulate, crp.py:77-78. *)
Definition crp_tables (s : crp) : list Z :=
  match zmax_list (dkeys (c_counts s)) with
  | Some m => zsort (dkeys (c_counts s)) ++ [(m + 1)%Z]
  | None => [0%Z]
  end.

(** simulate (one sample), crp.py:71-81. *)
Definition crp_simulate (draw : list ext -> nat) (s : crp) (rowid : Z) : res Z :=
  match dget rowid (c_data s) with
  | Some x => Ok x
  | None =>
      let K := crp_tables s in
      rbind (rsequence (map (fun x => crp_logpdf s rowid x) K)) (fun logps =>
      log_pflip draw logps K)
  end.

(** singleton, crp.py:145-146. *)
Definition crp_singleton (s : crp) (rowid : Z) : res bool :=
  match dget rowid (c_data s) with
  | None => Ok false
  | Some t => match dget t (c_counts s) with
              | Some c => Ok (c =? 1)%Z
              | None => Err KeyError
              end
  end.

(** gibbs_tables, crp.py:126-143.  The maximum is evaluated only if at least
    one auxiliary table is produced. *)
Definition crp_gibbs_tables (s : crp) (rowid : Z) (m : nat) : res (list Z) :=
  if (0 <? m)%nat then
    let K := zsort (dkeys (c_counts s)) in
    rbind (crp_singleton s rowid) (fun sing =>
    let m_aux := if sing then (m - 1)%nat else m in
    match m_aux with
    | O => Ok K
    | S _ =>
        match zmax_list (dkeys (c_counts s)) with
        | Some t => Ok (K ++ map (fun i => (t + 1 + Z.of_nat i)%Z) (seq 0 m_aux))
        | None => Err ValueError
        end
    end)
  else Err AssertionError.

(** gibbs_logps, crp.py:111-124. *)
Definition crp_gibbs_logps (s : crp) (rowid : Z) (m : nat) : res (list R) :=
  match dget rowid (c_data s) with
  | None => Err AssertionError
  | Some z =>
      if (0 <? m)%nat then
        rbind (crp_singleton s rowid) (fun sing =>
        let p_aux := c_alpha s / INR m in
        rbind (if sing then Ok p_aux
               else match dget z (c_counts s) with
                    | Some c => Ok (IZR (c - 1)) | None => Err KeyError end) (fun p_rowid =>
        rbind (crp_gibbs_tables s rowid m) (fun tables =>
        rsequence (map (fun t =>
          plog (if (t =? z)%Z then p_rowid
                else match dget t (c_counts s) with
                     | None => p_aux
                     | Some c => IZR c
                     end)) tables))))
      else Err AssertionError
  end.

(** logp_crp, general.py:88-94. *)
Definition logp_crp (lgam : R -> R) (N : Z) (Nk : list Z) (alpha : R) : res ext :=
  rbind (plog alpha) (fun la =>
  Ok (Fin (INR (length Nk) * la + Rsum (map (fun c => lgam (IZR c)) Nk)
           + lgam alpha - lgam (IZR N + alpha)))).

(** logp_crp_gibbs with [Nk] and [Z] dictionaries, general.py:103-114 (used by
    State for the columns). *)
Definition logp_crp_gibbs (Nk Z : dict Z) (i : BinNums.Z) (alpha : R) (m : nat) : res (list R) :=
  match dget i Z with
  | None => Err KeyError
  | Some z =>
      match dget z Nk with
      | None => Err KeyError
      | Some c =>
          let singleton := (c =? 1)%Z in
          let m_aux := if singleton then (m - 1)%nat else m in
          let p_aux := alpha / INR m in
          if (m =? 0)%nat then Err ZeroDivisionError else          (* 110 *)
          rbind (rsequence (map (fun t =>
            plog (if (t =? z)%Z then (if singleton then p_aux else IZR (c - 1))
                  else match dget t Nk with Some c' => IZR c' | None => 0 end))
            (zsort (dkeys Nk)))) (fun olds =>
          match m_aux with
          | O => (* [log(p_table_aux)]*0 still evaluates the logarithm *)
              rbind (plog p_aux) (fun _ => Ok olds)
          | S _ => rbind (plog p_aux) (fun la => Ok (olds ++ repeat la m_aux))
          end)
      end
  end.

(** Histories. *)
Inductive cop : Type :=
| CInc (rowid x : Z) | CUninc (rowid : Z) | CHypers (alpha : R).

Definition crp_step (s : crp) (o : cop) : crp * res unit :=
  match o with
  | CInc r x => crp_incorporate s r x
  | CUninc r => crp_unincorporate s r
  | CHypers a => crp_set_hypers s a
  end.

Fixpoint crp_run (s : crp) (ops : list cop) : crp * list (cop * res unit) :=
  match ops with
  | [] => (s, [])
  | o :: ops' =>
      let '(s1, r) := crp_step s o in
      let '(s2, tr) := crp_run s1 ops' in
      (s2, (o, r) :: tr)
  end.
