(** Model of how the components outside of CrossCat hold their rows and look them up:
    /repo/src/regressions/linreg.py:89-129, /repo/src/regressions/ols.py:60-102,
    /repo/src/regressions/forest.py:56-107, 187-233, /repo/src/factor/factor.py:110-218,
    232-246, 277-294, /repo/src/kde/mvkde.py:86-216, 230-233, 252-266 and
    /repo/src/knn/mvknn.py:83-163, 245-268, 290-370.

    The numerical back ends (posterior of the regression, scikit-learn, statsmodels,
    multivariate normals, neighbour search) are functions called with exactly what the
    code hands to them.

    Simplifications: cells are floats ([ext]); dictionaries are association lists; the
    default [inputs=None] is the empty dictionary for the components without inputs. *)
From Verif Require Export Base Ext LogSpace DummyCode Importance.
From Coq Require Import List ZArith Reals Bool.
Import ListNotations.
Local Open Scope Z_scope.

(** Equality of lists of variables, [targets == self.outputs]. *)
Fixpoint zlist_eqb (a b : list Z) : bool :=
  match a, b with
  | [], [] => true
  | x :: a', y :: b' => (x =? y) && zlist_eqb a' b'
  | _, _ => false
  end.
(** [d\[k\]]. *)
Definition dgetr {A} (k : Z) (d : dict A) : res A :=
  match dget k d with Some v => Ok v | None => Err KeyError end.

(* ------------------------------------------------------------------ *)
(** ** Regressions *)

(** [Data(x=OrderedDict(), Y=OrderedDict())] and [N], linreg.py:84-86, ols.py:60-62,
    forest.py:56-57. *)
Record rows (T : Type) : Type := Rows { w_x : dict T; w_Y : dict (list ext); w_N : Z }.
Arguments Rows {T}. Arguments w_x {T}. Arguments w_Y {T}. Arguments w_N {T}.
Definition rows0 {T} : rows T := Rows [] [] 0.

(** LinearRegression.incorporate, linreg.py:94-102, and OrdinaryLeastSquares.incorporate,
    ols.py:70-78; [prep] is the method preprocess.  It returns no target only for an empty
    observation, which has been refused before. *)
Definition reg_incorporate (prep : option (dict ext) -> dict ext -> res (option ext * list ext)) (out : Z)
    (s : rows ext) (rowid : Z) (obs inputs : dict ext) : rows ext * res unit :=
  if dmem rowid (w_x s) then (s, Err AssertionError)
  else if dmem rowid (w_Y s) then (s, Err AssertionError)
  else if negb (dmem out obs) then (s, Err ValueError)
  else match prep (Some obs) inputs with
       | Err e => (s, Err e)
       | Ok (None, _) => (s, Err TypeError)
       | Ok (Some x, y) => (Rows (dset rowid x (w_x s)) (dset rowid y (w_Y s)) (w_N s + 1), Ok tt)
       end.

(** unincorporate, linreg.py:104-110, ols.py:80-86, forest.py:75-81. *)
Definition rows_unincorporate {T} (s : rows T) (rowid : Z) : rows T * res unit :=
  if negb (dmem rowid (w_x s)) then (s, Err ValueError)
  else let s1 := Rows (ddel rowid (w_x s)) (w_Y s) (w_N s) in
       if negb (dmem rowid (w_Y s)) then (s1, Err ValueError)
       else (Rows (w_x s1) (ddel rowid (w_Y s)) (w_N s - 1), Ok tt).

(** LinearRegression.logpdf, linreg.py:112-118, and OrdinaryLeastSquares.logpdf,
    ols.py:88-93; [density] is what is computed from the target, the code of the inputs,
    the count and the stored rows. *)
Definition reg_logpdf (prep : option (dict ext) -> dict ext -> res (option ext * list ext))
    (density : option ext -> list ext -> Z -> list (list ext) -> list ext -> res ext)
    (s : rows ext) (rowid : Z) (targets constraints inputs : dict ext) : res ext :=
  if dmem rowid (w_x s) then Err AssertionError
  else match constraints with _ :: _ => Err AssertionError | [] =>
  rbind (prep (Some targets) inputs) (fun '(x, y) =>
  density x y (w_N s) (map snd (w_Y s)) (map snd (w_x s))) end.

(** One row of answers, or a list of them. *)
Inductive answer : Type := One_row (r : dict ext) | Rows_list (l : list (dict ext)).

(** gu.simulate_many, general.py:403-413: [body i] is the [i]-th call of the method. *)
Definition simulate_many (body : nat -> res (dict ext)) (N : option Z) : res answer :=
  match N with
  | None => rbind (body 0%nat) (fun r => Ok (One_row r))
  | Some n => rbind (rsequence (map body (seq 0 (Z.to_nat n)))) (fun l => Ok (Rows_list l))
  end.

(** LinearRegression.simulate, linreg.py:120-129; [sample i y] is the [i]-th sample given
    the code of the inputs and what is stored. *)
Definition linreg_simulate (g : reg) (sample : nat -> list ext -> rows ext -> res ext)
    (s : rows ext) (rowid : Z) (targets : list Z) (constraints inputs : dict ext) (N : option Z) : res answer :=
  simulate_many (fun i =>
    if negb (zlist_eqb targets [g_out g]) then Err AssertionError
    else match constraints with _ :: _ => Err AssertionError | [] =>
    match dget rowid (w_x s) with
    | Some x => Ok [(g_out g, x)]
    | None => rbind (linreg_preprocess g None inputs) (fun '(_, y) =>
              rbind (sample i y s) (fun x => Ok [(g_out g, x)]))
    end end) N.

(** OrdinaryLeastSquares.simulate, ols.py:95-106: not wrapped by simulate_many, a stored row
    is answered whatever [N]; otherwise the mean is repeated.  [N = 0] is false, too. *)
Definition ols_simulate (g : reg) (mean : list ext -> res ext)
    (s : rows ext) (rowid : Z) (targets : list Z) (constraints inputs : dict ext) (N : option Z) : res answer :=
  if negb (zlist_eqb targets [g_out g]) then Err AssertionError
  else match constraints with _ :: _ => Err AssertionError | [] =>
  match dget rowid (w_x s) with
  | Some x => Ok (One_row [(g_out g, x)])
  | None => rbind (ols_preprocess g None inputs) (fun '(_, y) =>
            rbind (mean y) (fun m =>
            match N with
            | None | Some 0 => Ok (One_row [(g_out g, m)])
            | Some n => Ok (Rows_list (repeat [(g_out g, m)] (Z.to_nat n)))
            end))
  end end.

(** RandomForest: the parameters fixed by the constructor, forest.py:39-55. *)
Record forest : Type := Forest { o_out : Z; o_in : list Z; o_k : Z; o_p : Z }.
(** [x % 1 == 0 and 0 <= x < k]. *)
Definition category (k : Z) (x : ext) : option Z :=
  match x with
  | Fin v => if Reqb v (IZR (Int_part v)) && Rleb 0 v && Rltb v (IZR k) then Some (Int_part v) else None
  | _ => None
  end.
(** RandomForest.preprocess, forest.py:187-207. *)
Definition forest_preprocess (g : forest) (targets inputs : dict ext) : res (Z * list ext) :=
  if dmem (o_out g) inputs then Err ValueError
  else match dget (o_out g) targets with
       | None => Err ValueError
       | Some x =>
           if eisnan x then Err ValueError
           else if negb (forallb (fun c => dmem c inputs) (o_in g)) then Err ValueError
           else rbind (rsequence (map (fun c => dgetr c inputs) (zsort (dkeys inputs)))) (fun y =>
                if existsb eisnan y then Err ValueError
                else if negb (Z.of_nat (length y) =? o_p g) then Err ValueError
                else match category (o_k g) x with
                     | None => Err IndexError
                     | Some c => Ok (c, y)
                     end)
       end.
(** The forest's rows and [counts], forest.py:56-58. *)
Record fstate : Type := FState { f_rows : rows Z; f_counts : list Z }.
Definition forest0 (g : forest) : fstate := FState rows0 (repeat 0 (Z.to_nat (o_k g))).
(** RandomForest.incorporate, forest.py:66-73. *)
Definition forest_incorporate (g : forest) (s : fstate) (rowid : Z) (obs inputs : dict ext) : fstate * res unit :=
  let w := f_rows s in
  if dmem rowid (w_x w) then (s, Err AssertionError)
  else if dmem rowid (w_Y w) then (s, Err AssertionError)
  else match forest_preprocess g obs inputs with
       | Err e => (s, Err e)
       | Ok (x, y) =>
           (FState (Rows (dset rowid x (w_x w)) (dset rowid y (w_Y w)) (w_N w + 1))
                   (set_at (f_counts s) (Z.to_nat x) (nth (Z.to_nat x) (f_counts s) 0 + 1)), Ok tt)
       end.
(** RandomForest.unincorporate, forest.py:75-81: [counts] is left as it is. *)
Definition forest_unincorporate (s : fstate) (rowid : Z) : fstate * res unit :=
  let '(w, r) := rows_unincorporate (f_rows s) rowid in (FState w (f_counts s), r).

(** [np.log] of a finite float. *)
Definition np_log (x : R) : ext := if Rltb 0 x then Fin (ln x) else if Reqb x 0 then NInf else NaN.
(** The regressor as the forest sees it: its classes and their log probabilities; none
    before the first fit. *)
Definition regressor : Type := option (list Z * (list ext -> Z -> ext)).
(** RandomForest.calc_predictive_logp, forest.py:216-229; [lse] is gu.logsumexp. *)
Definition forest_predictive (lse : list ext -> ext) (x : Z) (y : list ext) (rg : regressor) (counts : list Z) (alpha : R) : ext :=
  let logp_uniform := eopp (np_log (IZR (Z.of_nat (length counts)))) in
  match rg with
  | None => logp_uniform
  | Some (classes, logp) =>
      if negb (zmem x classes) then eadd (np_log alpha) logp_uniform
      else lse [eadd (np_log alpha) logp_uniform; eadd (np_log (1 - alpha)) (logp y x)]
  end.
(** RandomForest.logpdf, forest.py:83-92. *)
Definition forest_logpdf (lse : list ext -> ext) (g : forest) (rg : regressor) (alpha : R)
    (s : fstate) (rowid : Z) (targets constraints inputs : dict ext) : res ext :=
  match constraints with _ :: _ => Err AssertionError | [] =>
  if negb (zlist_eqb (dkeys targets) [o_out g]) then Err AssertionError
  else if dmem rowid (w_x (f_rows s)) then Err AssertionError
  else match forest_preprocess g targets inputs with
       | Err IndexError => Ok NInf
       | Err e => Err e
       | Ok (x, y) => Ok (forest_predictive lse x y rg (f_counts s) alpha)
       end end.
(** RandomForest.simulate, forest.py:94-104; [pick i] is the [i]-th call of log_pflip. *)
Definition forest_simulate (lse : list ext -> ext) (pick : nat -> list ext -> Z) (g : forest) (rg : regressor) (alpha : R)
    (s : fstate) (rowid : Z) (targets : list Z) (constraints inputs : dict ext) (N : option Z) : res answer :=
  simulate_many (fun i =>
    if negb (zlist_eqb targets [o_out g]) then Err AssertionError
    else match constraints with _ :: _ => Err AssertionError | [] =>
    match dget rowid (w_x (f_rows s)) with
    | Some x => Ok [(o_out g, Fin (IZR x))]
    | None =>
        rbind (rsequence (map (fun x => forest_logpdf lse g rg alpha s rowid [(o_out g, Fin (IZR (Z.of_nat x)))] [] inputs)
                              (seq 0 (Z.to_nat (o_k g))))) (fun logps =>
        Ok [(o_out g, Fin (IZR (pick i logps)))])
    end end) N.

(* ------------------------------------------------------------------ *)
(** ** Components over several outputs *)

(** The rows of FactorAnalysis, MultivariateKde and MultivariateKnn: one list of cells per
    row, in the order of the observable outputs. *)
Record table : Type := Table { t_data : dict (list ext); t_N : Z }.
Definition table0 : table := Table [] 0.
(** The outputs of which rows have cells; [t_latent] are the last [L] outputs of a factor
    analysis and empty for the others, factor.py:105-109. *)
Record shape : Type := Shape { t_obs : list Z; t_latent : list Z }.
Definition t_out (g : shape) : list Z := t_obs g ++ t_latent g.

(** incorporate, factor.py:134-155, mvkde.py:93-111 and mvknn.py:95-101 with 352-366. *)
Definition table_incorporate (g : shape) (s : table) (rowid : Z) (obs inputs : dict ext) : table * res unit :=
  if dmem rowid (t_data s) then (s, Err ValueError)
  else match inputs with _ :: _ => (s, Err ValueError) | [] =>
  match obs with [] => (s, Err ValueError) | _ =>
  if existsb (fun q => negb (zmem q (t_out g))) (dkeys obs) then (s, Err ValueError)
  else if existsb (fun q => zmem q (t_latent g)) (dkeys obs) then (s, Err ValueError)
  else let x := map (fun i => match dget i obs with Some v => v | None => NaN end) (t_obs g) in
       (Table (dset rowid x (t_data s)) (t_N s + 1), Ok tt) end end.
(** unincorporate, factor.py:157-162, mvkde.py:113-118, mvknn.py:103-106 with 368-370. *)
Definition table_unincorporate (s : table) (rowid : Z) : table * res unit :=
  if dmem rowid (t_data s) then (Table (ddel rowid (t_data s)) (t_N s - 1), Ok tt)
  else (s, Err ValueError).

(** populate_constraints, factor.py:232-246, mvkde.py:252-266, mvknn.py:254-268; [targets]
    is a list or the keys of a dictionary. *)
Definition populate_constraints (g : shape) (s : table) (rowid : Z) (targets : list Z) (constraints : dict ext) : res (dict ext) :=
  match dget rowid (t_data s) with
  | None => Ok constraints
  | Some values =>
      if negb (Nat.eqb (length values) (length (t_obs g))) then Err AssertionError
      else Ok (merged constraints
                 (filter (fun '(output, value) => negb (eisnan value) && negb (zmem output targets)
                                                  && negb (dmem output constraints))
                         (combine (t_obs g) values)))
  end.

(** [any(q not in self.outputs for q in targets)] and [any(q in constraints for q in
    targets)]. *)
Definition unknown (g : shape) (qs : list Z) : bool := existsb (fun q => negb (zmem q (t_out g))) qs.
Definition overlapping (targets : list Z) (constraints : dict ext) : bool := existsb (fun q => dmem q constraints) targets.

(** Position of a variable in the joint normal: latents first, FactorAnalysis.reindex,
    factor.py:277-294. *)
Fixpoint index_of (q : Z) (l : list Z) : res Z :=
  match l with
  | [] => Err KeyError
  | o :: l' => if q =? o then Ok 0 else rbind (index_of q l') (fun i => Ok (i + 1))
  end.
Definition reindex1 (g : shape) (q : Z) : res Z :=
  rbind (index_of q (t_out g)) (fun i =>
  Ok (if zmem q (t_latent g) then i - Z.of_nat (length (t_obs g)) else i + Z.of_nat (length (t_latent g)))).
Definition reindex (g : shape) (qs : list Z) : res (list Z) := rsequence (map (reindex1 g) qs).

(** The checks of FactorAnalysis.logpdf and simulate, factor.py:164-178 and 186-199, and
    what they hand to mvn_condition: the positions of targets and constraints and the
    values of the latter. *)
Definition fa_query {A} (g : shape) (s : table) (backend : list Z -> list Z -> list ext -> res A)
    (rowid : Z) (targets : list Z) (constraints inputs : dict ext) : res A :=
  rbind (populate_constraints g s rowid targets constraints) (fun constraints =>
  match inputs with _ :: _ => Err ValueError | [] =>
  match targets with [] => Err ValueError | _ =>
  if unknown g targets then Err ValueError
  else if overlapping targets constraints then Err ValueError
  else rbind (reindex g targets) (fun t =>
       rbind (reindex g (dkeys constraints)) (fun c =>
       backend t c (map snd constraints))) end end).
(** FactorAnalysis.logpdf_score, factor.py:213-218: it iterates over the row ids, of which
    [len] raises TypeError. *)
Definition fa_score (s : table) : res ext :=
  match t_data s with [] => Ok (Fin 0) | _ => Err TypeError end.

(** The rows without a missing cell among the given outputs, _dataset, mvkde.py:230-233 and
    mvknn.py:245-248; [outputs.index] raises ValueError. *)
Definition dataset (g : shape) (s : table) (qs : list Z) : res (list (list ext)) :=
  rbind (match rsequence (map (fun q => index_of q (t_obs g)) qs) with Ok l => Ok l | Err _ => Err ValueError end) (fun idx =>
  Ok (filter (fun r => negb (existsb eisnan r))
        (map (fun row => map (fun i => nth (Z.to_nat i) (snd row) NaN) idx) (t_data s)))).

(** MultivariateKde.logpdf, mvkde.py:120-152; [density] is the log density computed from
    the complete rows of targets and constraints, the targets' and the constraints'
    values. *)
Definition kde_logpdf (g : shape) (density : list (list ext) -> dict ext -> dict ext -> res ext)
    (s : table) (rowid : Z) (targets constraints inputs : dict ext) : res ext :=
  if t_N s =? 0 then Err ValueError
  else rbind (populate_constraints g s rowid (dkeys targets) constraints) (fun constraints =>
  match inputs with _ :: _ => Err ValueError | [] =>
  match targets with [] => Err ValueError | _ =>
  if existsb eisnan (map snd targets) then Err ValueError
  else if unknown g (dkeys targets) then Err ValueError
  else if overlapping (dkeys targets) constraints then Err ValueError
  else rbind (dataset g s (dkeys targets ++ dkeys constraints)) (fun members =>
       density members targets constraints) end end).
(** MultivariateKde.simulate, mvkde.py:154-184; here the overlap is checked before the row
    is looked up. *)
Definition kde_simulate {A} (g : shape) (sample : list (list ext) -> list Z -> dict ext -> res A)
    (s : table) (rowid : Z) (targets : list Z) (constraints inputs : dict ext) : res A :=
  if t_N s =? 0 then Err ValueError
  else match inputs with _ :: _ => Err ValueError | [] =>
  match targets with [] => Err ValueError | _ =>
  if unknown g targets then Err ValueError
  else if overlapping targets constraints then Err ValueError
  else rbind (populate_constraints g s rowid targets constraints) (fun constraints =>
       rbind (dataset g s (targets ++ dkeys constraints)) (fun members =>
       sample members targets constraints)) end end.
(** MultivariateKde.logpdf_score, mvkde.py:210-216. *)
Definition kde_score (g : shape) (density : list (list ext) -> dict ext -> dict ext -> res ext) (s : table) : res ext :=
  rbind (rsequence (map (fun row =>
           kde_logpdf g density s (fst row)
             (filter (fun c => negb (eisnan (snd c))) (combine (t_obs g) (snd row))) [] []) (t_data s)))
        (fun l => Ok (esum l)).

(** MultivariateKnn._validate_simulate_logpdf, mvknn.py:322-350; [values] are the targets'
    values when they are a dictionary. *)
Definition knn_validate (g : shape) (K : Z) (s : table) (targets : list Z) (values : list ext)
    (constraints : dict ext) (N : option Z) : res unit :=
  if match N with Some n => n <=? 0 | None => false end then Err ValueError
  else if t_N s <? K then Err ValueError
  else match targets with [] => Err ValueError | _ =>
  if unknown g targets then Err ValueError
  else if unknown g (dkeys constraints) then Err ValueError
  else if overlapping targets constraints then Err ValueError
  else if existsb eisnan (map snd constraints) then Err ValueError
  else if existsb eisnan values then Err ValueError
  else Ok tt end.
(** MultivariateKnn.logpdf, mvknn.py:108-123. *)
Definition knn_logpdf (g : shape) (K : Z) (density : list (list ext) -> dict ext -> dict ext -> res ext)
    (s : table) (rowid : Z) (targets constraints inputs : dict ext) : res ext :=
  rbind (populate_constraints g s rowid (dkeys targets) constraints) (fun constraints =>
  match inputs with _ :: _ => Err ValueError | [] =>
  match constraints with [] => Err ValueError | _ =>
  rbind (knn_validate g K s (dkeys targets) (map snd targets) constraints None) (fun _ =>
  rbind (dataset g s (dkeys targets ++ dkeys constraints)) (fun members =>
  density members targets constraints)) end end).
(** The part of MultivariateKnn.simulate with constraints, mvknn.py:125-145: [sample] draws
    the given number of rows. *)
Definition knn_given (g : shape) (K : Z) (sample : list (list ext) -> list Z -> dict ext -> Z -> res (list (dict ext)))
    (s : table) (targets : list Z) (constraints : dict ext) (n : Z) : res (list (dict ext)) :=
  rbind (dataset g s (targets ++ dkeys constraints)) (fun members => sample members targets constraints n).
(** MultivariateKnn._simulate_fallback, mvknn.py:147-163: the targets' complement (or, when
    every output is a target, the first target) is resampled from the complete rows and
    conditioned on.  [pick m n] are the [n] rows chosen among [m]; none can be chosen among
    none.  Each row chosen leads to one call of simulate with constraints. *)
Definition knn_fallback (g : shape) (K : Z) (pick : nat -> Z -> list nat)
    (sample : nat -> list (list ext) -> list Z -> dict ext -> Z -> res (list (dict ext)))
    (s : table) (rowid : Z) (targets : list Z) (n : Z) : res (list (dict ext)) :=
  let all := Nat.eqb (length targets) (length (t_out g)) in
  let rest := filter (fun o => negb (zmem o targets)) (t_out g) in
  rbind (if all then
           match rest, targets with
           | [], t :: ts => Ok ([t], ts)
           | [], [] => Err IndexError
           | _, _ => Err AssertionError
           end
         else Ok (rest, targets)) (fun '(dummy, targets') =>
  rbind (dataset g s dummy) (fun data =>
  match data with
  | [] => Err ValueError
  | _ =>
      let chosen := pick (length data) n in
      rbind (rsequence (map (fun '(i, j) =>
               let e := combine dummy (nth j data []) in
               rbind (populate_constraints g s rowid targets' e) (fun constraints =>
               rbind (knn_validate g K s targets' [] constraints (Some 1)) (fun _ =>
               rbind (knn_given g K (sample (S i)) s targets' constraints 1) (fun l =>
               match l with
               | r :: _ => Ok (if all then merged r e else r)
               | [] => Err IndexError
               end)))) (combine (seq 0 (length chosen)) chosen)))
        (fun l => Ok l)
  end)).
(** MultivariateKnn.simulate, mvknn.py:125-145. *)
Definition knn_simulate (g : shape) (K : Z) (pick : nat -> Z -> list nat)
    (sample : nat -> list (list ext) -> list Z -> dict ext -> Z -> res (list (dict ext)))
    (s : table) (rowid : Z) (targets : list Z) (constraints inputs : dict ext) (N : option Z) : res answer :=
  match inputs with _ :: _ => Err ValueError | [] =>
  let n := match N with None => 1 | Some n => n end in
  rbind (populate_constraints g s rowid targets constraints) (fun constraints =>
  rbind (knn_validate g K s targets [] constraints (Some n)) (fun _ =>
  rbind (match constraints with
         | _ :: _ => knn_given g K (sample 0%nat) s targets constraints n
         | [] => rbind (knn_fallback g K pick sample s rowid targets n) (fun l =>
                 if Z.of_nat (length l) =? n then Ok l else Err AssertionError)
         end) (fun results =>
  match N with
  | Some _ => Ok (Rows_list results)
  | None => match results with r :: _ => Ok (One_row r) | [] => Err IndexError end
  end))) end.
