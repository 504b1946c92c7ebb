(** Model of the density and the sampler of MultivariateKde, /repo/src/kde/mvkde.py:120-208 and
    230-250, after the checks and the choice of the rows, which are in Holders.v.

    The kernels are those of statsmodels (nonparametric: gpke, gaussian, aitchison_aitken,
    KDEMultivariate and KDEMultivariateConditional), which is not in the repository: they are
    written here from its source.  KDEMultivariate refuses data that has no more rows than
    variables; aitchison_aitken counts the levels that occur in its data.  Values are finite
    reals.  The draws of the generator are arguments. *)
From Verif Require Export Holders Grids.
Local Open Scope R_scope.

(** An output: numerical, or categorical (nominal) with [k] levels, mvkde.py:72-91. *)
Inductive skind : Type := Num | Cat (k : Z).
Record kcol : Type := KCol { kc_kind : skind; kc_bw : R }.
Definition is_num (c : kcol) : bool := match kc_kind c with Num => true | Cat _ => false end.

(** statsmodels: the gaussian kernel, exp(-(Xi - x)^2 / (2 h^2)) / sqrt(2 pi). *)
Definition gaussian (h xi x : R) : ext :=
  emul (Fin (1 / sqrt (2 * PI))) (eexp (ediv (Fin (- (xi - x) ^ 2)) (Fin (h ^ 2 * 2)))).
(** statsmodels: aitchison_aitken, 1 - h at the point itself and otherwise h by one less than
    the number of values that occur in the column [Xi]. *)
Definition aitchison (h : R) (Xi : list R) (xi x : R) : ext :=
  if Reqb xi x then Fin (1 - h) else ediv (Fin h) (Fin (INR (length (nodup Req_EM_T Xi)) - 1)).
Definition kernel (c : kcol) (Xi : list R) (x : R) : list ext :=
  map (fun xi => match kc_kind c with Num => gaussian (kc_bw c) xi x | Cat _ => aitchison (kc_bw c) Xi xi x end) Xi.
(** statsmodels: gpke with tosum=False: for each row the product of the kernels, by the product
    of the bandwidths of the continuous variables. *)
Definition gpke (cols : list kcol) (data : list (list R)) (xs : list R) : list ext :=
  let Kval := map (fun '(j, (c, x)) => kernel c (map (fun row => nth j row 0) data) x)
                  (combine (seq 0 (length cols)) (combine cols xs)) in
  let bws := fold_left Rmult (map kc_bw (filter is_num cols)) 1 in
  map (fun i => ediv (fold_left emul (map (fun K => nth i K NaN) Kval) (Fin 1)) (Fin bws)) (seq 0 (length data)).
(** np.log. *)
Definition npx_log (x : ext) : ext := match x with Fin a => np_log a | PInf => PInf | _ => NaN end.

(** The density, mvkde.py:134-152: the rows have the cells of the targets and then those of the
    constraints. *)
Definition density (cols_t cols_c : list kcol) (members : list (list R)) (xt xc : list R) : res ext :=
  match cols_c with
  | [] =>
      if Nat.leb (length members) (length cols_t) then Err ValueError
      else Ok (npx_log (ediv (esum (gpke cols_t members xt)) (Fin (INR (length members)))))
  | _ =>
      Ok (npx_log (ediv (esum (gpke (cols_t ++ cols_c) members (xt ++ xc)))
                        (esum (gpke cols_c (map (skipn (length cols_t)) members) xc))))
  end.

(** What is asked of the generator for one target. *)
Inductive request : Type := RNormal (mu s : R) | RChoice (p : list R).
(** _simulate_gaussian_kernel and _simulate_aitchison_aitken_kernel, mvkde.py:194-208. *)
Definition ask_for (c : kcol) (xi : R) : res request :=
  match kc_kind c with
  | Num => if Rleb 0 (kc_bw c) then Ok (RNormal xi (kc_bw c)) else Err ValueError
  | Cat k =>
      rbind (rsequence (map (fun s =>
        if Reqb (INR s) xi then Ok (1 - kc_bw c)
        else if (k =? 1)%Z then Err ZeroDivisionError else Ok (kc_bw c / IZR (k - 1))) (seq 0 (Z.to_nat k)))) (fun p =>
      if negb (Rleb (Rabs (fold_left Rplus p 0 - 1)) (1 / 100000000 + 1 / 100000)) then Err AssertionError
      else if forallb (Rleb 0) p then Ok (RChoice p) else Err ValueError)
  end.
(** The draws: [index] of pflip for sample [n], [reply n t] for target [t] of sample [n]. *)
Record draws : Type := Draws { index : nat -> list ext -> nat; reply : nat -> nat -> request -> R }.
(** _simulate_member, mvkde.py:185-192. *)
Definition member (d : draws) (n : nat) (cols_t : list kcol) (row : list R) : res (list R) :=
  rsequence (map (fun '(t, (c, xi)) => rbind (ask_for c xi) (fun q => Ok (reply d n t q)))
                 (combine (seq 0 (length cols_t)) (combine cols_t row))).
Inductive sampled : Type := One (x : list R) | Many (l : list (list R)).
(** The weights of the rows, mvkde.py:167-179. *)
Definition row_weights (cols_t cols_c : list kcol) (members : list (list R)) (xc : list R) : list ext :=
  match cols_c with
  | [] => map (fun _ => Fin 1) members
  | _ => gpke cols_c (map (skipn (length cols_t)) members) xc
  end.
(** The sampler, mvkde.py:165-184; an empty list of weights is refused by numpy. *)
Definition sample (d : draws) (cols_t cols_c : list kcol) (members : list (list R)) (xc : list R) (N : option nat) : res sampled :=
  match members with
  | [] => Err ValueError
  | _ =>
      let weights := row_weights cols_t cols_c members xc in
      let rows := map (firstn (length cols_t)) members in
      let pick := fun i => match nth_error rows i with Some row => Ok row | None => Err IndexError end in
      match N with
      | None =>
          rbind (pflip (index d 0) weights (seq 0 (length weights))) (fun i =>
          rbind (pick i) (fun row => rbind (member d 0 cols_t row) (fun x => Ok (One x))))
      | Some n =>
          rbind (pflip_many (index d) weights (seq 0 (length weights)) n) (fun l =>
          rbind (rsequence (map (fun '(j, i) => rbind (pick i) (fun row => member d j cols_t row)) (combine (seq 0 (length l)) l))) (fun xs =>
          Ok (Many xs)))
      end
  end.

(** A query of the component: the columns by output, mvkde.py:235-250. *)
Definition finite (x : ext) : res R := match x with Fin a => Ok a | _ => Err ValueError end.
Definition finites (l : list ext) : res (list R) := rsequence (map finite l).
Definition columns (spec : dict kcol) (qs : list Z) : res (list kcol) :=
  rsequence (map (fun q => match dget q spec with Some c => Ok c | None => Err ValueError end) qs).
Definition query_density (spec : dict kcol) (members : list (list ext)) (targets constraints : dict ext) : res ext :=
  rbind (columns spec (dkeys targets)) (fun ct =>
  rbind (columns spec (dkeys constraints)) (fun cc =>
  rbind (rsequence (map finites members)) (fun rows =>
  rbind (finites (dvals targets)) (fun xt =>
  rbind (finites (dvals constraints)) (fun xc => density ct cc rows xt xc))))).
Definition query_sample (d : draws) (spec : dict kcol) (N : option nat) (members : list (list ext)) (targets : list Z) (constraints : dict ext) : res sampled :=
  rbind (columns spec targets) (fun ct =>
  rbind (columns spec (dkeys constraints)) (fun cc =>
  rbind (rsequence (map finites members)) (fun rows =>
  rbind (finites (dvals constraints)) (fun xc => sample d ct cc rows xc N)))).
