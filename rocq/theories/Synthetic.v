(** Model of the hand written populations: /repo/src/dummy (fourway.py, twoway.py,
    trollnormal.py, piecewise.py) and /repo/src/uncorrelated (undirected.py, directed.py,
    linear.py, dots.py, xcross.py, ring.py, parabola.py, sin.py, diamond.py, uniformx.py).

    Floats are reals.  Dictionaries are association lists; [None] and the empty dictionary
    of constraints, which the code treats alike, are both [\[\]].  Draws of the generator are
    arguments.  Not modelled: metadata, transition (which only sleeps), and the methods of
    Sin that no other code calls (sin.py:85-164). *)
From Verif Require Export LogSpace.
Local Open Scope R_scope.

(** A python number: an integer or a float. *)
Inductive num : Type := PInt (z : Z) | PFlt (r : R).
Definition val (x : num) : R := match x with PInt z => IZR z | PFlt r => r end.

(** [l\[i\]]: floats do not index lists, negative integers count from the end. *)
Definition item {A} (l : list A) (i : num) : res A :=
  match i with
  | PFlt _ => Err TypeError
  | PInt z =>
      let j := if (z <? 0)%Z then (z + Z.of_nat (length l))%Z else z in
      if (j <? 0)%Z then Err IndexError
      else match nth_error l (Z.to_nat j) with Some a => Ok a | None => Err IndexError end
  end.

(** [d\[k\]]; [None\[k\]] raises TypeError. *)
Definition key {A} (d : dict A) (k : Z) : res A :=
  match dget k d with Some a => Ok a | None => Err KeyError end.
Definition okey {A} (d : option (dict A)) (k : Z) : res A :=
  match d with Some d => key d k | None => Err TypeError end.

(** [d.keys() == l]. *)
Definition keys_are {A} (d : dict A) (l : list Z) : bool :=
  if list_eq_dec Z.eq_dec (dkeys d) l then true else false.

(** np.log of a float. *)
Definition nlog (x : R) : ext := if Rltb 0 x then Fin (ln x) else if Reqb x 0 then NInf else NaN.

(** scipy.stats.norm.logpdf(x, loc=mu, scale=s); a scale that is not positive gives NaN. *)
Definition sp_norm (x mu s : R) : ext :=
  if Rltb 0 s then Fin (- ((x - mu) / s * ((x - mu) / s)) / 2 - ln (2 * PI) / 2 - ln s) else NaN.

(** scipy.stats.uniform(loc, scale).logpdf(x). *)
Definition sp_uniform (loc scale x : R) : ext :=
  if Rltb 0 scale then
    if Rleb loc x && Rleb x (loc + scale) then Fin (- ln scale) else NInf
  else NaN.

(* ------------------------------------------------------------------ *)
(** ** Tables *)

(** fourway.py:32-37. *)
Definition four_probs : list (list R) :=
  [[70 / 100; 10 / 100; 5 / 100; 5 / 100];
   [10 / 100; 80 / 100; 10 / 100; 10 / 100];
   [10 / 100; 15 / 100; 65 / 100; 10 / 100];
   [10 / 100; 5 / 100; 10 / 100; 75 / 100]].

(** FourWay.lookup_quadrant, fourway.py:72-77. *)
Definition quadrant (y0 y1 : R) : res Z :=
  if Rleb 0 y0 && Rleb 0 y1 then Ok 0%Z
  else if Rleb y0 0 && Rleb 0 y1 then Ok 1%Z
  else if Rleb 0 y0 && Rleb y1 0 then Ok 2%Z
  else if Rleb y0 0 && Rleb y1 0 then Ok 3%Z
  else Err ValueError.

(** FourWay.retrieve_y_for_x, fourway.py:80-85. *)
Definition four_center (x : Z) : res (R * R) :=
  if (x =? 0)%Z then Ok (2, 2) else if (x =? 1)%Z then Ok (-2, 2)
  else if (x =? 2)%Z then Ok (2, -2) else if (x =? 3)%Z then Ok (-2, -2) else Err ValueError.

(** The row of the table for the inputs, fourway.py:51-55 and 62-66. *)
Definition four_row (i0 i1 : Z) (inputs : option (dict num)) : res (list R) :=
  rbind (okey inputs i0) (fun y0 =>
  rbind (okey inputs i1) (fun y1 =>
  rbind (quadrant (val y0) (val y1)) (fun regime => item four_probs (PInt regime)))).

(** FourWay.logpdf, fourway.py:58-66. *)
Definition four_logpdf (out i0 i1 : Z) (targets : dict num) (inputs : option (dict num)) : res ext :=
  rbind (key targets out) (fun x =>
  if negb (Rleb 0 (val x) && Rleb (val x) 3) then Ok NInf                          (* 60-61 *)
  else
    rbind (four_row i0 i1 inputs) (fun row =>
    rbind (item row x) (fun p => Ok (nlog p)))).

(** FourWay.simulate, fourway.py:50-56. *)
Definition four_simulate (draw : list ext -> nat) (out i0 i1 : Z) (inputs : option (dict num)) : res (dict num) :=
  rbind (four_row i0 i1 inputs) (fun row =>
  rbind (pflip draw (map Fin row) (seq 0 (length row))) (fun x => Ok [(out, PInt (Z.of_nat x))])).

(** twoway.py:32-35. *)
Definition two_probs : list (list R) := [[9 / 10; 1 / 10]; [3 / 10; 7 / 10]].

(** [int(y)]: truncation towards zero. *)
Definition pyint (y : num) : Z :=
  match y with PInt z => z | PFlt r => if Rleb 0 r then Int_part r else (- Int_part (- r))%Z end.

(** The row of the table, twoway.py:49-52 and 56-60. *)
Definition two_row (i : Z) (inputs : option (dict num)) : res (list R) :=
  rbind (okey inputs i) (fun y =>
  if negb (Reqb (IZR (pyint y)) (val y)) then Err AssertionError
  else if negb (Reqb (val y) 0 || Reqb (val y) 1) then Err AssertionError
  else item two_probs y).

(** TwoWay.logpdf, twoway.py:55-60. *)
Definition two_logpdf (out i : Z) (targets : dict num) (inputs : option (dict num)) : res ext :=
  rbind (okey inputs i) (fun y =>
  if negb (Reqb (IZR (pyint y)) (val y)) then Err AssertionError
  else if negb (Reqb (val y) 0 || Reqb (val y) 1) then Err AssertionError
  else
    rbind (key targets out) (fun x =>
    if Reqb (val x) 0 || Reqb (val x) 1
    then rbind (item two_probs y) (fun row => rbind (item row x) (fun p => Ok (nlog p)))
    else Ok NInf)).

(** TwoWay.simulate, twoway.py:48-53. *)
Definition two_simulate (draw : list ext -> nat) (out i : Z) (inputs : option (dict num)) : res (dict num) :=
  rbind (two_row i inputs) (fun row =>
  rbind (pflip draw (map Fin row) (seq 0 (length row))) (fun x => Ok [(out, PInt (Z.of_nat x))])).

(* ------------------------------------------------------------------ *)
(** ** TrollNormal *)

(** trollnormal.py:59-61. *)
Definition troll_gauss (x mu s : R) : ext :=
  eadd (eadd (Fin (- (ln (2 * PI) / 2))) (eopp (nlog s))) (Fin (- ((x - mu) ^ 2 / (2 * s ^ 2)))).

(** TrollNormal.logpdf, trollnormal.py:52-57, 66-70. *)
Definition troll_logpdf (out i0 i1 : Z) (targets : dict R) (inputs : option (dict R)) : res ext :=
  rbind (key targets out) (fun x =>
  rbind (okey inputs i0) (fun location =>
  rbind (okey inputs i1) (fun a => Ok (troll_gauss x location (Rabs a + 1))))).

(** TrollNormal.simulate, trollnormal.py:45-50; [normal mu s] is what rng.normal(mu, s)
    returns. *)
Definition troll_simulate (normal : R -> R -> R) (out i0 i1 : Z) (inputs : option (dict R)) : res (dict R) :=
  rbind (okey inputs i0) (fun location =>
  rbind (okey inputs i1) (fun a => Ok [(out, normal location (Rabs a + 1))])).

(** TrollNormal.incorporate and unincorporate, trollnormal.py:36-42, on the set of rows. *)
Definition troll_incorporate (r : Z) (rows : list Z) : res (list Z) :=
  if existsb (Z.eqb r) rows then Err AssertionError else Ok (r :: rows).
Definition troll_unincorporate (r : Z) (rows : list Z) : res (list Z) :=
  if existsb (Z.eqb r) rows then Ok (filter (fun a => negb (Z.eqb r a)) rows) else Err AssertionError.

(* ------------------------------------------------------------------ *)
(** ** PieceWise *)

Record piece := Piece { pw_x : Z; pw_z : Z; pw_y : Z; pw_sigma : R; pw_flip : R }.

(** logpdf_normal, piecewise.py:192-196. *)
Definition pw_normal (x mu sigma : R) : res R :=
  rbind (plog sigma) (fun ls =>
  Ok (- ls - / 2 * ln (2 * PI) - (/ 2 * (x - mu) * (x - mu) / (sigma * sigma)))).

(** piecewise.py:101 and 106. *)
Definition pw_logp_z (m : piece) (z : R) : ext :=
  if Reqb z 0 then nlog (pw_flip m) else nlog (1 - pw_flip m).

(** PieceWise.logpdf without constraints, piecewise.py:95-126.  Line 99 binds both [z] and
    [x] to the value of the second output. *)
Definition pw_joint (m : piece) (targets : dict R) (y : R) : res ext :=
  rbind (key targets (pw_z m)) (fun z =>
  rbind (key targets (pw_z m)) (fun x =>                                           (* 99 *)
  rbind (pw_normal x (y + (2 * z - 1)) (pw_sigma m)) (fun logp_x =>
  Ok (eadd (Fin logp_x) (pw_logp_z m z))))).
Definition pw_free (m : piece) (targets : dict R) (y : R) : res ext :=
  if dmem (pw_x m) targets && dmem (pw_z m) targets then pw_joint m targets y      (* 98-102 *)
  else if dmem (pw_z m) targets then                                               (* 104-107 *)
    rbind (key targets (pw_z m)) (fun z => Ok (pw_logp_z m z))
  else if dmem (pw_x m) targets then                                               (* 109-123 *)
    rbind (key targets (pw_x m)) (fun x =>
    rbind (pw_joint m [(pw_x m, x); (pw_z m, 0)] y) (fun l0 =>
    rbind (pw_joint m [(pw_x m, x); (pw_z m, 1)] y) (fun l1 => logsumexp [l0; l1])))
  else Err ValueError.                                                             (* 125 *)

(** PieceWise.logpdf, piecewise.py:90-166; no inputs at all raise AttributeError. *)
Definition pw_logpdf (m : piece) (targets constraints : dict R) (inputs : option (dict R)) : res ext :=
  if match targets with [] => true | _ => false end then Err AssertionError        (* 91 *)
  else match inputs with
  | None => Err AttributeError
  | Some ins =>
      if negb (keys_are ins [pw_y m]) then Err AssertionError                      (* 92 *)
      else
        rbind (key ins (pw_y m)) (fun y =>
        match constraints with
        | [] => pw_free m targets y
        | _ =>
            if keys_are constraints [pw_z m] then                                  (* 128 *)
              if negb (keys_are targets [pw_x m]) then Err AssertionError          (* 129 *)
              else
                rbind (key constraints (pw_z m)) (fun z =>
                rbind (key targets (pw_x m)) (fun x =>
                rbind (pw_free m [(pw_x m, x); (pw_z m, z)] y) (fun lxz =>
                rbind (pw_free m [(pw_z m, z)] y) (fun lz => Ok (esub lxz lz)))))  (* 132-144 *)
            else if keys_are constraints [pw_x m] then                             (* 146 *)
              if negb (keys_are targets [pw_z m]) then Err AssertionError          (* 147 *)
              else
                rbind (key targets (pw_z m)) (fun z =>
                rbind (key constraints (pw_x m)) (fun x =>
                rbind (pw_free m [(pw_x m, x); (pw_z m, z)] y) (fun lxz =>
                rbind (pw_free m [(pw_x m, x)] y) (fun lx => Ok (esub lxz lx)))))  (* 150-162 *)
            else Err ValueError                                                    (* 164 *)
        end)
  end.

(** PieceWise.simulate, piecewise.py:57-88.  [c] is the index that rng.choice(\[0, 1\], p)
    draws and [e] what rng.normal(0, sigma) returns; [targets] is a list of outputs.
    numpy refuses probabilities that are negative, NaN or do not sum to one. *)
Definition coin (draw : list ext -> nat) (p0 p1 : ext) : res R :=
  match p0, p1 with
  | Fin a, Fin b =>
      if Rleb 0 a && Rleb 0 b && Reqb (a + b) 1
      then Ok (INR (draw [p0; p1])) else Err ValueError
  | _, _ => Err ValueError
  end.
Definition pw_simulate (draw : list ext -> nat) (e : R) (m : piece) (targets : list Z) (constraints : dict R)
  (inputs : option (dict R)) : res (dict R) :=
  if match targets with [] => true | _ => false end then Err AssertionError        (* 58 *)
  else match inputs with
  | None => Err AttributeError
  | Some ins =>
      if negb (keys_are ins [pw_y m]) then Err AssertionError                      (* 59 *)
      else
        rbind (key ins (pw_y m)) (fun y =>
        let finish sample :=
          if list_eq_dec Z.eq_dec (zsort (dkeys sample)) (zsort targets) then Ok sample
          else Err AssertionError in                                               (* 87 *)
        match constraints with
        | [] =>
            rbind (coin draw (Fin (pw_flip m)) (Fin (1 - pw_flip m))) (fun z =>    (* 63 *)
            let x := y + (2 * z - 1) + e in                                        (* 64 *)
            finish ((if existsb (Z.eqb (pw_x m)) targets then [(pw_x m, x)] else []) ++
                    (if existsb (Z.eqb (pw_z m)) targets then [(pw_z m, z)] else [])))
        | _ =>
            if keys_are constraints [pw_z m] then                                  (* 71 *)
              if negb (if list_eq_dec Z.eq_dec targets [pw_x m] then true else false) then Err AssertionError
              else rbind (key constraints (pw_z m)) (fun z =>
                finish [(pw_x m, y + (2 * z - 1) + e)])                            (* 72-75 *)
            else if keys_are constraints [pw_x m] then                             (* 77 *)
              if negb (if list_eq_dec Z.eq_dec targets [pw_z m] then true else false) then Err AssertionError
              else
                rbind (pw_logpdf m [(pw_z m, 0)] constraints inputs) (fun l0 =>
                rbind (pw_logpdf m [(pw_z m, 1)] constraints inputs) (fun l1 =>
                rbind (coin draw (eexp l0) (eexp l1)) (fun z => finish [(pw_z m, z)]))) (* 80-83 *)
            else Err ValueError                                                    (* 85 *)
        end)
  end.

(* ------------------------------------------------------------------ *)
(** ** Undirected populations *)

(** What a subclass defines; a method it does not define raises NotImplementedError,
    undirected.py:63-79. *)
Record plane := Plane {
  u_joint : R -> R -> res ext;
  u_marginal : R -> res ext;
  u_conditional : R -> R -> res ext }.

(** UnDirectedXyGpm.logpdf, undirected.py:36-49.  The method that line 44 calls,
    [logpdf_maringal], does not exist. *)
Definition und_logpdf (p : plane) (targets constraints : dict R) (inputs : dict R) : res ext :=
  match inputs with
  | _ :: _ => Err AssertionError                                                   (* 37 *)
  | [] =>
      match constraints with
      | [] =>
          match dvals targets with
          | [x; y] => u_joint p x y                                                (* 39-41 *)
          | z :: _ => Err AttributeError                                           (* 43-44 *)
          | [] => Err IndexError
          end
      | _ =>
          match dvals constraints, dvals targets with
          | [z], [w] => u_conditional p w z                                        (* 46-49 *)
          | _, _ => Err AssertionError
          end
      end
  end.

(** UnDirectedXyGpm.simulate, undirected.py:52-59; [joint] and [cond] are what
    simulate_joint and simulate_conditional return. *)
Fixpoint position (q : Z) (l : list Z) : option nat :=
  match l with
  | [] => None
  | a :: l' => if Z.eqb q a then Some 0%nat else option_map S (position q l')
  end.
Definition und_simulate (joint : res (list R)) (cond : R -> res R) (outputs targets : list Z)
  (constraints inputs : dict R) : res (dict R) :=
  match inputs with
  | _ :: _ => Err AssertionError                                                   (* 53 *)
  | [] =>
      match constraints with
      | [] =>
          rbind joint (fun sample =>
          rsequence (map (fun q =>
            match position q outputs with
            | None => Err ValueError
            | Some i => match nth_error sample i with Some a => Ok (q, a) | None => Err IndexError end
            end) targets))                                                         (* 55-56 *)
      | _ =>
          match dvals constraints, targets with
          | [z], [q] => rbind (cond z) (fun w => Ok [(q, w)])                      (* 57-59 *)
          | _, _ => Err AssertionError
          end
      end
  end.

(** mvnormal.logpdf (mvnormal.py:76-109) at two coordinates, mean zero, unit variances and
    covariance [c], for [c] between -1 and 1: the only case in which the Cholesky
    factorisation succeeds.  Otherwise its fallback is not modelled. *)
Definition mvn2 (x y c : R) : ext :=
  if Rltb (-1) c && Rltb c 1 then
    let det := 1 - c * c in
    let sx := (x - c * y) / det in
    let sy := (y - c * x) / det in
    Fin (- (x * (sx / 2) + y * (sy / 2)) - 2 / 2 * ln (2 * PI) - (ln 1 + ln (sqrt det)))
  else NaN.

(** Linear, linear.py:36-57. *)
Definition lin_joint (noise x y : R) : res ext := Ok (mvn2 x y (1 - noise)).
Definition lin_marginal (z : R) : res ext := Ok (sp_norm z 0 1).
Definition lin_conditional (noise w z : R) : res ext :=
  Ok (sp_norm w ((1 - noise) * z) (sqrt (1 - (1 - noise) ^ 2))).
Definition lin_information (noise : R) : ext :=
  match nlog (1 - (1 - noise) ^ 2) with Fin l => Fin (- (5 / 10) * l) | NInf => PInf | v => v end.
Definition linear (noise : R) : plane := Plane (lin_joint noise) lin_marginal (lin_conditional noise).

(** XCross, xcross.py:34-42; the other densities are not defined. *)
Definition cross_joint (noise x y : R) : res ext :=
  logsumexp [eadd (Fin (ln (5 / 10))) (mvn2 x y (1 - noise));
             eadd (Fin (ln (5 / 10))) (mvn2 x y (-1 + noise))].
Definition xcross (noise : R) : plane :=
  Plane (cross_joint noise) (fun _ => Err NotImplementedError) (fun _ _ => Err NotImplementedError).

(** Dots, dots.py:28-52. *)
Definition dots_joint (noise x y : R) : res ext :=
  logsumexp (map (fun m => eadd (eadd (Fin (ln (25 / 100))) (sp_norm x (fst m) noise)) (sp_norm y (snd m) noise))
    [(-1, -1); (1, -1); (-1, 1); (1, 1)]).
Definition dots_marginal (noise z : R) : res ext :=
  logsumexp (map (fun m => eadd (Fin (ln (5 / 10))) (sp_norm z m noise)) [1; -1]).
Definition dots_conditional (noise w z : R) : res ext := dots_marginal noise z.  (* 51-52 *)
Definition dots (noise : R) : plane := Plane (dots_joint noise) (dots_marginal noise) (dots_conditional noise).
(** Dots.simulate_joint, dots.py:31-35; [n] is rng.randint(4), [normal] the two draws. *)
Definition dots_simulate (n : nat) (normal : bool -> R -> R -> R) (noise : R) : res (list R) :=
  match nth_error [(-1, -1); (1, -1); (-1, 1); (1, 1)] n with
  | Some m => Ok [normal false (fst m) noise; normal true (snd m) noise]
  | None => Err IndexError
  end.

(** Ring.simulate_joint, ring.py:25-30; no density is defined. *)
Definition ring_simulate (angle distance : R) : list R := [cos angle * distance; sin angle * distance].

(* ------------------------------------------------------------------ *)
(** ** Directed populations *)

(** UniformX, uniformx.py:39-50; [u] is rng.uniform(low, high). *)
Definition unx_logpdf (low high : R) (out : Z) (targets constraints inputs : dict R) : res ext :=
  match constraints, inputs with
  | [], [] => if keys_are targets [out] then rbind (key targets out) (fun x => Ok (sp_uniform low (high - low) x))
              else Err AssertionError
  | _, _ => Err AssertionError
  end.

(** The density of a variable given another: the checks of parabola.py:60-64 and
    sin.py:61-65. *)
Definition given (f : R -> R -> res ext) (out inp : Z) (targets constraints inputs : dict R) : res ext :=
  if negb (keys_are targets [out]) then Err AssertionError
  else if negb (keys_are inputs [inp]) then Err AssertionError
  else match constraints with
  | _ :: _ => Err AssertionError
  | [] => rbind (key inputs inp) (fun x => rbind (key targets out) (fun y => f x y))
  end.

(** ParabolaY, parabola.py:46-69.  [logsumexp] here is scipy's; on these two numbers it
    agrees with that of cgpm. *)
Definition para_density (noise x y : R) : res ext :=
  logsumexp [eadd (Fin (ln (5 / 10))) (sp_uniform (- noise) (2 * noise) (y - x ^ 2));
             eadd (Fin (ln (5 / 10))) (sp_uniform (- noise) (2 * noise) (- y - x ^ 2))].
Definition para_sample (u e x : R) : R := if Rltb u (5 / 10) then x ^ 2 + e else - (x ^ 2 + e).

(** SinY, sin.py:48-69. *)
Definition sin_density (noise x y : R) : res ext :=
  Ok (if Rltb (cos x) 0 then sp_uniform 0 noise (y - cos x) else sp_uniform 0 noise (cos x - y)).
Definition sin_sample (e x : R) : R := if Rltb (cos x) 0 then cos x + e else cos x - e.

(** DiamondY.simulate, diamond.py:40-56; logpdf raises NotImplementedError (58-59). *)
Definition diamond_sample (slope e x : R) : res R :=
  if Rltb x 0 && Rltb slope (5 / 10) then Ok (Rmax (- x - 1) (x + 1 - e))
  else if Rltb x 0 && Rltb (5 / 10) slope then Ok (Rmin (x + 1) (- x - 1 + e))
  else if Rltb 0 x && Rltb slope (5 / 10) then Ok (Rmin (- x + 1) (x - 1 + e))
  else if Rltb 0 x && Rltb (5 / 10) slope then Ok (Rmax (x - 1) (- x + 1 - e))
  else Err ValueError.

(** DirectedXyGpm.logpdf and simulate, directed.py:49-57: the arguments are passed by
    position, so that the inputs arrive as constraints and the number of samples as
    inputs.  An argument of the network is nothing, a dictionary or a number. *)
Inductive arg : Type := NoArg | DictArg (d : dict R) | NumArg (n : nat).
Definition dir_logpdf (net : dict R -> arg -> arg -> res ext) (targets : dict R) (constraints inputs : arg) : res ext :=
  net targets inputs NoArg.
Definition dir_simulate {S} (net : list Z -> arg -> arg -> arg -> S) (targets : list Z) (constraints inputs N : arg) : S :=
  net targets inputs N NoArg.
