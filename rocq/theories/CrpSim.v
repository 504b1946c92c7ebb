(** Model of the CRP simulators of /repo/src/utils/general.py.

    The random generator is the argument [draws]: [draws i] is the generator's
    behaviour at the i-th loop iteration (see [draw_ok] in LogSpace). *)
From Verif Require Export LogSpace Crp Validation.
Local Open Scope R_scope.

(** Counts as float weights. *)
Definition cnt_weights (Nk : list Z) : list R := map IZR Nk.

(** [Nk[k] += 1]. *)
Fixpoint incr_nth (k : nat) (l : list Z) : list Z :=
  match l, k with
  | [], _ => []
  | c :: l', O => (c + 1)%Z :: l'
  | c :: l', S k' => c :: incr_nth k' l'
  end.

(** The loop of simulate_crp, general.py:223-237; [n] iterations remain and
    the current index is [i]. *)
Fixpoint simulate_crp_loop (draws : nat -> list ext -> nat) (alpha : R)
  (n : nat) (i : nat) (Nk : list Z) : res (list Z * list Z) :=
  match n with
  | O => Ok ([], Nk)
  | S n' =>
      let K := length Nk in
      let ps := map (fun w => w / (INR i - 1 + alpha)) (cnt_weights Nk ++ [alpha]) in (* 225-229 *)
      rbind (pflip (draws i) (map Fin ps) (seq 0 (length ps))) (fun a =>             (* 230 *)
      rbind (if (a =? K)%nat then Ok (Nk ++ [1%Z])
             else if (a <? K)%nat then Ok (incr_nth a Nk)
             else Err ValueError) (fun Nk' =>                                        (* 231-236 *)
      rbind (simulate_crp_loop draws alpha n' (S i) Nk') (fun '(rest, Nk'') =>
      Ok (Z.of_nat a :: rest, Nk''))))
  end.

(** simulate_crp, general.py:213-246. *)
Definition simulate_crp (draws : nat -> list ext -> nat) (N : Z) (alpha : R) : res (list Z) :=
  if ((0 <? N)%Z && Rltb 0 alpha) then                                               (* 218 *)
    rbind (simulate_crp_loop draws alpha (Z.to_nat N - 1) 1 [1%Z]) (fun '(rest, Nk) =>
    let partition := 0%Z :: rest in
    match zmax_list partition with
    | Some m =>
        if (m + 1 =? Z.of_nat (length Nk))%Z                                         (* 239 *)
           && (Z.of_nat (length partition) =? N)%Z                                   (* 240 *)
           && (fold_right Z.add 0 Nk =? N)%Z                                         (* 241 *)
        then Ok partition else Err AssertionError
    | None => Err ValueError
    end)
  else Err AssertionError.

(** Python list indexing, with negative indices. *)
Definition pyidx (n : nat) (i : Z) : option nat :=
  if (0 <=? i)%Z then (if (i <? Z.of_nat n)%Z then Some (Z.to_nat i) else None)
  else if (0 <=? Z.of_nat n + i)%Z then Some (Z.to_nat (Z.of_nat n + i)) else None.

(** [l[i]]. *)
Definition pyget (l : list Z) (i : Z) : res Z :=
  match pyidx (length l) i with
  | Some k => Ok (nth k l 0%Z)
  | None => Err IndexError
  end.

Fixpoint set_nth (k : nat) (v : Z) (l : list Z) : list Z :=
  match l, k with
  | [], _ => []
  | _ :: l', O => v :: l'
  | x :: l', S k' => x :: set_nth k' v l'
  end.

(** [l[i] = v]. *)
Definition pyset (l : list Z) (i v : Z) : res (list Z) :=
  match pyidx (length l) i with
  | Some k => Ok (set_nth k v l)
  | None => Err IndexError
  end.

(** [friends.get(cust, [cust])] with the dictionary of general.py:262: the last
    block containing the customer. *)
Definition friends (Cd : list (list Z)) (cust : Z) : list Z :=
  match find (zmem cust) (rev Cd) with Some b => b | None => [cust] end.

(** [all(Z[f] == -1 for f in fs)], general.py:270. *)
Fixpoint all_unassigned (Z : list Z) (fs : list BinNums.Z) : res bool :=
  match fs with
  | [] => Ok true
  | f :: fs' => rbind (pyget Z f) (fun v => if (v =? -1)%Z then all_unassigned Z fs' else Ok false)
  end.

(** The indices of the customers at table [t], general.py:274. *)
Definition custs_at (Z : list Z) (t : BinNums.Z) : list BinNums.Z :=
  map fst (filter (fun iz => (snd iz =? t)%Z)
             (combine (map Z.of_nat (seq 0 (length Z))) Z)).

(** [prob_table[t]], general.py:272-281. *)
Definition prob_table (Cd : list (list Z)) (Ci : list (Z * Z)) (Rd : rdeps) (Ri : rinds)
  (Z : list Z) (fs : list BinNums.Z) (t : BinNums.Z) : BinNums.Z :=
  let t_custs := custs_at Z t in
  if forallb (fun tc => forallb (fun f => check_compatible_customers Ci Ri Rd f tc) fs) t_custs
  then BinInt.Z.of_nat (length t_custs) else 0%Z.

(** [for f in fs: Z[f] = assignment], general.py:285-286. *)
Fixpoint assign_all (Z : list Z) (fs : list BinNums.Z) (v : BinNums.Z) : res (list BinNums.Z) :=
  match fs with
  | [] => Ok Z
  | f :: fs' => rbind (pyset Z f v) (fun Z' => assign_all Z' fs' v)
  end.

(** One iteration of the loop over customers, general.py:265-286. *)
Definition constrained_step (draw : list ext -> nat) (alpha : R)
  (Cd : list (list Z)) (Ci : list (Z * Z)) (Rd : rdeps) (Ri : rinds)
  (Z : list Z) (cust : BinNums.Z) : res (list BinNums.Z) :=
  rbind (pyget Z cust) (fun z =>
  if (-1 <? z)%Z then Ok Z                                                     (* 267-268 *)
  else
    let fs := friends Cd cust in
    rbind (all_unassigned Z fs) (fun ok =>
    if negb ok then Err AssertionError else                                    (* 270 *)
    match zmax_list Z with
    | None => Err ValueError
    | Some mz =>
        let K := Z.to_nat (mz + 1) in
        let pt := map (fun t => IZR (prob_table Cd Ci Rd Ri Z fs (BinInt.Z.of_nat t))) (seq 0 K)
                  ++ [alpha] in                                                (* 271-283 *)
        rbind (pflip draw (map Fin pt) (seq 0 (length pt))) (fun a =>          (* 284 *)
        assign_all Z fs (BinInt.Z.of_nat a))
    end)).

Fixpoint constrained_loop (draws : nat -> list ext -> nat) (alpha : R)
  (Cd : list (list Z)) (Ci : list (Z * Z)) (Rd : rdeps) (Ri : rinds)
  (custs : list nat) (Z : list Z) : res (list BinNums.Z) :=
  match custs with
  | [] => Ok Z
  | c :: custs' =>
      rbind (constrained_step (draws c) alpha Cd Ci Rd Ri Z (BinInt.Z.of_nat c)) (fun Z' =>
      constrained_loop draws alpha Cd Ci Rd Ri custs' Z')
  end.

(** simulate_crp_constrained, general.py:248-291. *)
Definition simulate_crp_constrained (draws : nat -> list ext -> nat) (N : Z) (alpha : R)
  (Cd : list (list Z)) (Ci : list (Z * Z)) (Rd : rdeps) (Ri : rinds) : res (list Z) :=
  rbind (validate_crp_constrained_input N Cd Ci Rd Ri) (fun _ =>               (* 255 *)
  if ((0 <? N)%Z && Rltb 0 alpha) then                                         (* 256 *)
    rbind (constrained_loop draws alpha Cd Ci Rd Ri (seq 0 (Z.to_nat N))
             (repeat (-1)%Z (Z.to_nat N))) (fun Z =>
    if forallb (fun t => (0 <=? t)%Z && (t <? N)%Z) Z then                     (* 289 *)
      rbind (validate_crp_constrained_partition (pyget Z) Cd Ci Rd Ri) (fun v =>
      if v then Ok Z else Err AssertionError)                                  (* 290 *)
    else Err AssertionError)
  else Err AssertionError).

(** get_crp_constrained_num_effective, general.py:358-370. *)
Definition num_effective (N : Z) (Cd : list (list Z)) : res Z :=
  let nb := Z.of_nat (length Cd) in
  let nc := fold_right Z.add 0%Z (map (fun b => Z.of_nat (length b)) Cd) in
  if (nc <=? N)%Z then if (nb <=? N)%Z then Ok (N - nc + nb)%Z else Err AssertionError
  else Err AssertionError.

(** Assign the blocks, general.py:319-323. *)
Fixpoint assign_blocks (Cd : list (list Z)) (crp_block : list Z) (i : nat)
  (partition : list Z) : res (list Z) :=
  match Cd with
  | [] => Ok partition
  | block :: Cd' =>
      match nth_error crp_block i with
      | None => Err IndexError
      | Some a => rbind (assign_all partition block a) (fun p =>
                  assign_blocks Cd' crp_block (S i) p)
      end
  end.

(** Assign the unconstrained customers, general.py:326-330; an exhausted
    iterator raises StopIteration (here RuntimeError). *)
Fixpoint fill_rest (partition unused : list Z) : res (list Z) :=
  match partition with
  | [] => Ok []
  | a :: p' =>
      if (a =? -1)%Z then
        match unused with
        | [] => Err RuntimeError
        | u :: unused' => rbind (fill_rest p' unused') (fun r => Ok (u :: r))
        end
      else rbind (fill_rest p' unused) (fun r => Ok (a :: r))
  end.

(** simulate_crp_constrained_dependent, general.py:293-332. *)
Definition simulate_crp_constrained_dependent (draws : nat -> list ext -> nat) (N : Z)
  (alpha : R) (Cd : list (list Z)) : res (list Z) :=
  rbind (validate_dependency_constraints (Some N) Cd []) (fun _ =>
  if ((0 <? N)%Z && Rltb 0 alpha) then
    rbind (num_effective N Cd) (fun ne =>
    rbind (simulate_crp draws ne alpha) (fun crp_block =>
    rbind (assign_blocks Cd crp_block 0 (repeat (-1)%Z (Z.to_nat N))) (fun p =>
    fill_rest p (skipn (length Cd) crp_block))))
  else Err AssertionError).

(** [counts[t] += 1] of a defaultdict. *)
Definition count_incr (t : Z) (counts : dict Z) : dict Z :=
  dset t (match dget t counts with Some c => c + 1 | None => 1 end)%Z counts.

(** get_crp_constrained_partition_counts, general.py:373-394. *)
Fixpoint block_counts (Zm : dict Z) (Cd : list (list Z)) (counts : dict Z) : res (dict Z) :=
  match Cd with
  | [] => Ok counts
  | [] :: _ => Err IndexError                                          (* 385 *)
  | (c :: _) :: Cd' =>
      match dget c Zm with
      | None => Err KeyError
      | Some t => block_counts Zm Cd' (count_incr t counts)
      end
  end.
Definition partition_counts (Zm : dict Z) (Cd : list (list Z)) : res (dict Z) :=
  rbind (block_counts Zm Cd []) (fun counts =>
  Ok (fold_left (fun acc ct => if zmem (fst ct) (concat Cd) then acc
                               else count_incr (snd ct) acc) Zm counts)).

(** Indexing of a dictionary. *)
Definition dindex (d : dict Z) (k : Z) : res Z :=
  match dget k d with Some v => Ok v | None => Err KeyError end.

(** logp_crp_constrained_dependent, general.py:335-355. *)
Definition logp_crp_constrained_dependent (lgam : R -> R) (Zm : dict Z) (alpha : R)
  (Cd : list (list Z)) : res ext :=
  rbind (validate_crp_constrained_partition (dindex Zm) Cd [] [] []) (fun v =>
  if negb v then Ok NInf                                               (* 342-343 *)
  else if Rltb 0 alpha then                                            (* 345 *)
    rbind (num_effective (Z.of_nat (length Zm)) Cd) (fun ne =>
    rbind (partition_counts Zm Cd) (fun counts =>
    if (fold_right Z.add 0%Z (dvals counts) =? ne)%Z                   (* 353 *)
    then logp_crp lgam ne (dvals counts) alpha
    else Err AssertionError))
  else Err AssertionError).
