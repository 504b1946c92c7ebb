(** Model of how the components outside of CrossCat are saved and rebuilt:
    /repo/src/regressions/linreg.py:60-92, 171-188, 339-364, /repo/src/regressions/ols.py:40-68,
    132-149, 215-252, /repo/src/regressions/forest.py:39-64, 141-155, 231-271,
    /repo/src/kde/mvkde.py:42-91, 273-279, 288-314, /repo/src/knn/mvknn.py:62-93, 273-281,
    290-320, 375-402 and /repo/src/factor/factor.py:76-132, 341-370, and of the passage of the
    metadata through JSON.

    Simplifications: of the statistical arguments only the number of categories is kept; each
    type has its arguments; the latent dimension is a natural number; a value of another type
    than expected is refused with TypeError where it is read; nothing shares memory. *)
From Verif Require Export Holders.
From Coq Require Import String DecimalString.
From Coq Require Import List ZArith Reals Bool.
Import ListNotations.
Local Open Scope Z_scope.

(* ------------------------------------------------------------------ *)
(** ** Values and JSON *)

(** Python's values as far as metadata have them; [O] are the regressors of scikit-learn.  A
    tuple is a list. *)
Inductive key : Type := Kint (z : Z) | Kstr (s : string).
Inductive pyv (O : Type) : Type :=
  | Pnone | Pint (z : Z) | Pnum (x : ext) | Pstr (s : string)
  | Plist (l : list (pyv O)) | Pdict (d : list (key * pyv O)) | Pobj (o : O).
Arguments Pnone {O}. Arguments Pint {O}. Arguments Pnum {O}. Arguments Pstr {O}. Arguments Plist {O}. Arguments Pdict {O}. Arguments Pobj {O}.

Definition key_eqb (a b : key) : bool :=
  match a, b with Kint x, Kint y => x =? y | Kstr x, Kstr y => String.eqb x y | _, _ => false end.
(** [str(i)] and [int(s)], linreg.py:361-362. *)
Definition decimal (z : Z) : string := NilZero.string_of_int (Z.to_int z).
Definition parse (s : string) : res Z :=
  match NilZero.int_of_string s with Some i => Ok (Z.of_int i) | None => Err ValueError end.
Definition key_int (k : key) : res Z := match k with Kint z => Ok z | Kstr s => parse s end.
Definition text (k : key) : string := match k with Kint z => decimal z | Kstr s => s end.

(** The last entry of a key. *)
Fixpoint slast {A} (s : string) (d : list (string * A)) : option A :=
  match d with
  | [] => None
  | (t, v) :: d' => match slast s d' with Some w => Some w | None => if String.eqb s t then Some v else None end
  end.

Section Json.
  Variable O : Type.
  (** The order in which a dictionary with the given keys is walked. *)
  Variable order : list string -> list string.
  Definition as_dict (d : list (string * pyv O)) : list (key * pyv O) :=
    flat_map (fun s => match slast s d with Some v => [(Kstr s, v)] | None => [] end)
             (order (nodup string_dec (map fst d))).
  (** [json.loads(json.dumps(v))], test_mvkde.py:396-397: keys become strings, tuples lists;
      NaN and infinities are written as such; objects raise TypeError. *)
  Fixpoint json (v : pyv O) : res (pyv O) :=
    match v with
    | Plist l =>
        rbind ((fix go l := match l with
                            | [] => Ok []
                            | x :: l' => rbind (json x) (fun y => rbind (go l') (fun r => Ok (y :: r)))
                            end) l) (fun r => Ok (Plist r))
    | Pdict d =>
        rbind ((fix go d := match d with
                            | [] => Ok []
                            | (k, x) :: d' => rbind (json x) (fun y => rbind (go d') (fun r => Ok ((text k, y) :: r)))
                            end) d) (fun r => Ok (Pdict (as_dict r)))
    | Pobj _ => Err TypeError
    | _ => Ok v
    end.
End Json.

(** [d\[s\]], and [d.get(s)]. *)
Definition look {O} (s : string) (d : list (key * pyv O)) : option (pyv O) :=
  option_map snd (find (fun e => key_eqb (Kstr s) (fst e)) d).
Definition items {O} (v : pyv O) : res (list (key * pyv O)) := match v with Pdict d => Ok d | _ => Err TypeError end.
Definition pget {O} (s : string) (v : pyv O) : res (pyv O) :=
  rbind (items v) (fun d => match look s d with Some x => Ok x | None => Err KeyError end).
Definition pget_or {O A} (s : string) (f : pyv O -> res A) (default : A) (v : pyv O) : res A :=
  rbind (items v) (fun d => match look s d with Some x => f x | None => Ok default end).
Definition as_int {O} (v : pyv O) : res Z := match v with Pint z => Ok z | _ => Err TypeError end.
Definition as_num {O} (v : pyv O) : res ext := match v with Pnum x => Ok x | _ => Err TypeError end.
Definition as_str {O} (v : pyv O) : res string := match v with Pstr s => Ok s | _ => Err TypeError end.
Definition as_list {O A} (f : pyv O -> res A) (v : pyv O) : res (list A) :=
  match v with Plist l => rsequence (map f l) | _ => Err TypeError end.
(** [OrderedDict(pairs)]. *)
Definition of_items {A} (l : list (Z * A)) : dict A := fold_left (fun d e => dset (fst e) (snd e) d) l [].

(** Lists of numbers, statistical types and arguments. *)
Definition ints {O} (l : list Z) : pyv O := Plist (map Pint l).
Definition nums {O} (l : list ext) : pyv O := Plist (map Pnum l).
Definition strs {O} (l : list string) : pyv O := Plist (map Pstr l).
Definition statarg {O} (a : option Z) : pyv O :=
  match a with None => Pdict [] | Some k => Pdict [(Kstr "k", Pint k)] end.
Definition as_statarg {O} (v : pyv O) : res (option Z) :=
  pget_or "k" (fun x => rbind (as_int x) (fun k => Ok (Some k))) None v.
Definition factory {O} (module cls : string) : pyv O := strs [module; cls].

(** [{rowid: value}] and its reading with [int] of the keys, linreg.py:361-363. *)
Definition by_row {O A} (f : A -> pyv O) (d : dict A) : pyv O := Pdict (map (fun e => (Kint (fst e), f (snd e))) d).
Definition of_row {O A} (f : pyv O -> res A) (v : pyv O) : res (dict A) :=
  rbind (items v) (fun d =>
  rbind (rsequence (map (fun e => rbind (key_int (fst e)) (fun k => rbind (f (snd e)) (fun x => Ok (k, x)))) d)) (fun l =>
  Ok (of_items l))).
(** [data.items()] and [OrderedDict(data)]. *)
Definition pairs {O} (d : dict (list ext)) : pyv O := Plist (map (fun e => Plist [Pint (fst e); nums (snd e)]) d).
Definition of_pair {O} (v : pyv O) : res (Z * list ext) :=
  match v with
  | Plist [r; x] => rbind (as_int r) (fun r => rbind (as_list as_num x) (fun x => Ok (r, x)))
  | _ => Err TypeError
  end.
Definition of_pairs {O} (v : pyv O) : res (dict (list ext)) := rbind (as_list of_pair v) (fun l => Ok (of_items l)).

(** The rows of a regression, linreg.py:344 and 361-365, ols.py:220 and 246-250, forest.py:236
    and 267-271. *)
Definition save_rows {O T} (f : T -> pyv O) (w : rows T) : pyv O :=
  Pdict [(Kstr "x", by_row f (w_x w)); (Kstr "Y", by_row nums (w_Y w))].
Definition load_rows {O T} (f : pyv O -> res T) (m : pyv O) : res (rows T) :=
  rbind (pget "data" m) (fun data =>
  rbind (rbind (pget "x" data) (of_row f)) (fun x =>
  rbind (rbind (pget "Y" data) (of_row (as_list as_num))) (fun Y =>
  rbind (rbind (pget "N" m) as_int) (fun N =>
  Ok (Rows x Y N))))).

(* ------------------------------------------------------------------ *)
(** ** Linear regressions *)

(** The type of a predictor for _predictor_count, linreg.py:263-276, ols.py:174-186; [numeric]
    says which statistical types are. *)
Definition stypes (numeric : string -> bool) (types : list string) (args : list (option Z)) : list stype :=
  map (fun '(t, a) => if numeric t then Numeric else match a with Some k => Categories k | None => Neither end)
      (combine types args).
(** get_distargs, linreg.py:180-188, ols.py:141-149. *)
Definition reg_distargs {O} (types : list string) (args : list (option Z)) (g : reg) : pyv O :=
  Pdict [(Kstr "inputs", Pdict [(Kstr "stattypes", strs types); (Kstr "statargs", Plist (map statarg args))]);
         (Kstr "inputs_discrete", by_row Pint (g_disc g)); (Kstr "p", Pint (g_p g))].
Definition types_of {O} (side : string) (m : pyv O) : res (list string * list (option Z)) :=
  rbind (pget "distargs" m) (fun d => rbind (pget side d) (fun i =>
  rbind (rbind (pget "stattypes" i) (as_list as_str)) (fun types =>
  rbind (rbind (pget "statargs" i) (as_list as_statarg)) (fun args => Ok (types, args))))).

(** LinearRegression. *)
Record linreg : Type := Linreg { lr_types : list string; lr_args : list (option Z); lr_reg : reg;
  lr_a : ext; lr_b : ext; lr_mu : list ext; lr_V : list (list ext); lr_rows : rows ext }.
(** [np.zeros(p)] and [np.eye(p)]. *)
Definition zeros (p : Z) : list ext := repeat (Fin 0) (Z.to_nat p).
Definition eye (p : Z) : list (list ext) :=
  map (fun i => map (fun j => if Nat.eqb i j then Fin 1 else Fin 0) (seq 0 (Z.to_nat p))) (seq 0 (Z.to_nat p)).
(** __init__, linreg.py:60-92; [hypers] are those given. *)
Definition linreg_init (numeric : string -> bool) (outputs inputs : list Z) (types : list string) (args : list (option Z))
    (a b : option ext) (mu : option (list ext)) (V : option (list (list ext))) : res linreg :=
  rbind (reg_init linreg_count outputs inputs (stypes numeric types args)) (fun g =>
  Ok (Linreg types args g (match a with Some a => a | None => Fin 1 end) (match b with Some b => b | None => Fin 1 end)
        (match mu with Some mu => mu | None => zeros (g_p g) end) (match V with Some V => V | None => eye (g_p g) end) rows0)).
(** to_metadata, linreg.py:339-348, with get_hypers, linreg.py:171-172. *)
Definition linreg_save {O} (c : linreg) : pyv O :=
  Pdict [(Kstr "outputs", ints [g_out (lr_reg c)]); (Kstr "inputs", ints (g_in (lr_reg c)));
         (Kstr "N", Pint (w_N (lr_rows c))); (Kstr "data", save_rows Pnum (lr_rows c));
         (Kstr "distargs", reg_distargs (lr_types c) (lr_args c) (lr_reg c));
         (Kstr "hypers", Pdict [(Kstr "a", Pnum (lr_a c)); (Kstr "b", Pnum (lr_b c))]);
         (Kstr "factory", factory "cgpm.regressions.linreg" "LinearRegression")].
Definition some_of {A} (r : res A) : res (option A) := rbind r (fun a => Ok (Some a)).
(** from_metadata, linreg.py:350-364. *)
Definition linreg_load {O} (numeric : string -> bool) (m : pyv O) : res linreg :=
  rbind (rbind (pget "outputs" m) (as_list as_int)) (fun outputs =>
  rbind (rbind (pget "inputs" m) (as_list as_int)) (fun inputs =>
  rbind (pget "hypers" m) (fun hypers =>
  rbind (types_of "inputs" m) (fun '(types, args) =>
  rbind (pget_or "a" (fun v => some_of (as_num v)) None hypers) (fun a =>
  rbind (pget_or "b" (fun v => some_of (as_num v)) None hypers) (fun b =>
  rbind (pget_or "mu" (fun v => some_of (as_list as_num v)) None hypers) (fun mu =>
  rbind (pget_or "V" (fun v => some_of (as_list (as_list as_num) v)) None hypers) (fun V =>
  rbind (linreg_init numeric outputs inputs types args a b mu V) (fun c =>
  rbind (load_rows as_num m) (fun w =>
  Ok (Linreg (lr_types c) (lr_args c) (lr_reg c) (lr_a c) (lr_b c) (lr_mu c) (lr_V c) w))))))))))).

(** OrdinaryLeastSquares. *)
Record ols (O : Type) : Type := Ols { ol_types : list string; ol_args : list (option Z); ol_reg : reg;
  ol_noise : ext; ol_regressor : O; ol_rows : rows ext }.
Arguments Ols {O}. Arguments ol_types {O}. Arguments ol_args {O}. Arguments ol_reg {O}. Arguments ol_noise {O}. Arguments ol_regressor {O}. Arguments ol_rows {O}.
(** __init__, ols.py:40-68; [fresh] is a new regressor of scikit-learn. *)
Definition ols_init {O} (fresh : O) (numeric : string -> bool) (outputs inputs : list Z) (types : list string) (args : list (option Z))
    (noise : option ext) (regressor : option O) : res (ols O) :=
  rbind (reg_init ols_count outputs inputs (stypes numeric types args)) (fun g =>
  Ok (Ols types args g (match noise with Some s => s | None => Fin 1 end) (match regressor with Some r => r | None => fresh end) rows0)).
(** to_metadata, ols.py:215-232; [dump] is base64 of the pickle. *)
Definition ols_save {O} (dump : O -> string) (c : ols O) : pyv O :=
  Pdict [(Kstr "outputs", ints [g_out (ol_reg c)]); (Kstr "inputs", ints (g_in (ol_reg c)));
         (Kstr "N", Pint (w_N (ol_rows c))); (Kstr "data", save_rows Pnum (ol_rows c));
         (Kstr "distargs", reg_distargs (ol_types c) (ol_args c) (ol_reg c));
         (Kstr "params", Pdict [(Kstr "noise", Pnum (ol_noise c)); (Kstr "regressor_binary", Pstr (dump (ol_regressor c)))]);
         (Kstr "factory", factory "cgpm.regressions.ols" "OrdinaryLeastSquares")].
(** [m\['params'\]\[s\] = o]: an assignment into the metadata themselves. *)
Definition assign {O} (s : string) (o : O) (params : pyv O) : pyv O :=
  match params with Pdict d => Pdict (filter (fun e => negb (key_eqb (Kstr s) (fst e))) d ++ [(Kstr s, Pobj o)]) | v => v end.
Definition assign_param {O} (s : string) (o : O) (m : pyv O) : pyv O :=
  match m with
  | Pdict d => Pdict (map (fun e => if key_eqb (Kstr "params") (fst e) then (fst e, assign s o (snd e)) else e) d)
  | v => v
  end.
Definition as_obj {O} (v : pyv O) : res O := match v with Pobj o => Ok o | _ => Err TypeError end.
(** from_metadata, ols.py:234-251: the metadata as they are left, and the component; [undump]
    undoes base64 and pickle. *)
Definition ols_load {O} (undump : string -> res O) (fresh : O) (numeric : string -> bool) (m : pyv O) : pyv O * res (ols O) :=
  match rbind (pget "params" m) (fun p => rbind (pget "regressor_binary" p) (fun s => rbind (as_str s) undump)) with
  | Err e => (m, Err e)
  | Ok o =>
      let m' := assign_param "regressor" o m in
      (m', rbind (rbind (pget "outputs" m') (as_list as_int)) (fun outputs =>
           rbind (rbind (pget "inputs" m') (as_list as_int)) (fun inputs =>
           rbind (pget "params" m') (fun params =>
           rbind (types_of "inputs" m') (fun '(types, args) =>
           rbind (pget_or "noise" (fun v => some_of (as_num v)) None params) (fun noise =>
           rbind (pget_or "regressor" (fun v => some_of (as_obj v)) None params) (fun regressor =>
           rbind (ols_init fresh numeric outputs inputs types args noise regressor) (fun c =>
           rbind (load_rows as_num m') (fun w =>
           Ok (Ols (ol_types c) (ol_args c) (ol_reg c) (ol_noise c) (ol_regressor c) w))))))))))
  end.

(* ------------------------------------------------------------------ *)
(** ** Random forest *)
Record rforest (O : Type) : Type := Rforest { rf_types : list string; rf_forest : forest; rf_alpha : ext; rf_regressor : O; rf_state : fstate }.
Arguments Rforest {O}. Arguments rf_types {O}. Arguments rf_forest {O}. Arguments rf_alpha {O}. Arguments rf_regressor {O}. Arguments rf_state {O}.
(** __init__, forest.py:39-64, with the number of categories in [distargs]. *)
Definition rforest_init {O} (fresh : O) (outputs inputs : list Z) (types : list string) (k : Z)
    (alpha : option ext) (regressor : option O) : res (rforest O) :=
  match outputs with
  | [o] =>
      match inputs with
      | [] => Err AssertionError
      | _ =>
          if zmem o inputs then Err AssertionError
          else if negb (Nat.eqb (length types) (length inputs)) then Err AssertionError
          else let g := Forest o inputs k (Z.of_nat (length types)) in
               Ok (Rforest types g (match alpha with Some a => a | None => Fin (1 / 10) end)
                     (match regressor with Some r => r | None => fresh end) (forest0 g))
      end
  | _ => Err AssertionError
  end.
(** to_metadata, forest.py:231-250. *)
Definition rforest_save {O} (dump : O -> string) (c : rforest O) : pyv O :=
  Pdict [(Kstr "outputs", ints [o_out (rf_forest c)]); (Kstr "inputs", ints (o_in (rf_forest c)));
         (Kstr "N", Pint (w_N (f_rows (rf_state c)))); (Kstr "data", save_rows Pint (f_rows (rf_state c)));
         (Kstr "counts", ints (f_counts (rf_state c)));
         (Kstr "distargs", Pdict [(Kstr "inputs", Pdict [(Kstr "stattypes", strs (rf_types c))]);
                                  (Kstr "k", Pint (o_k (rf_forest c))); (Kstr "p", Pint (o_p (rf_forest c)))]);
         (Kstr "hypers", Pdict []);
         (Kstr "params", Pdict [(Kstr "alpha", Pnum (rf_alpha c)); (Kstr "forest_binary", Pstr (dump (rf_regressor c)))]);
         (Kstr "factory", factory "cgpm.regressions.forest" "RandomForest")].
(** from_metadata, forest.py:251-271. *)
Definition rforest_load {O} (undump : string -> res O) (fresh : O) (m : pyv O) : pyv O * res (rforest O) :=
  match rbind (pget "params" m) (fun p => rbind (pget "forest_binary" p) (fun s => rbind (as_str s) undump)) with
  | Err e => (m, Err e)
  | Ok o =>
      let m' := assign_param "forest" o m in
      (m', rbind (rbind (pget "outputs" m') (as_list as_int)) (fun outputs =>
           rbind (rbind (pget "inputs" m') (as_list as_int)) (fun inputs =>
           rbind (pget "params" m') (fun params =>
           rbind (pget "distargs" m') (fun d =>
           rbind (rbind (pget "inputs" d) (fun i => rbind (pget "stattypes" i) (as_list as_str))) (fun types =>
           rbind (rbind (pget "k" d) as_int) (fun k =>
           rbind (pget_or "alpha" (fun v => some_of (as_num v)) None params) (fun alpha =>
           rbind (pget_or "forest" (fun v => some_of (as_obj v)) None params) (fun regressor =>
           rbind (rforest_init fresh outputs inputs types k alpha regressor) (fun c =>
           rbind (load_rows as_int m') (fun w =>
           rbind (rbind (pget "counts" m') (as_list as_int)) (fun counts =>
           Ok (Rforest (rf_types c) (rf_forest c) (rf_alpha c) (rf_regressor c) (FState w counts))))))))))))))
  end.

(* ------------------------------------------------------------------ *)
(** ** Components over several outputs *)
Definition distinct (l : list Z) : bool := Nat.eqb (length (nodup Z.eq_dec l)) (length l).
(** The common checks of the constructors of MultivariateKde, mvkde.py:50-73, and
    MultivariateKnn, mvknn.py:290-320; at least [least] outputs. *)
Definition table_checks (least : nat) (outputs inputs : list Z) (types : list string) (args : list (option Z)) : res unit :=
  match inputs with _ :: _ => Err ValueError | [] =>
  if Nat.ltb (length outputs) least then Err ValueError
  else if negb (distinct outputs) then Err ValueError
  else if negb (Nat.eqb (length types) (length outputs)) then Err ValueError
  else if negb (Nat.eqb (length args) (length outputs)) then Err ValueError
  else if existsb (fun '(t, a) => negb (String.eqb t "numerical") && match a with None => true | Some _ => false end)
                  (combine types args) then Err ValueError
  else Ok tt end.
Definition out_distargs {O} (types : list string) (args : list (option Z)) : pyv O :=
  Pdict [(Kstr "stattypes", strs types); (Kstr "statargs", Plist (map statarg args))].

(** MultivariateKde. *)
Record kde : Type := Kde { kd_outputs : list Z; kd_types : list string; kd_args : list (option Z); kd_bw : list ext; kd_table : table }.
(** __init__, mvkde.py:42-91; [bw0] are the default bandwidths. *)
Definition kde_init (bw0 : list Z -> list ext) (outputs inputs : list Z) (types : list string) (args : list (option Z)) (bw : option (list ext)) : res kde :=
  rbind (table_checks 1 outputs inputs types args) (fun _ =>
  Ok (Kde outputs types args (match bw with Some b => b | None => bw0 outputs end) table0)).
(** to_metadata, mvkde.py:288-300. *)
Definition kde_save {O} (c : kde) : pyv O :=
  Pdict [(Kstr "outputs", ints (kd_outputs c)); (Kstr "inputs", ints []);
         (Kstr "distargs", Pdict [(Kstr "outputs", out_distargs (kd_types c) (kd_args c))]);
         (Kstr "N", Pint (t_N (kd_table c))); (Kstr "data", pairs (t_data (kd_table c)));
         (Kstr "params", Pdict [(Kstr "bw", nums (kd_bw c))]);
         (Kstr "factory", factory "cgpm.kde.mvkde" "MultivariateKde")].
Definition load_table {O} (m : pyv O) : res table :=
  rbind (rbind (pget "data" m) of_pairs) (fun data => rbind (rbind (pget "N" m) as_int) (fun N => Ok (Table data N))).
(** from_metadata, mvkde.py:302-314. *)
Definition kde_load {O} (bw0 : list Z -> list ext) (m : pyv O) : res kde :=
  rbind (rbind (pget "outputs" m) (as_list as_int)) (fun outputs =>
  rbind (rbind (pget "inputs" m) (as_list as_int)) (fun inputs =>
  rbind (types_of "outputs" m) (fun '(types, args) =>
  rbind (pget "params" m) (fun params =>
  rbind (pget_or "bw" (fun v => some_of (as_list as_num v)) None params) (fun bw =>
  rbind (kde_init bw0 outputs inputs types args bw) (fun c =>
  rbind (load_table m) (fun t =>
  Ok (Kde (kd_outputs c) (kd_types c) (kd_args c) (kd_bw c) t)))))))).

(** MultivariateKnn; the order drawn for the outputs is not used again. *)
Record knn : Type := MKnn { kn_outputs : list Z; kn_types : list string; kn_args : list (option Z); kn_K : Z; kn_M : Z; kn_table : table }.
(** __init__, mvknn.py:62-93. *)
Definition knn_init (outputs inputs : list Z) (K : Z) (M : option Z) (types : list string) (args : list (option Z)) : res knn :=
  if K <? 1 then Err ValueError
  else rbind (table_checks 2 outputs inputs types args) (fun _ =>
       Ok (MKnn outputs types args K (match M with Some M => M | None => K end) table0)).
(** to_metadata, mvknn.py:375-386. *)
Definition knn_save {O} (c : knn) : pyv O :=
  Pdict [(Kstr "outputs", ints (kn_outputs c)); (Kstr "inputs", ints []);
         (Kstr "distargs", Pdict [(Kstr "outputs", out_distargs (kn_types c) (kn_args c));
                                  (Kstr "K", Pint (kn_K c)); (Kstr "M", Pint (kn_M c))]);
         (Kstr "N", Pint (t_N (kn_table c))); (Kstr "data", pairs (t_data (kn_table c)));
         (Kstr "params", Pdict []);
         (Kstr "factory", factory "cgpm.knn.mvknn" "MultivariateKnn")].
(** from_metadata, mvknn.py:388-402. *)
Definition knn_load {O} (m : pyv O) : res knn :=
  rbind (rbind (pget "outputs" m) (as_list as_int)) (fun outputs =>
  rbind (rbind (pget "inputs" m) (as_list as_int)) (fun inputs =>
  rbind (pget "distargs" m) (fun d =>
  rbind (rbind (pget "K" d) as_int) (fun K =>
  rbind (rbind (pget "M" d) as_int) (fun M =>
  rbind (types_of "outputs" m) (fun '(types, args) =>
  rbind (pget "params" m) (fun _ =>
  rbind (knn_init outputs inputs K (Some M) types args) (fun c =>
  rbind (load_table m) (fun t =>
  Ok (MKnn (kn_outputs c) (kn_types c) (kn_args c) (kn_K c) (kn_M c) t)))))))))).

(** FactorAnalysis; the joint parameters are computed from these (FactorAnalysis.v). *)
Record fact : Type := Fact { fc_outputs : list Z; fc_L : nat; fc_mux : list ext; fc_Psi : list (list ext); fc_W : list (list ext); fc_table : table }.
(** __init__, factor.py:76-132; the types, of which all must be numerical, are not kept. *)
Definition fact_init (outputs inputs : list Z) (L : nat) (types : option (list string))
    (mux : option (list ext)) (Psi W : option (list (list ext))) : res fact :=
  match inputs with _ :: _ => Err ValueError | [] =>
  if Nat.ltb (length outputs) 2 then Err ValueError
  else if negb (distinct outputs) then Err ValueError
  else if Nat.eqb L 0 then Err ValueError
  else if match types with Some t => existsb (fun s => negb (String.eqb s "numerical")) t | None => false end then Err ValueError
  else let D := (length outputs - L)%nat in
       if Nat.ltb D L then Err ValueError
       else Ok (Fact outputs L (match mux with Some m => m | None => zeros (Z.of_nat D) end)
                  (match Psi with Some p => p | None => eye (Z.of_nat D) end)
                  (match W with Some w => w | None => repeat (zeros (Z.of_nat L)) D end) table0) end.
(** to_metadata, factor.py:341-356. *)
Definition fact_save {O} (c : fact) : pyv O :=
  Pdict [(Kstr "outputs", ints (fc_outputs c)); (Kstr "inputs", ints []);
         (Kstr "N", Pint (t_N (fc_table c))); (Kstr "L", Pint (Z.of_nat (fc_L c))); (Kstr "data", pairs (t_data (fc_table c)));
         (Kstr "params", Pdict [(Kstr "mux", nums (fc_mux c)); (Kstr "Psi", Plist (map nums (fc_Psi c))); (Kstr "W", Plist (map nums (fc_W c)))]);
         (Kstr "factory", factory "cgpm.factor.factor" "FactorAnalysis")].
(** from_metadata, factor.py:358-371. *)
Definition fact_load {O} (m : pyv O) : res fact :=
  rbind (rbind (pget "outputs" m) (as_list as_int)) (fun outputs =>
  rbind (rbind (pget "inputs" m) (as_list as_int)) (fun inputs =>
  rbind (rbind (pget "L" m) as_int) (fun L =>
  rbind (pget "params" m) (fun params =>
  rbind (pget_or "mux" (fun v => some_of (as_list as_num v)) None params) (fun mux =>
  rbind (pget_or "Psi" (fun v => some_of (as_list (as_list as_num) v)) None params) (fun Psi =>
  rbind (pget_or "W" (fun v => some_of (as_list (as_list as_num) v)) None params) (fun W =>
  rbind (fact_init outputs inputs (Z.to_nat L) None mux Psi W) (fun c =>
  rbind (load_table m) (fun t =>
  Ok (Fact (fc_outputs c) (fc_L c) (fc_mux c) (fc_Psi c) (fc_W c) t)))))))))).
