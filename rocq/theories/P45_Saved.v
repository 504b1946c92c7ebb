(** C69: a component rebuilt from its metadata, with or without a passage through JSON, is the
    component that was saved. *)
From Verif Require Import Saved ListFacts BaseFacts LogSpaceFacts P22_Holders.
From Coq Require Import String DecimalString DecimalZ.
From Coq Require Import List ZArith Reals Bool Lia Lra Permutation.
Import ListNotations.
Local Open Scope Z_scope.

(* ------------------------------------------------------------------ *)
(** ** Specification *)
(** Python walks a dictionary in some order that depends on its keys alone. *)
Definition some_order (order : list string -> list string) : Prop := forall l, NoDup l -> Permutation (order l) l.
(** The same rows, in another order, the same one for targets and inputs. *)
Definition same_rows {T} (w w' : rows T) : Prop :=
  Permutation (dkeys (w_x w')) (dkeys (w_x w)) /\ dkeys (w_Y w') = dkeys (w_x w') /\
  (forall r, dget r (w_x w') = dget r (w_x w)) /\ (forall r, dget r (w_Y w') = dget r (w_Y w)) /\ w_N w' = w_N w.

(* ------------------------------------------------------------------ *)
(** ** JSON *)
Lemma parse_decimal z : parse (decimal z) = Ok z.
Proof.
  unfold parse, decimal. rewrite NilZero.isi; [rewrite DecimalZ.of_to; reflexivity| |];
  destruct z as [|p|p]; cbn; try discriminate; intros E; injection E as E; now apply (DecimalPos.Unsigned.to_uint_nonnil p).
Qed.
Lemma decimal_inj a b : decimal a = decimal b -> a = b.
Proof. intros E. pose proof (parse_decimal a) as H. rewrite E, parse_decimal in H. congruence. Qed.
Section Json.
  Variable O : Type.
  Variable order : list string -> list string.
  Hypothesis Ho : some_order order.
  Notation trips v v' := (@json O order v = Ok v').
  Lemma json_list l : @json O order (Plist l) = rbind (rsequence (map (json O order) l)) (fun r => Ok (Plist r)).
  Proof. cbn [json]. f_equal. induction l as [|x l IH]; [reflexivity|]. cbn [map rsequence]. rewrite IH. reflexivity. Qed.
  Lemma trip_map {A} (f g : A -> pyv O) l : (forall x, In x l -> trips (f x) (g x)) -> trips (Plist (map f l)) (Plist (map g l)).
  Proof.
    intros H. rewrite json_list. replace (rsequence _) with (Ok (map g l)); [reflexivity|]. symmetry. apply rsequence_ok. rewrite !map_map. now apply map_ext_in.
  Qed.
  Definition trip_entry (e : key * pyv O) (e' : string * pyv O) : Prop := text (fst e) = fst e' /\ trips (snd e) (snd e').
  Lemma trip_dict d r : Forall2 trip_entry d r -> trips (Pdict d) (Pdict (as_dict O order r)).
  Proof.
    intros F. cbn [json]. match goal with |- rbind (?g d) _ = _ => assert (E : g d = Ok r) end.
    { induction F as [|[k x] [t y] d r [E1 E2] _ IH]; [reflexivity|]. cbn [fst snd] in *. rewrite E2. cbn [rbind]. rewrite IH. cbn [rbind]. rewrite E1. reflexivity. }
    rewrite E. reflexivity.
  Qed.
  Lemma look_flat s (r : list (string * pyv O)) l :
    look s (flat_map (fun t => match slast t r with Some v => [(Kstr t, v)] | None => [] end) l) = if existsb (String.eqb s) l then slast s r else None.
  Proof.
    unfold look. induction l as [|t l IH]; [reflexivity|]. cbn [flat_map existsb]. destruct (String.eqb_spec s t) as [<-|N].
    - cbn [orb]. destruct (slast s r) as [v|] eqn:E.
      + cbn [app find key_eqb fst]. rewrite String.eqb_refl. reflexivity.
      + cbn [app]. rewrite IH. destruct (existsb _ l); reflexivity.
    - cbn [orb]. destruct (slast t r) as [v|] eqn:E; [|exact IH]. cbn [app find key_eqb fst]. apply String.eqb_neq in N. rewrite N. exact IH.
  Qed.
  Lemma slast_none s (r : list (string * pyv O)) : ~ In s (map fst r) -> slast s r = None.
  Proof.
    induction r as [|[t v] r IH]; intros H; [reflexivity|]. cbn [slast map fst In] in *. rewrite IH by tauto. destruct (String.eqb_spec s t) as [<-|]; [tauto|reflexivity].
  Qed.
  Lemma look_as_dict s r : look s (as_dict O order r) = slast s r.
  Proof.
    unfold as_dict. rewrite look_flat. destruct (existsb _ _) eqn:E; [reflexivity|]. symmetry. apply slast_none. intros H.
    assert (K : In s (order (nodup string_dec (map fst r)))).
    { eapply Permutation_in; [apply Permutation_sym, Ho, NoDup_nodup|]. now apply nodup_In. }
    rewrite <- not_true_iff_false in E. apply E. apply existsb_exists. exists s. split; [exact K|apply String.eqb_refl].
  Qed.
  Lemma pget_trip s r v : slast s r = Some v -> pget s (Pdict (as_dict O order r)) = Ok v.
  Proof. intros E. unfold pget. cbn [items rbind]. rewrite look_as_dict, E. reflexivity. Qed.
  Lemma pget_or_trip {A} s (f : pyv O -> res A) dflt r : pget_or s f dflt (Pdict (as_dict O order r)) = match slast s r with Some v => f v | None => Ok dflt end.
  Proof. unfold pget_or. cbn [items rbind]. rewrite look_as_dict. reflexivity. Qed.

  (** Simple values. *)
  Lemma trip_ints l : trips (ints l) (ints l).  Proof. now apply trip_map. Qed.
  Lemma trip_nums l : trips (nums l) (nums l).  Proof. now apply trip_map. Qed.
  Lemma trip_strs l : trips (strs l) (strs l).  Proof. now apply trip_map. Qed.
  Lemma trip_matrix l : trips (Plist (map nums l)) (Plist (map nums l)).  Proof. apply trip_map. intros. apply trip_nums. Qed.
  Lemma read_map {A B} (f : A -> pyv O) (g : pyv O -> res B) (h : A -> B) l : (forall x, In x l -> g (f x) = Ok (h x)) -> as_list g (Plist (map f l)) = Ok (map h l).
  Proof. intros H. cbn [as_list]. apply rsequence_ok. rewrite !map_map. now apply map_ext_in. Qed.
  Lemma read_id {A} (f : A -> pyv O) g l : (forall x, g (f x) = Ok x) -> as_list g (Plist (map f l)) = Ok l.
  Proof. intros H. rewrite (read_map f g (fun x => x)) by auto. now rewrite map_id. Qed.
  Lemma read_ints l : as_list as_int (@ints O l) = Ok l.  Proof. now apply read_id. Qed.
  Lemma read_nums l : as_list as_num (@nums O l) = Ok l.  Proof. now apply read_id. Qed.
  Lemma read_strs l : as_list as_str (@strs O l) = Ok l.  Proof. now apply read_id. Qed.
  Lemma read_matrix l : as_list (as_list as_num) (Plist (map (@nums O) l)) = Ok l.  Proof. apply read_id. apply read_nums. Qed.
  Definition statarg' (a : option Z) : pyv O := match a with None => Pdict (as_dict O order []) | Some k => Pdict (as_dict O order [("k"%string, Pint k)]) end.
  Lemma trip_statargs l : trips (Plist (map statarg l)) (Plist (map statarg' l)).
  Proof. apply trip_map. intros [k|] _; apply trip_dict; repeat constructor. Qed.
  Lemma read_statargs l : as_list as_statarg (Plist (map statarg' l)) = Ok l.
  Proof. apply read_id. intros [k|]; unfold as_statarg, statarg'; rewrite pget_or_trip; reflexivity. Qed.
  Lemma read_statargs0 l : as_list as_statarg (Plist (map (@statarg O) l)) = Ok l.
  Proof. apply read_id. intros [k|]; reflexivity. Qed.

  (** Lists of pairs: the order is kept. *)
  Lemma trip_pairs d : trips (pairs d) (pairs d).
  Proof. apply trip_map. intros e _. rewrite json_list. cbn [map rsequence]. rewrite trip_nums. reflexivity. Qed.
  Lemma of_items_from {A} (l : list (Z * A)) : forall d, NoDup (dkeys d ++ map fst l) -> fold_left (fun d e => dset (fst e) (snd e) d) l d = d ++ l.
  Proof.
    induction l as [|[k v] l IH]; intros d N; [cbn; now rewrite app_nil_r|]. cbn [fold_left fst snd map] in *.
    assert (F : ~ In k (dkeys d)) by (apply NoDup_remove_2 in N; rewrite in_app_iff in N; tauto).
    rewrite dset_fresh by exact F. rewrite IH; [now rewrite <- app_assoc|]. unfold dkeys in *. rewrite map_app, <- app_assoc. exact N.
  Qed.
  Lemma of_items_id {A} (d : dict A) : NoDup (dkeys d) -> of_items d = d.
  Proof. intros N. unfold of_items. rewrite of_items_from; [reflexivity|exact N]. Qed.
  Lemma read_pairs d : NoDup (dkeys d) -> of_pairs (@pairs O d) = Ok d.
  Proof.
    intros N. unfold of_pairs, pairs. rewrite (read_map _ _ (fun e => e)).
    - rewrite map_id. cbn [rbind]. now rewrite of_items_id.
    - intros [r x] _. cbn [of_pair fst snd as_int rbind]. rewrite read_nums. reflexivity.
  Qed.

  (** Dictionaries by row: the order is that of the keys' decimals. *)
  Definition reorder {A} (ks : list Z) (d : dict A) : dict A := flat_map (fun k => match dget k d with Some x => [(k, x)] | None => [] end) ks.
  Lemma reorder_keys {A} ks (d : dict A) : (forall k, In k ks -> In k (dkeys d)) -> dkeys (reorder ks d) = ks.
  Proof.
    induction ks as [|k ks IH]; intros H; [reflexivity|]. cbn [reorder flat_map]. destruct (dget k d) eqn:E.
    - cbn [app dkeys map fst]. unfold dkeys, reorder in IH. f_equal. apply IH. intros; apply H; now right.
    - apply dget_None_notin in E. exfalso. apply E, H. now left.
  Qed.
  Lemma reorder_get {A} ks (d : dict A) r : dget r (reorder ks d) = if zmem r ks then dget r d else None.
  Proof.
    induction ks as [|k ks IH]; [reflexivity|]. cbn [reorder flat_map zmem existsb]. fold (zmem r ks). destruct (dget k d) eqn:E; cbn [app].
    - cbn [dget]. destruct (Z.eqb_spec r k) as [->|]; [cbn [orb]; now rewrite E|exact IH].
    - change (flat_map _ ks) with (reorder ks d). rewrite IH. destruct (Z.eqb_spec r k) as [->|]; [cbn [orb]; rewrite E; now destruct (zmem k ks)|reflexivity].
  Qed.
  Lemma orders (l : list Z) : NoDup l -> exists ks, Permutation ks l /\ order (map decimal l) = map decimal ks.
  Proof.
    intros N. assert (P : Permutation (order (map decimal l)) (map decimal l)).
    { apply Ho. apply FinFun.Injective_map_NoDup; [exact decimal_inj|exact N]. }
    apply Permutation_map_inv in P. destruct P as (ks & E & P). exists ks. split; [now apply Permutation_sym|exact E].
  Qed.
  Lemma slast_map {A} (g : A -> pyv O) (d : dict A) k : NoDup (dkeys d) -> slast (decimal k) (map (fun e => (decimal (fst e), g (snd e))) d) = option_map g (dget k d).
  Proof.
    induction d as [|[r x] d IH]; intros N; [reflexivity|]. cbn [map slast fst snd dget dkeys] in *. inversion N as [|? ? N1 N2]; subst. rewrite IH by exact N2.
    destruct (Z.eqb_spec k r) as [->|D].
    - apply dget_None_notin in N1. rewrite N1. cbn [option_map]. now rewrite String.eqb_refl.
    - destruct (dget k d); [reflexivity|]. cbn [option_map]. destruct (String.eqb_spec (decimal k) (decimal r)) as [E|]; [apply decimal_inj in E; contradiction|reflexivity].
  Qed.
  Lemma trip_rows {A} (g g' : A -> pyv O) (f : pyv O -> res A) (d : dict A) ks :
    (forall x, trips (g x) (g' x)) -> (forall x, f (g' x) = Ok x) -> NoDup (dkeys d) ->
    Permutation ks (dkeys d) -> order (map decimal (dkeys d)) = map decimal ks ->
    exists v, trips (by_row g d) v /\ of_row f v = Ok (reorder ks d).
  Proof.
    intros Hg Hf N P E. set (r := map (fun e => (decimal (fst e), g' (snd e))) d).
    exists (Pdict (as_dict O order r)). split.
    - unfold by_row. apply trip_dict. unfold r. clear - Hg. induction d as [|e d IH]; [constructor|]. cbn [map]. constructor; [|exact IH]. split; [reflexivity|apply Hg].
    - unfold of_row. cbn [items rbind].
      assert (K : as_dict O order r = map (fun e => (Kstr (decimal (fst e)), g' (snd e))) (reorder ks d)).
      { unfold as_dict. assert (Kr : map fst r = map decimal (dkeys d)) by (unfold r, dkeys; rewrite !map_map; reflexivity).
        rewrite Kr, nodup_fixed_point by (apply FinFun.Injective_map_NoDup; [exact decimal_inj|exact N]). rewrite E. clear - N.
        induction ks as [|k ks IH]; [reflexivity|]. cbn [map flat_map reorder]. unfold r at 1. rewrite (slast_map g' d k N). destruct (dget k d); cbn [option_map app]; [cbn [map fst snd]; now rewrite IH|exact IH]. }
      rewrite K. rewrite map_map. cbn [fst snd key_int].
      replace (rsequence _) with (Ok (reorder ks d)).
      + cbn [rbind]. rewrite of_items_id; [reflexivity|]. rewrite reorder_keys; [eapply Permutation_NoDup; [apply Permutation_sym; exact P|exact N]|]. intros k. apply Permutation_in. exact P.
      + symmetry. apply rsequence_ok. apply map_ext. intros [k x]. cbn [fst snd]. rewrite parse_decimal, Hf. reflexivity.
  Qed.
  Lemma read_by_row {A} (g : A -> pyv O) f (d : dict A) : (forall x, f (g x) = Ok x) -> NoDup (dkeys d) -> of_row f (by_row g d) = Ok d.
  Proof.
    intros Hf N. unfold of_row, by_row. cbn [items rbind]. rewrite map_map. cbn [fst snd key_int rbind].
    replace (rsequence _) with (Ok d); [cbn [rbind]; now rewrite of_items_id|]. symmetry. apply rsequence_ok. apply map_ext. intros [k x]. cbn [fst snd]. rewrite Hf. reflexivity.
  Qed.
  (** The rows of a regression. *)
  Lemma trip_save {T} (g : T -> pyv O) (f : pyv O -> res T) (w : rows T) : (forall x, trips (g x) (g x)) -> (forall x, f (g x) = Ok x) ->
    NoDup (dkeys (w_x w)) -> dkeys (w_Y w) = dkeys (w_x w) ->
    exists v w', trips (save_rows g w) v /\ same_rows w w' /\ w_N w' = w_N w /\
      rbind (pget "x" v) (of_row f) = Ok (w_x w') /\ rbind (pget "Y" v) (of_row (as_list as_num)) = Ok (w_Y w').
  Proof.
    intros Hg Hf N KY. destruct (orders (dkeys (w_x w)) N) as (ks & P & E).
    destruct (trip_rows g g f (w_x w) ks Hg Hf N P E) as (vx & Tx & Rx).
    destruct (trip_rows nums nums (as_list as_num) (w_Y w) ks trip_nums read_nums) as (vy & Ty & Ry); try (rewrite KY; assumption).
    exists (Pdict (as_dict O order [("x"%string, vx); ("Y"%string, vy)])), (Rows (reorder ks (w_x w)) (reorder ks (w_Y w)) (w_N w)).
    assert (I : forall k, In k ks <-> In k (dkeys (w_x w))) by (intros k; split; apply Permutation_in; [exact P|now apply Permutation_sym]).
    split; [|split; [|split; [reflexivity|]]].
    - unfold save_rows. apply trip_dict. constructor; [split; [reflexivity|exact Tx]|]. constructor; [split; [reflexivity|exact Ty]|constructor].
    - unfold same_rows. cbn [w_x w_Y w_N].
      rewrite reorder_keys by (intros k; apply I). rewrite reorder_keys by (intros k; rewrite KY; apply I). split; [exact P|]. split; [reflexivity|].
      assert (G : forall {A} (d : dict A) r, dkeys d = dkeys (w_x w) -> dget r (reorder ks d) = dget r d).
      { intros A d r Ed. rewrite reorder_get. destruct (zmem r ks) eqn:M; [reflexivity|]. symmetry. apply dget_None_notin. rewrite Ed, <- I. intros H. apply zmem_in in H. congruence. }
      split; [intros r; now apply G|]. split; [intros r; now apply G|reflexivity].
    - erewrite (pget_trip "x") by reflexivity. erewrite (pget_trip "Y") by reflexivity. cbn [rbind]. auto.
  Qed.
  Lemma trip_any {A} (g : A -> pyv O) (d : dict A) : (forall x, trips (g x) (g x)) -> exists v, trips (by_row g d) v.
  Proof.
    intros Hg. exists (Pdict (as_dict O order (map (fun e => (decimal (fst e), g (snd e))) d))). unfold by_row. apply trip_dict.
    induction d as [|e d IH]; [constructor|]. cbn [map]. constructor; [|exact IH]. split; [reflexivity|apply Hg].
  Qed.
  Lemma trip_types types args : exists v, trips (Pdict [(Kstr "stattypes", strs types); (Kstr "statargs", Plist (map statarg args))]) v /\
    rbind (pget "stattypes" v) (as_list as_str) = Ok types /\ rbind (pget "statargs" v) (as_list as_statarg) = Ok args.
  Proof.
    exists (Pdict (as_dict O order [("stattypes"%string, strs types); ("statargs"%string, Plist (map statarg' args))])). split; [|split].
    - apply trip_dict. constructor; [split; [reflexivity|apply trip_strs]|]. constructor; [split; [reflexivity|apply trip_statargs]|constructor].
    - erewrite (pget_trip "stattypes") by reflexivity. apply read_strs.
    - erewrite (pget_trip "statargs") by reflexivity. apply read_statargs.
  Qed.
  Lemma trip_distargs types args g : exists v, trips (reg_distargs types args g) v /\ forall m, pget "distargs" m = Ok v -> types_of "inputs" m = Ok (types, args).
  Proof.
    destruct (trip_types types args) as (v & T & R1 & R2). destruct (trip_any (@Pint O) (g_disc g)) as (vd & Td); [reflexivity|].
    exists (Pdict (as_dict O order [("inputs"%string, v); ("inputs_discrete"%string, vd); ("p"%string, Pint (g_p g))])). split.
    - apply trip_dict. repeat (constructor; [split; [reflexivity|first [exact T|exact Td|reflexivity]]|]). constructor.
    - intros m E. unfold types_of. rewrite E. cbn [rbind]. erewrite (pget_trip "inputs") by reflexivity. cbn [rbind]. rewrite R1. cbn [rbind]. rewrite R2. reflexivity.
  Qed.
End Json.

(* ------------------------------------------------------------------ *)
(** ** Rows that are held *)
Lemma gen_run_keys {T} (enc : dict ext -> dict ext -> res (T * list ext)) cs :
  NoDup (dkeys (w_x (gen_run enc cs))) /\ dkeys (w_Y (gen_run enc cs)) = dkeys (w_x (gen_run enc cs)).
Proof.
  destruct (gen_run_holds enc cs) as (H1 & H2 & _).
  apply (Forall2_keys (fun e x => exists y, enc (fst (snd e)) (snd (snd e)) = Ok (x, y))) in H1.
  apply (Forall2_keys (fun e y => exists x, enc (fst (snd e)) (snd (snd e)) = Ok (x, y))) in H2. rewrite H1, H2. split; [apply ledger_NoDup|reflexivity].
Qed.
Lemma reg_run_gen prep out cs : reg_run prep out cs = gen_run (reg_enc prep out) cs.
Proof.
  induction cs as [|c cs IH] using rev_ind; [reflexivity|]. unfold reg_run, gen_run in *. rewrite !fold_left_app. cbn [fold_left]. rewrite IH. f_equal. apply reg_step_gen.
Qed.
Lemma reg_init_shape count outs ins types g : reg_init count outs ins types = Ok g -> outs = [g_out g] /\ ins = g_in g.
Proof.
  unfold reg_init. destruct outs as [|o [|]]; try discriminate. destruct ins as [|i ins]; [discriminate|]. destruct (zmem o (i :: ins)); [discriminate|].
  destruct (negb _); [discriminate|]. destruct (rsequence _); [|discriminate]. cbn [rbind]. intros E. injection E as <-. auto.
Qed.

(* ------------------------------------------------------------------ *)
(** ** Linear regression *)
(** Made by the constructor with the given prior, then rows and hyperparameters. *)
Definition linreg_made numeric mu V (c : linreg) : Prop := exists outs ins types args a0 b0 c0 a b cs,
  linreg_init numeric outs ins types args a0 b0 mu V = Ok c0 /\
  c = Linreg types args (lr_reg c0) a b (lr_mu c0) (lr_V c0) (reg_run (linreg_preprocess (lr_reg c0)) (g_out (lr_reg c0)) cs).
(** Rebuilt with the prior of the defaults, whatever the prior was. *)
Lemma linreg_rebuilt O order numeric mu V c : some_order order -> linreg_made numeric mu V c ->
  let c' w := Linreg (lr_types c) (lr_args c) (lr_reg c) (lr_a c) (lr_b c) (zeros (g_p (lr_reg c))) (eye (g_p (lr_reg c))) w in
  linreg_load numeric (@linreg_save O c) = Ok (c' (lr_rows c)) /\
  exists m w, json O order (linreg_save c) = Ok m /\ same_rows (lr_rows c) w /\ linreg_load numeric m = Ok (c' w).
Proof.
  intros Ho (outs & ins & types & args & a0 & b0 & c0 & a & b & cs & E & ->). unfold linreg_init in E.
  destruct (reg_init linreg_count outs ins (stypes numeric types args)) as [g|] eqn:Eg; [|discriminate]. cbn [rbind] in E. injection E as <-. cbn [lr_reg lr_mu lr_V].
  destruct (reg_init_shape _ _ _ _ _ Eg) as [-> ->]. set (w := reg_run _ _ cs).
  assert (K : NoDup (dkeys (w_x w)) /\ dkeys (w_Y w) = dkeys (w_x w)) by (unfold w; rewrite reg_run_gen; apply gen_run_keys). destruct K as [N KY]. split.
  - unfold linreg_load, linreg_save. cbn [pget items rbind look find key_eqb String.eqb Ascii.eqb Bool.eqb fst snd option_map lr_reg lr_types lr_args lr_a lr_b lr_rows].
    rewrite !read_ints. cbn [rbind].
    unfold types_of, reg_distargs. cbn [pget pget_or items rbind look find key_eqb String.eqb Ascii.eqb Bool.eqb fst snd option_map some_of as_num].
    rewrite read_strs. cbn [rbind]. rewrite read_statargs0. cbn [rbind]. unfold linreg_init. rewrite Eg. cbn [rbind].
    unfold load_rows, save_rows. cbn [pget items rbind look find key_eqb String.eqb Ascii.eqb Bool.eqb fst snd option_map as_int].
    rewrite read_by_row; [|reflexivity|exact N]. cbn [rbind]. rewrite read_by_row; [|apply read_nums|rewrite KY; exact N]. destruct w; reflexivity.
  - destruct (trip_save O order Ho Pnum as_num w) as (vd & w' & Td & S & EN & Rx & RY); [reflexivity|reflexivity|exact N|exact KY|].
    destruct (trip_distargs O order Ho types args g) as (va & Ta & Ra).
    set (hy := Pdict (as_dict O order [("a"%string, Pnum a); ("b"%string, Pnum b)])).
    exists (Pdict (as_dict O order [("outputs"%string, ints [g_out g]); ("inputs"%string, ints (g_in g)); ("N"%string, Pint (w_N w)); ("data"%string, vd);
      ("distargs"%string, va); ("hypers"%string, hy); ("factory"%string, factory "cgpm.regressions.linreg" "LinearRegression")])), w'.
    split; [|split; [exact S|]].
    + unfold linreg_save. apply trip_dict. cbn [lr_reg lr_types lr_args lr_a lr_b lr_rows].
      repeat (constructor; [split; [reflexivity|cbn [snd]; first [apply trip_ints|exact Td|exact Ta|reflexivity|apply trip_strs|apply trip_dict; repeat constructor]]|]). constructor.
    + unfold linreg_load. set (m := Pdict _).
      assert (G : forall s v, slast s _ = Some v -> pget s m = Ok v) by (intros s v; apply (pget_trip O order Ho)).
      rewrite (G "outputs"%string _ eq_refl), (G "inputs"%string _ eq_refl), (G "hypers"%string _ eq_refl). cbn [rbind]. rewrite !read_ints. cbn [rbind].
      rewrite (Ra m (G "distargs"%string _ eq_refl)). cbn [rbind]. unfold hy. rewrite !(pget_or_trip O order Ho). cbn [slast String.eqb Ascii.eqb Bool.eqb some_of as_num rbind].
      unfold linreg_init. rewrite Eg. cbn [rbind lr_types lr_args lr_reg lr_a lr_b lr_mu lr_V].
      unfold load_rows. rewrite (G "data"%string _ eq_refl), (G "N"%string _ eq_refl). cbn [rbind as_int]. rewrite Rx. cbn [rbind]. rewrite RY. cbn [rbind]. rewrite <- EN. destruct w'; reflexivity.
Qed.
Theorem C69_linreg : forall O order numeric c, some_order order -> linreg_made numeric None None c ->
  linreg_load numeric (@linreg_save O c) = Ok c /\
  exists m w, json O order (linreg_save c) = Ok m /\ same_rows (lr_rows c) w /\
    linreg_load numeric m = Ok (Linreg (lr_types c) (lr_args c) (lr_reg c) (lr_a c) (lr_b c) (lr_mu c) (lr_V c) w).
Proof.
  intros O order numeric c Ho M. destruct (linreg_rebuilt O order numeric None None c Ho M) as [A B].
  destruct M as (outs & ins & types & args & a0 & b0 & c0 & a & b & cs & E & ->). unfold linreg_init in E.
  destruct (reg_init linreg_count outs ins (stypes numeric types args)) as [g|] eqn:Eg; [|discriminate]. cbn [rbind] in E. injection E as <-. split; [exact A|exact B].
Qed.
Print Assumptions C69_linreg.
(** The mean and the covariance of the prior are not saved: a component made with others is
    rebuilt with those of the defaults. *)
Theorem C69_prior : forall O numeric mu V c, linreg_made numeric mu V c ->
  exists c', linreg_load numeric (@linreg_save O c) = Ok c' /\ lr_mu c' = zeros (g_p (lr_reg c)) /\ lr_V c' = eye (g_p (lr_reg c)).
Proof.
  intros O numeric mu V c M. destruct (linreg_rebuilt O (fun l => l) numeric mu V c (fun l _ => Permutation_refl l) M) as [A _]. eexists. split; [exact A|]. split; reflexivity.
Qed.
Print Assumptions C69_prior.
Definition all_numeric (s : string) : bool := true.
Definition ex_linreg : res linreg := linreg_init all_numeric [7] [8] ["normal"%string] [None] None None None (Some [[Fin 2; Fin 0]; [Fin 0; Fin 2]]).
Theorem C69_prior_refuted : exists numeric mu V c c', linreg_made numeric mu V c /\ (forall O, linreg_load numeric (@linreg_save O c) = Ok c') /\
  lr_V c = [[Fin 2; Fin 0]; [Fin 0; Fin 2]] /\ lr_V c' = [[Fin 1; Fin 0]; [Fin 0; Fin 1]].
Proof.
  destruct ex_linreg as [c|] eqn:E; [|discriminate]. exists all_numeric, None, (Some [[Fin 2; Fin 0]; [Fin 0; Fin 2]]), c. vm_compute in E. injection E as <-.
  eexists. split; [|split].
  - exists [7], [8], ["normal"%string], [None], None, None. eexists. exists (Fin 1), (Fin 1), []. split; reflexivity.
  - intros O. reflexivity.
  - split; reflexivity.
Qed.
Print Assumptions C69_prior_refuted.

(* ------------------------------------------------------------------ *)
(** ** Regressors of scikit-learn *)
Lemma look_cons {O} s k (v : pyv O) d : look s ((k, v) :: d) = if key_eqb (Kstr s) k then Some v else look s d.
Proof. unfold look. cbn [find fst]. destruct (key_eqb (Kstr s) k); reflexivity. Qed.
Lemma look_map {O} s p (f : pyv O -> pyv O) (d : list (key * pyv O)) :
  look s (map (fun e => if key_eqb (Kstr p) (fst e) then (fst e, f (snd e)) else e) d) = if String.eqb s p then option_map f (look s d) else look s d.
Proof.
  set (F := fun e : key * pyv O => _). assert (E : forall k v, F (k, v) = (k, if key_eqb (Kstr p) k then f v else v)) by (intros k v; unfold F; cbn [fst snd]; destruct (key_eqb (Kstr p) k); reflexivity). clearbody F.
  induction d as [|[k v] d IH]; [destruct (String.eqb s p); reflexivity|]. cbn [map]. rewrite E, !look_cons, IH. destruct k as [z|t]; cbn [key_eqb]; [reflexivity|].
  destruct (String.eqb_spec s t) as [<-|]; [|reflexivity]. rewrite (String.eqb_sym p s). destruct (String.eqb s p); reflexivity.
Qed.
Lemma look_assign {O} s p (o : O) (d : list (key * pyv O)) :
  look s (filter (fun e => negb (key_eqb (Kstr p) (fst e))) d ++ [(Kstr p, Pobj o)]) = if String.eqb s p then Some (Pobj o) else look s d.
Proof.
  set (F := fun e : key * pyv O => _). assert (E : forall k v, F (k, v) = negb (key_eqb (Kstr p) k)) by reflexivity. clearbody F.
  induction d as [|[k v] d IH]; [cbn [filter app]; rewrite look_cons; reflexivity|]. cbn [filter]. rewrite E, look_cons. destruct k as [z|t]; cbn [key_eqb negb].
  - cbn [app]. rewrite look_cons, IH. reflexivity.
  - destruct (String.eqb_spec p t) as [<-|Np]; cbn [negb].
    + rewrite IH. destruct (String.eqb s p); reflexivity.
    + cbn [app]. rewrite look_cons, IH. cbn [key_eqb]. destruct (String.eqb_spec s t) as [<-|]; [|reflexivity]. destruct (String.eqb_spec s p); [congruence|reflexivity].
Qed.
Lemma pget_assigned {O} s p (o : O) (d : list (key * pyv O)) : s <> "params"%string -> pget s (assign_param p o (Pdict d)) = pget s (Pdict d).
Proof. intros N. unfold pget, assign_param. cbn [items rbind]. rewrite look_map. apply String.eqb_neq in N. rewrite N. reflexivity. Qed.
Lemma pget_params {O} p (o : O) (d : list (key * pyv O)) v : pget "params" (Pdict d) = Ok v -> pget "params" (assign_param p o (Pdict d)) = Ok (assign p o v).
Proof. unfold pget, assign_param. cbn [items rbind]. rewrite look_map, String.eqb_refl. destruct (look "params" d); [cbn [option_map]; congruence|discriminate]. Qed.
Lemma types_assigned {O} p (o : O) (d : list (key * pyv O)) side : types_of side (assign_param p o (Pdict d)) = types_of side (Pdict d).
Proof. unfold types_of. rewrite pget_assigned by discriminate. reflexivity. Qed.
Lemma rows_assigned {O T} p (o : O) (d : list (key * pyv O)) (f : pyv O -> res T) : load_rows f (assign_param p o (Pdict d)) = load_rows f (Pdict d).
Proof. unfold load_rows. rewrite !pget_assigned by discriminate. reflexivity. Qed.
Lemma json_error {O} order (d1 : list (key * pyv O)) k x d2 e : Forall (fun e => exists v, json O order (snd e) = Ok v) d1 -> json O order x = Err e ->
  json O order (Pdict (d1 ++ (k, x) :: d2)) = Err e.
Proof.
  intros F E. cbn [json]. match goal with |- rbind (?g _) _ = _ => assert (K : g (d1 ++ (k, x) :: d2) = Err e) end.
  { induction F as [|[k1 x1] d1 [v Hv] F IH]; [cbn [app]; rewrite E; reflexivity|]. cbn [app]. cbn [snd] in Hv. rewrite Hv. cbn [rbind]. rewrite IH. reflexivity. }
  rewrite K. reflexivity.
Qed.

Section Pickle.
  Variables (O : Type) (dump : O -> string) (undump : string -> res O) (fresh : O).
  Hypothesis Hp : forall o, undump (dump o) = Ok o.
  Variable order : list string -> list string.
  Hypothesis Ho : some_order order.
  Section Ols.
    Variable numeric : string -> bool.
    Definition ols_made (c : ols O) : Prop := exists outs ins types args noise0 r0 c0 noise r cs,
      ols_init fresh numeric outs ins types args noise0 r0 = Ok c0 /\
      c = Ols types args (ol_reg c0) noise r (reg_run (ols_preprocess (ol_reg c0)) (g_out (ol_reg c0)) cs).
    Lemma ols_rebuilt c : ols_made c ->
      snd (ols_load undump fresh numeric (ols_save dump c)) = Ok c /\
      exists m w, json O order (ols_save dump c) = Ok m /\ same_rows (ol_rows c) w /\
        snd (ols_load undump fresh numeric m) = Ok (Ols (ol_types c) (ol_args c) (ol_reg c) (ol_noise c) (ol_regressor c) w).
    Proof.
      intros (outs & ins & types & args & n0 & r0 & c0 & no & r & cs & E & ->). unfold ols_init in E.
      destruct (reg_init ols_count outs ins (stypes numeric types args)) as [g|] eqn:Eg; [|discriminate]. cbn [rbind] in E. injection E as <-. cbn [ol_reg].
      destruct (reg_init_shape _ _ _ _ _ Eg) as [-> ->]. set (w := reg_run _ _ cs).
      assert (K : NoDup (dkeys (w_x w)) /\ dkeys (w_Y w) = dkeys (w_x w)) by (unfold w; rewrite reg_run_gen; apply gen_run_keys). destruct K as [N KY]. cbn [ol_types ol_args ol_noise ol_regressor ol_rows].
      assert (Load : forall d va vp w', va = Pdict d -> pget "outputs" (Pdict d) = Ok (ints [g_out g]) -> pget "inputs" (Pdict d) = Ok (ints (g_in g)) ->
        pget "params" (Pdict d) = Ok (Pdict vp) -> look "noise" vp = Some (Pnum no) -> look "regressor_binary" vp = Some (Pstr (dump r)) ->
        types_of "inputs" (Pdict d) = Ok (types, args) -> load_rows as_num (Pdict d) = Ok w' ->
        snd (ols_load undump fresh numeric va) = Ok (Ols types args g no r w')).
      { intros d va vp w' -> E1 E2 E3 E4 E5 E6 E7. unfold ols_load. rewrite E3. cbn [rbind]. unfold pget at 1. cbn [items rbind]. rewrite E5. cbn [rbind as_str]. rewrite Hp. cbn [snd].
        rewrite types_assigned, rows_assigned, !pget_assigned by discriminate. rewrite (pget_params _ _ _ _ E3), E1, E2, E6, E7. cbn [rbind]. rewrite !read_ints. cbn [rbind].
        unfold assign, pget_or. cbn [items rbind]. rewrite !look_assign. cbn [String.eqb Ascii.eqb Bool.eqb]. rewrite E4. cbn [some_of as_num as_obj rbind]. unfold ols_init. rewrite Eg. reflexivity. }
      split.
      - unfold ols_save. cbn [ol_reg ol_types ol_args ol_noise ol_regressor ol_rows]. eapply Load; [reflexivity..| |].
        + unfold types_of, reg_distargs. cbn [pget items rbind look find key_eqb String.eqb Ascii.eqb Bool.eqb fst snd option_map]. rewrite read_strs. cbn [rbind]. rewrite read_statargs0. reflexivity.
        + unfold load_rows, save_rows. cbn [pget items rbind look find key_eqb String.eqb Ascii.eqb Bool.eqb fst snd option_map as_int].
          rewrite read_by_row; [|reflexivity|exact N]. cbn [rbind]. rewrite read_by_row; [|apply read_nums|rewrite KY; exact N]. destruct w; reflexivity.
      - destruct (trip_save O order Ho Pnum as_num w) as (vd & w' & Td & S & EN & Rx & RY); [reflexivity|reflexivity|exact N|exact KY|].
        destruct (trip_distargs O order Ho types args g) as (va & Ta & Ra).
        set (pr := as_dict O order [("noise"%string, Pnum no); ("regressor_binary"%string, Pstr (dump r))]).
        exists (Pdict (as_dict O order [("outputs"%string, ints [g_out g]); ("inputs"%string, ints (g_in g)); ("N"%string, Pint (w_N w)); ("data"%string, vd);
          ("distargs"%string, va); ("params"%string, Pdict pr); ("factory"%string, factory "cgpm.regressions.ols" "OrdinaryLeastSquares")])), w'.
        split; [|split; [exact S|]].
        + unfold ols_save. apply trip_dict. cbn [ol_reg ol_types ol_args ol_noise ol_regressor ol_rows].
          repeat (constructor; [split; [reflexivity|cbn [snd]; first [apply trip_ints|exact Td|exact Ta|reflexivity|apply trip_strs|apply trip_dict; repeat constructor]]|]). constructor.
        + set (m := as_dict O order _). assert (G : forall s v, slast s _ = Some v -> pget s (Pdict m) = Ok v) by (intros s v; apply (pget_trip O order Ho)).
          eapply (Load m _ pr); try reflexivity; try (apply G; reflexivity); try (unfold pr; rewrite look_as_dict by exact Ho; reflexivity).
          * apply Ra. apply G. reflexivity.
          * unfold load_rows. rewrite (G "data"%string _ eq_refl), (G "N"%string _ eq_refl). cbn [rbind as_int]. rewrite Rx. cbn [rbind]. rewrite RY. cbn [rbind]. rewrite <- EN. destruct w'; reflexivity.
    Qed.
  End Ols.
End Pickle.
Theorem C69_ols : forall O (dump : O -> string) undump fresh order numeric c, (forall o, undump (dump o) = Ok o) -> some_order order -> ols_made O fresh numeric c ->
  snd (ols_load undump fresh numeric (ols_save dump c)) = Ok c /\
  exists m w, json O order (ols_save dump c) = Ok m /\ same_rows (ol_rows c) w /\
    snd (ols_load undump fresh numeric m) = Ok (Ols (ol_types c) (ol_args c) (ol_reg c) (ol_noise c) (ol_regressor c) w).
Proof. intros. apply ols_rebuilt; assumption. Qed.
Print Assumptions C69_ols.

(** The random forest. *)
Definition rforest_made {O} (fresh : O) (c : rforest O) : Prop := exists outs ins types k alpha0 r0 c0 alpha r cs,
  rforest_init fresh outs ins types k alpha0 r0 = Ok c0 /\ c = Rforest types (rf_forest c0) alpha r (forest_run (rf_forest c0) cs).
Theorem C69_forest : forall O (dump : O -> string) undump fresh order c, (forall o, undump (dump o) = Ok o) -> some_order order -> rforest_made fresh c ->
  snd (rforest_load undump fresh (rforest_save dump c)) = Ok c /\
  exists m w, json O order (rforest_save dump c) = Ok m /\ same_rows (f_rows (rf_state c)) w /\
    snd (rforest_load undump fresh m) = Ok (Rforest (rf_types c) (rf_forest c) (rf_alpha c) (rf_regressor c) (FState w (f_counts (rf_state c)))).
Proof.
  intros O dump undump fresh order c Hp Ho (outs & ins & types & k & al0 & r0 & c0 & al & r & cs & E & ->).
  assert (Init : forall al r, exists w, rforest_init fresh outs ins types k (Some al) (Some r) = Ok (Rforest types (rf_forest c0) al r w)).
  { intros al' r'. unfold rforest_init in *. destruct outs as [|o [|]]; try discriminate. destruct ins as [|i ins]; [discriminate|].
    destruct (zmem o (i :: ins)); [discriminate|]. destruct (negb _); [discriminate|]. injection E as <-. eexists. reflexivity. }
  assert (Sh : outs = [o_out (rf_forest c0)] /\ ins = o_in (rf_forest c0) /\ k = o_k (rf_forest c0)).
  { unfold rforest_init in E. destruct outs as [|o [|]]; try discriminate. destruct ins as [|i ins]; [discriminate|].
    destruct (zmem o (i :: ins)); [discriminate|]. destruct (negb _); [discriminate|]. injection E as <-. auto. }
  destruct Sh as (-> & -> & ->). set (g := rf_forest c0) in *. set (st := forest_run g cs). set (w := f_rows st).
  assert (K : NoDup (dkeys (w_x w)) /\ dkeys (w_Y w) = dkeys (w_x w)) by (unfold w, st; rewrite forest_run_rows; apply gen_run_keys). destruct K as [N KY].
  cbn [rf_types rf_forest rf_alpha rf_regressor rf_state]. fold w.
  assert (Load : forall d va vp vd w', va = Pdict d -> pget "outputs" (Pdict d) = Ok (ints [o_out g]) -> pget "inputs" (Pdict d) = Ok (ints (o_in g)) ->
    pget "params" (Pdict d) = Ok (Pdict vp) -> look "alpha" vp = Some (Pnum al) -> look "forest_binary" vp = Some (Pstr (dump r)) ->
    pget "counts" (Pdict d) = Ok (ints (f_counts st)) -> pget "distargs" (Pdict d) = Ok vd ->
    rbind (pget "inputs" vd) (fun i => rbind (pget "stattypes" i) (as_list as_str)) = Ok types -> pget "k" vd = Ok (Pint (o_k g)) -> load_rows as_int (Pdict d) = Ok w' ->
    snd (rforest_load undump fresh va) = Ok (Rforest types g al r (FState w' (f_counts st)))).
  { intros d va vp vd w' -> E1 E2 E3 E4 E5 E6 E7 E8 E9 E10. unfold rforest_load. rewrite E3. cbn [rbind]. unfold pget at 1. cbn [items rbind]. rewrite E5. cbn [rbind as_str]. rewrite Hp. cbn [snd].
    rewrite rows_assigned, (pget_params _ _ _ _ E3). rewrite !pget_assigned by discriminate. rewrite E1, E2, E6, E7, E10. cbn [rbind]. rewrite !read_ints. cbn [rbind]. rewrite E8, E9. cbn [rbind as_int].
    unfold assign, pget_or. cbn [items rbind]. rewrite !look_assign. cbn [String.eqb Ascii.eqb Bool.eqb]. rewrite E4. cbn [some_of as_num as_obj rbind]. destruct (Init al r) as (w0 & ->). reflexivity. }
  split.
  - transitivity (@Ok (rforest O) (Rforest types g al r (FState w (f_counts st)))); [|unfold w; destruct st; reflexivity].
    unfold rforest_save. cbn [rf_types rf_forest rf_alpha rf_regressor rf_state]. fold w. eapply Load; [reflexivity..| | |].
    + cbn [pget items rbind look find key_eqb String.eqb Ascii.eqb Bool.eqb fst snd option_map]. apply read_strs.
    + reflexivity.
    + unfold load_rows, save_rows. cbn [pget items rbind look find key_eqb String.eqb Ascii.eqb Bool.eqb fst snd option_map as_int].
      rewrite read_by_row; [|reflexivity|exact N]. cbn [rbind]. rewrite read_by_row; [|apply read_nums|rewrite KY; exact N]. destruct w; reflexivity.
  - destruct (trip_save O order Ho Pint as_int w) as (vd & w' & Td & S & EN & Rx & RY); [reflexivity|reflexivity|exact N|exact KY|].
    set (pr := as_dict O order [("alpha"%string, Pnum al); ("forest_binary"%string, Pstr (dump r))]).
    set (di := Pdict (as_dict O order [("stattypes"%string, strs types)])).
    set (da := Pdict (as_dict O order [("inputs"%string, di); ("k"%string, Pint (o_k g)); ("p"%string, Pint (o_p g))])).
    exists (Pdict (as_dict O order [("outputs"%string, ints [o_out g]); ("inputs"%string, ints (o_in g)); ("N"%string, Pint (w_N w)); ("data"%string, vd);
      ("counts"%string, ints (f_counts st)); ("distargs"%string, da); ("hypers"%string, Pdict (as_dict O order [])); ("params"%string, Pdict pr); ("factory"%string, factory "cgpm.regressions.forest" "RandomForest")])), w'.
    split; [|split; [exact S|]].
    + unfold rforest_save. apply trip_dict. cbn [rf_types rf_forest rf_alpha rf_regressor rf_state]. fold w.
      assert (Tda : json O order (Pdict [(Kstr "inputs", Pdict [(Kstr "stattypes", strs types)]); (Kstr "k", Pint (o_k g)); (Kstr "p", Pint (o_p g))]) = Ok da).
      { apply trip_dict. constructor; [split; [reflexivity|]|repeat constructor]. apply trip_dict. constructor; [split; [reflexivity|apply trip_strs]|constructor]. }
      repeat (constructor; [split; [reflexivity|cbn [snd]; first [apply trip_ints|exact Td|exact Tda|reflexivity|apply trip_strs|apply trip_dict; repeat constructor]]|]). constructor.
    + set (m := as_dict O order _). assert (G : forall s v, slast s _ = Some v -> pget s (Pdict m) = Ok v) by (intros s v; apply (pget_trip O order Ho)).
      apply (Load m _ pr da); try reflexivity; try (apply G; reflexivity); try (unfold pr; rewrite look_as_dict by exact Ho; reflexivity).
      * unfold da. erewrite (pget_trip O order Ho "inputs") by reflexivity. cbn [rbind]. unfold di. erewrite (pget_trip O order Ho "stattypes") by reflexivity. apply read_strs.
      * unfold da. erewrite (pget_trip O order Ho "k") by reflexivity. reflexivity.
      * unfold load_rows. rewrite (G "data"%string _ eq_refl), (G "N"%string _ eq_refl). cbn [rbind as_int]. rewrite Rx. cbn [rbind]. rewrite RY. cbn [rbind]. rewrite <- EN. destruct w'; reflexivity.
Qed.
Print Assumptions C69_forest.

(** The metadata are not left as they were: the regressor itself is put into them, and they can no
    longer be written as JSON. *)
Definition not_reloaded {O} order (m m' : pyv O) : Prop := (exists v, json O order m = Ok v) /\ json O order m' = Err TypeError.
Theorem C69_spoiled : forall O (dump : O -> string) undump fresh order, (forall o, undump (dump o) = Ok o) -> some_order order ->
  (forall numeric c, ols_made O fresh numeric c -> not_reloaded order (ols_save dump c) (fst (ols_load undump fresh numeric (ols_save dump c)))) /\
  (forall c, rforest_made fresh c -> not_reloaded order (rforest_save dump c) (fst (rforest_load undump fresh (rforest_save dump c)))).
Proof.
  intros O dump undump fresh order Hp Ho. split; [intros numeric c M|intros c M].
  - destruct (C69_ols O dump undump fresh order numeric c Hp Ho M) as (_ & m & _ & E & _). split; [eauto|]. unfold ols_load, ols_save.
    cbn [pget items rbind look find key_eqb String.eqb Ascii.eqb Bool.eqb fst snd option_map as_str]. rewrite Hp. cbn [fst].
    cbn [assign_param map key_eqb String.eqb Ascii.eqb Bool.eqb fst snd assign filter negb app].
    match goal with |- json _ _ (Pdict (?a :: ?b :: ?c :: ?d :: ?e :: (?k, ?x) :: ?r)) = _ => change (json O order (Pdict ([a; b; c; d; e] ++ (k, x) :: r)) = Err TypeError) end.
    apply json_error.
    + destruct M as (outs & ins & types & args & n0 & r0 & c0 & no & r & cs & E1 & ->). cbn [ol_types ol_args ol_reg ol_rows].
      destruct (gen_run_keys (reg_enc (ols_preprocess (ol_reg c0)) (g_out (ol_reg c0))) cs) as [N KY]. rewrite <- reg_run_gen in N, KY.
      destruct (trip_save O order Ho Pnum as_num (reg_run (ols_preprocess (ol_reg c0)) (g_out (ol_reg c0)) cs)) as (vd & w' & Td & _); [reflexivity|reflexivity|exact N|exact KY|].
      destruct (trip_distargs O order Ho types args (ol_reg c0)) as (va & Ta & _).
      repeat (constructor; [cbn [snd]; eexists; first [apply trip_ints|exact Td|exact Ta|reflexivity]|]). constructor.
    + match goal with |- json _ _ (Pdict [?a; ?b; (?k, ?x)]) = _ => apply (json_error order [a; b] k x []) end; [repeat constructor; eexists; reflexivity|reflexivity].
  - destruct (C69_forest O dump undump fresh order c Hp Ho M) as (_ & m & _ & E & _). split; [eauto|]. unfold rforest_load, rforest_save.
    cbn [pget items rbind look find key_eqb String.eqb Ascii.eqb Bool.eqb fst snd option_map as_str]. rewrite Hp. cbn [fst].
    cbn [assign_param map key_eqb String.eqb Ascii.eqb Bool.eqb fst snd assign filter negb app].
    match goal with |- json _ _ (Pdict (?a :: ?b :: ?c :: ?d :: ?e :: ?f :: ?g :: (?k, ?x) :: ?r)) = _ => change (json O order (Pdict ([a; b; c; d; e; f; g] ++ (k, x) :: r)) = Err TypeError) end.
    apply json_error.
    + destruct M as (outs & ins & types & kk & n0 & r0 & c0 & no & r & cs & E1 & ->). cbn [rf_types rf_forest rf_state].
      destruct (gen_run_keys (forest_preprocess (rf_forest c0)) cs) as [N KY]. rewrite <- forest_run_rows in N, KY.
      destruct (trip_save O order Ho Pint as_int (f_rows (forest_run (rf_forest c0) cs))) as (vd & w' & Td & _); [reflexivity|reflexivity|exact N|exact KY|].
      assert (Tda : exists v, json O order (Pdict [(Kstr "inputs", Pdict [(Kstr "stattypes", strs types)]); (Kstr "k", Pint (o_k (rf_forest c0))); (Kstr "p", Pint (o_p (rf_forest c0)))]) = Ok v).
      { eexists. apply (trip_dict O order _ [("inputs"%string, Pdict (as_dict O order [("stattypes"%string, strs types)])); ("k"%string, Pint (o_k (rf_forest c0))); ("p"%string, Pint (o_p (rf_forest c0)))]).
        constructor; [split; [reflexivity|]|repeat constructor]. apply trip_dict. constructor; [split; [reflexivity|apply trip_strs]|constructor]. }
      repeat (constructor; [cbn [snd]; first [eexists; apply trip_ints|eexists; exact Td|exact Tda|eexists; reflexivity]|]). constructor.
    + match goal with |- json _ _ (Pdict [?a; ?b; (?k, ?x)]) = _ => apply (json_error order [a; b] k x []) end; [repeat constructor; eexists; reflexivity|reflexivity].
Qed.
Print Assumptions C69_spoiled.

(* ------------------------------------------------------------------ *)
(** ** Components over several outputs *)
Lemma distinct_NoDup l : distinct l = true -> NoDup l.
Proof.
  unfold distinct. intros E. apply Nat.eqb_eq in E. apply (@NoDup_incl_NoDup Z (nodup Z.eq_dec l) l); [apply NoDup_nodup|rewrite E; lia|]. intros x. apply nodup_In.
Qed.
Lemma table_keys g cs : NoDup (t_out g) -> NoDup (dkeys (t_data (table_run g cs))).
Proof. intros N. destruct (C50_table g cs N) as (E & _ & K & _). rewrite E. unfold dkeys. rewrite map_map. exact K. Qed.
Lemma table_checks_distinct least outs ins types args u : table_checks least outs ins types args = Ok u -> ins = [] /\ NoDup outs.
Proof.
  unfold table_checks. destruct ins; [|discriminate]. destruct (Nat.ltb _ _); [discriminate|]. destruct (distinct outs) eqn:D; [|discriminate]. intros _. split; [reflexivity|now apply distinct_NoDup].
Qed.
Lemma trip_outs O order (Ho : some_order order) (rest : list (key * pyv O)) rest' types args : Forall2 (trip_entry O order) rest rest' -> slast "outputs" rest' = None ->
  exists v, json O order (Pdict ((Kstr "outputs", out_distargs types args) :: rest)) = Ok v /\ (forall m, pget "distargs" m = Ok v -> types_of "outputs" m = Ok (types, args)) /\
    (forall s x, s <> "outputs"%string -> slast s rest' = Some x -> pget s v = Ok x).
Proof.
  intros F No. destruct (trip_types O order Ho types args) as (v & T & R1 & R2). exists (Pdict (as_dict O order (("outputs"%string, v) :: rest'))). split; [|split].
  - apply trip_dict. constructor; [split; [reflexivity|exact T]|exact F].
  - intros m E. unfold types_of. rewrite E. cbn [rbind]. rewrite (pget_trip O order Ho "outputs" _ v) by (cbn [slast]; rewrite No; reflexivity). cbn [rbind]. rewrite R1. cbn [rbind]. rewrite R2. reflexivity.
  - intros s x _ E. apply (pget_trip O order Ho). cbn [slast]. rewrite E. reflexivity.
Qed.
Definition kde_made bw0 (c : kde) : Prop := exists outs ins types args bw c0 bw' g cs,
  kde_init bw0 outs ins types args bw = Ok c0 /\ t_out g = outs /\ c = Kde outs types args bw' (table_run g cs).
Theorem C69_kde : forall O order bw0 c, some_order order -> kde_made bw0 c ->
  kde_load bw0 (@kde_save O c) = Ok c /\ exists m, json O order (kde_save c) = Ok m /\ kde_load bw0 m = Ok c.
Proof.
  intros O order bw0 c Ho (outs & ins & types & args & bw & c0 & bw' & g & cs & E & <- & ->). unfold kde_init in E.
  destruct (table_checks 1 (t_out g) ins types args) as [[]|] eqn:Ec; [|discriminate]. clear E. destruct (table_checks_distinct _ _ _ _ _ _ Ec) as [-> N]. apply (table_keys g cs) in N. set (t := table_run g cs) in *.
  assert (Load : forall m vp, pget "outputs" m = Ok (@ints O (t_out g)) -> pget "inputs" m = Ok (ints []) -> types_of "outputs" m = Ok (types, args) ->
    pget "params" m = Ok (Pdict vp) -> look "bw" vp = Some (nums bw') -> pget "data" m = Ok (pairs (t_data t)) -> pget "N" m = Ok (Pint (t_N t)) -> kde_load bw0 m = Ok (Kde (t_out g) types args bw' t)).
  { intros m vp E1 E2 E3 E4 E5 E6 E7. unfold kde_load. rewrite E1, E2, E3, E4. cbn [rbind]. rewrite !read_ints. cbn [rbind]. unfold pget_or. cbn [items rbind]. rewrite E5. unfold some_of. rewrite read_nums. cbn [rbind].
    unfold kde_init. rewrite Ec. cbn [rbind]. unfold load_table. rewrite E6, E7. cbn [rbind as_int]. rewrite read_pairs by exact N. destruct t; reflexivity. }
  split.
  - unfold kde_save. cbn [kd_outputs kd_types kd_args kd_bw kd_table]. eapply Load; try reflexivity.
    unfold types_of, out_distargs. cbn [pget items rbind look find key_eqb String.eqb Ascii.eqb Bool.eqb fst snd option_map]. rewrite read_strs. cbn [rbind]. rewrite read_statargs0. reflexivity.
  - destruct (trip_outs O order Ho [] [] types args) as (va & Ta & Ra & _); [constructor|reflexivity|].
    set (pr := as_dict O order [("bw"%string, nums bw')]).
    exists (Pdict (as_dict O order [("outputs"%string, ints (t_out g)); ("inputs"%string, ints []); ("distargs"%string, va); ("N"%string, Pint (t_N t)); ("data"%string, pairs (t_data t));
      ("params"%string, Pdict pr); ("factory"%string, factory "cgpm.kde.mvkde" "MultivariateKde")])). split.
    + unfold kde_save. apply trip_dict. cbn [kd_outputs kd_types kd_args kd_bw kd_table].
      assert (Tp : json O order (Pdict [(Kstr "bw", nums bw')]) = Ok (Pdict pr)) by (apply trip_dict; constructor; [split; [reflexivity|apply trip_nums]|constructor]).
      repeat (constructor; [split; [reflexivity|cbn [snd]; first [apply trip_ints|exact Ta|apply trip_pairs|exact Tp|reflexivity]]|]). constructor.
    + set (m := Pdict _). assert (G : forall s v, slast s _ = Some v -> pget s m = Ok v) by (intros s v; apply (pget_trip O order Ho)).
      apply (Load m pr); try (apply G; reflexivity); [apply Ra, G; reflexivity|]. unfold pr. rewrite look_as_dict by exact Ho. reflexivity.
Qed.
Print Assumptions C69_kde.
Definition knn_made (c : knn) : Prop := exists outs ins K M types args c0 g cs,
  knn_init outs ins K M types args = Ok c0 /\ t_out g = outs /\ c = MKnn outs types args K (kn_M c0) (table_run g cs).
Theorem C69_knn : forall O order c, some_order order -> knn_made c ->
  knn_load (@knn_save O c) = Ok c /\ exists m, json O order (knn_save c) = Ok m /\ knn_load m = Ok c.
Proof.
  intros O order c Ho (outs & ins & K & M0 & types & args & c0 & g & cs & E & <- & ->). set (M := kn_M c0). clearbody M. unfold knn_init in E. destruct (K <? 1) eqn:EK; [discriminate|].
  destruct (table_checks 2 (t_out g) ins types args) as [[]|] eqn:Ec; [|discriminate]. clear E. destruct (table_checks_distinct _ _ _ _ _ _ Ec) as [-> N]. apply (table_keys g cs) in N. set (t := table_run g cs) in *.
  assert (Load : forall m vd vp, pget "outputs" m = Ok (@ints O (t_out g)) -> pget "inputs" m = Ok (ints []) -> pget "distargs" m = Ok vd -> types_of "outputs" m = Ok (types, args) ->
    pget "K" vd = Ok (Pint K) -> pget "M" vd = Ok (Pint M) -> pget "params" m = Ok vp -> pget "data" m = Ok (pairs (t_data t)) -> pget "N" m = Ok (Pint (t_N t)) -> knn_load m = Ok (MKnn (t_out g) types args K M t)).
  { intros m vd vp E1 E2 E3 E4 E5 E6 E7 E8 E9. unfold knn_load. rewrite E1, E2, E3, E4, E7. cbn [rbind]. rewrite !read_ints. cbn [rbind]. rewrite E5, E6. cbn [rbind as_int].
    unfold knn_init. rewrite EK, Ec. cbn [rbind]. unfold load_table. rewrite E8, E9. cbn [rbind as_int]. rewrite read_pairs by exact N. destruct t; reflexivity. }
  split.
  - unfold knn_save. cbn [kn_outputs kn_types kn_args kn_K kn_M kn_table]. eapply Load; try reflexivity.
    unfold types_of, out_distargs. cbn [pget items rbind look find key_eqb String.eqb Ascii.eqb Bool.eqb fst snd option_map]. rewrite read_strs. cbn [rbind]. rewrite read_statargs0. reflexivity.
  - destruct (trip_outs O order Ho [(Kstr "K", Pint K); (Kstr "M", Pint M)] [("K"%string, Pint K); ("M"%string, Pint M)] types args) as (va & Ta & Ra & Rk); [repeat constructor|reflexivity|].
    exists (Pdict (as_dict O order [("outputs"%string, ints (t_out g)); ("inputs"%string, ints []); ("distargs"%string, va); ("N"%string, Pint (t_N t)); ("data"%string, pairs (t_data t));
      ("params"%string, Pdict (as_dict O order [])); ("factory"%string, factory "cgpm.knn.mvknn" "MultivariateKnn")])). split.
    + unfold knn_save. apply trip_dict. cbn [kn_outputs kn_types kn_args kn_K kn_M kn_table].
      repeat (constructor; [split; [reflexivity|cbn [snd]; first [apply trip_ints|exact Ta|apply trip_pairs|reflexivity|apply trip_dict; constructor]]|]). constructor.
    + set (m := Pdict _). assert (G : forall s v, slast s _ = Some v -> pget s m = Ok v) by (intros s v; apply (pget_trip O order Ho)).
      eapply (Load m va); try (apply G; reflexivity); [apply Ra, G; reflexivity|apply Rk; [discriminate|reflexivity]..].
Qed.
Print Assumptions C69_knn.
Definition fact_made (c : Saved.fact) : Prop := exists outs ins L types mux Psi W c0 mux' Psi' W' g cs,
  fact_init outs ins L types mux Psi W = Ok c0 /\ t_out g = outs /\ c = Fact outs L mux' Psi' W' (table_run g cs).
Theorem C69_fact : forall O order c, some_order order -> fact_made c ->
  fact_load (@fact_save O c) = Ok c /\ exists m, json O order (fact_save c) = Ok m /\ fact_load m = Ok c.
Proof.
  intros O order c Ho (outs & ins & L & types & mux0 & Psi0 & W0 & c0 & mux & Psi & W & g & cs & E & <- & ->).
  assert (Init : ins = [] /\ NoDup (t_out g) /\ fact_init (t_out g) [] L None (Some mux) (Some Psi) (Some W) = Ok (Fact (t_out g) L mux Psi W table0)).
  { unfold fact_init in *. destruct ins; [|discriminate]. destruct (Nat.ltb (length (t_out g)) 2); [discriminate|]. destruct (distinct (t_out g)) eqn:D; [|discriminate]. cbn [negb] in *.
    destruct (Nat.eqb L 0); [discriminate|]. destruct (match types with Some _ => _ | None => _ end); [discriminate|]. destruct (Nat.ltb _ L); [discriminate|]. split; [reflexivity|]. split; [now apply distinct_NoDup|reflexivity]. }
  destruct Init as (-> & N & Ei). clear E. apply (table_keys g cs) in N. set (t := table_run g cs) in *.
  assert (Load : forall m vp, pget "outputs" m = Ok (@ints O (t_out g)) -> pget "inputs" m = Ok (ints []) -> pget "L" m = Ok (Pint (Z.of_nat L)) ->
    pget "params" m = Ok (Pdict vp) -> look "mux" vp = Some (nums mux) -> look "Psi" vp = Some (Plist (map nums Psi)) -> look "W" vp = Some (Plist (map nums W)) ->
    pget "data" m = Ok (pairs (t_data t)) -> pget "N" m = Ok (Pint (t_N t)) -> fact_load m = Ok (Fact (t_out g) L mux Psi W t)).
  { intros m vp E1 E2 E3 E4 E5 E6 E7 E8 E9. unfold fact_load. rewrite E1, E2, E3, E4. cbn [rbind]. rewrite !read_ints. cbn [rbind as_int]. unfold pget_or. cbn [items rbind]. rewrite E5, E6, E7. unfold some_of.
    rewrite read_nums, !read_matrix. cbn [rbind]. rewrite Nat2Z.id, Ei. cbn [rbind]. unfold load_table. rewrite E8, E9. cbn [rbind as_int]. rewrite read_pairs by exact N. destruct t; reflexivity. }
  split.
  - unfold fact_save. cbn [fc_outputs fc_L fc_mux fc_Psi fc_W fc_table]. eapply Load; reflexivity.
  - set (pr := as_dict O order [("mux"%string, nums mux); ("Psi"%string, Plist (map nums Psi)); ("W"%string, Plist (map nums W))]).
    exists (Pdict (as_dict O order [("outputs"%string, ints (t_out g)); ("inputs"%string, ints []); ("N"%string, Pint (t_N t)); ("L"%string, Pint (Z.of_nat L)); ("data"%string, pairs (t_data t));
      ("params"%string, Pdict pr); ("factory"%string, factory "cgpm.factor.factor" "FactorAnalysis")])). split.
    + unfold fact_save. apply trip_dict. cbn [fc_outputs fc_L fc_mux fc_Psi fc_W fc_table].
      assert (Tp : json O order (Pdict [(Kstr "mux", nums mux); (Kstr "Psi", Plist (map nums Psi)); (Kstr "W", Plist (map nums W))]) = Ok (Pdict pr)).
      { apply trip_dict. constructor; [split; [reflexivity|apply trip_nums]|]. constructor; [split; [reflexivity|apply trip_matrix]|]. constructor; [split; [reflexivity|apply trip_matrix]|constructor]. }
      repeat (constructor; [split; [reflexivity|cbn [snd]; first [apply trip_ints|apply trip_pairs|exact Tp|reflexivity]]|]). constructor.
    + set (m := Pdict _). assert (G : forall s v, slast s _ = Some v -> pget s m = Ok v) by (intros s v; apply (pget_trip O order Ho)).
      apply (Load m pr); try (apply G; reflexivity); unfold pr; rewrite look_as_dict by exact Ho; reflexivity.
Qed.
Print Assumptions C69_fact.

(* ------------------------------------------------------------------ *)
(** ** Cases that meet the hypotheses *)
Example C69_order_ex : some_order (@rev string).
Proof. intros l _. apply Permutation_sym, Permutation_rev. Qed.
Definition ex_calls : list call := [Inc 10 [(7, Fin 1)] [(8, Fin 2)]; Inc 2 [(7, Fin 3)] [(8, Fin 4)]; Uninc 5].
Definition ex_lin : linreg := Linreg ["normal"%string] [None] (Reg 7 [8] 2 []) (Fin 3) (Fin 4) (zeros 2) (eye 2) (Rows [(10, Fin 1); (2, Fin 3)] [(10, [Fin 1; Fin 2]); (2, [Fin 1; Fin 4])] 2).
Example C69_linreg_ex : linreg_made all_numeric None None ex_lin /\ exists m, json string (@rev string) (linreg_save ex_lin) = Ok m /\
  exists c, linreg_load all_numeric m = Ok c /\ w_x (lr_rows c) = [(2, Fin 3); (10, Fin 1)].
Proof.
  split; [exists [7], [8], ["normal"%string], [None], None, None; eexists; exists (Fin 3), (Fin 4), ex_calls; split; reflexivity|].
  eexists. split; [reflexivity|]. eexists. split; reflexivity.
Qed.
Example C69_ols_ex : exists w, ols_made string "new"%string all_numeric (Ols ["normal"%string] [None] (Reg 7 [8] 2 []) (Fin 3) "fitted"%string w) /\ w_x w = [(10, Fin 1); (2, Fin 3)].
Proof.
  eexists. split; [exists [7], [8], ["normal"%string], [None], None, None; eexists; exists (Fin 3), "fitted"%string, ex_calls; split; reflexivity|reflexivity].
Qed.
Example C69_forest_ex : exists c : rforest string, rforest_made "new"%string c /\ f_counts (rf_state c) = [0; 1] /\ w_x (f_rows (rf_state c)) = [(10, 1)].
Proof.
  eexists. split; [exists [7], [8], ["normal"%string], 2, None, None; eexists; exists (Fin 1), "fitted"%string, [Inc 10 [(7, Fin 1)] [(8, Fin 2)]]; split; reflexivity|].
  cbn [rf_state rf_forest]. unfold forest_run. cbn [fold_left forest_step]. unfold forest_incorporate. cbn [forest0 f_rows rows0 w_x w_Y dmem dget].
  unfold forest_preprocess. cbn [o_out o_in o_k dmem dget]. 
  assert (C : category 2 (Fin 1) = Some 1) by (apply category_spec; split; [reflexivity|lia]). cbn -[category]. rewrite C. cbn. auto.
Qed.
Definition ex_table : shape := Shape [1; 2] [].
Definition ex_table_calls : list call := [Inc 10 [(1, Fin 1)] []; Inc 2 [(2, Fin 3); (1, Fin 4)] []].
Example C69_kde_ex : kde_made (fun o => map (fun _ => Fin 1) o) (Kde [1; 2] ["numerical"%string; "categorical"%string] [None; Some 5] [Fin 2; Fin 3] (Table [(10, [Fin 1; NaN]); (2, [Fin 4; Fin 3])] 2)).
Proof. exists [1; 2], [], ["numerical"%string; "categorical"%string], [None; Some 5], None. eexists. exists [Fin 2; Fin 3], ex_table, ex_table_calls. repeat split; reflexivity. Qed.
Example C69_knn_ex : knn_made (MKnn [1; 2] ["numerical"%string; "categorical"%string] [None; Some 5] 3 7 (Table [(10, [Fin 1; NaN]); (2, [Fin 4; Fin 3])] 2)).
Proof. exists [1; 2], [], 3, (Some 7), ["numerical"%string; "categorical"%string], [None; Some 5]. eexists. exists ex_table, ex_table_calls. repeat split; reflexivity. Qed.
Example C69_fact_ex : fact_made (Fact [1; 2; 3] 1 [Fin 1; Fin 2] [[Fin 1; Fin 0]; [Fin 0; Fin 2]] [[Fin 1]; [Fin 3]] (Table [(10, [Fin 1; NaN]); (2, [Fin 4; Fin 3])] 2)).
Proof. exists [1; 2; 3], [], 1%nat, None, None, None, None. eexists. do 3 eexists. exists (Shape [1; 2] [3]), ex_table_calls. repeat split; reflexivity. Qed.

(* ------------------------------------------------------------------ *)
(** ** Answers of a regression rebuilt *)
(** Unchanged by taking the rows, inputs and targets together, in another order. *)
Definition symmetric (density : option ext -> list ext -> Z -> list (list ext) -> list ext -> res ext) : Prop :=
  forall x y n Y X Y' X', length Y = length X -> length Y' = length X' -> Permutation (combine Y' X') (combine Y X) -> density x y n Y' X' = density x y n Y X.
Lemma vals_map {A} (dflt : A) (d : dict A) : NoDup (dkeys d) -> map snd d = map (fun r => match dget r d with Some v => v | None => dflt end) (dkeys d).
Proof.
  induction d as [|[k v] d IH]; intros N; [reflexivity|]. cbn [map dkeys snd fst]. inversion N as [|? ? N1 N2]; subst. cbn [dget]. rewrite Z.eqb_refl. f_equal.
  rewrite IH by exact N2. apply map_ext_in. intros r Hr. destruct (Z.eqb_spec r k) as [->|]; [contradiction|reflexivity].
Qed.
Lemma combine_map {A B C} (f : A -> B) (g : A -> C) l : combine (map f l) (map g l) = map (fun a => (f a, g a)) l.
Proof. induction l; [reflexivity|]. cbn. now f_equal. Qed.
Theorem C69_answers : forall prep density (w w' : rows ext), symmetric density -> NoDup (dkeys (w_x w)) -> dkeys (w_Y w) = dkeys (w_x w) -> same_rows w w' ->
  forall rowid targets constraints inputs, reg_logpdf prep density w' rowid targets constraints inputs = reg_logpdf prep density w rowid targets constraints inputs.
Proof.
  intros prep density w w' Sy N KY (P & KY' & Gx & GY & EN) r t cons i. unfold reg_logpdf. assert (M : dmem r (w_x w') = dmem r (w_x w)).
  { apply eq_true_iff_eq. rewrite !dmem_in. split; apply Permutation_in; [exact P|now apply Permutation_sym]. }
  rewrite M. destruct (dmem r (w_x w)); [reflexivity|]. destruct cons; [|reflexivity]. destruct (prep (Some t) i) as [[x y]|]; [|reflexivity]. cbn [rbind]. rewrite EN.
  assert (N' : NoDup (dkeys (w_x w'))) by (eapply Permutation_NoDup; [apply Permutation_sym; exact P|exact N]).
  apply Sy; [rewrite !map_length; rewrite <- (map_length fst (w_Y w)), <- (map_length fst (w_x w)); f_equal; exact KY|rewrite !map_length; rewrite <- (map_length fst (w_Y w')), <- (map_length fst (w_x w')); f_equal; exact KY'|].
  rewrite (vals_map [] (w_Y w')), (vals_map NaN (w_x w')), (vals_map [] (w_Y w)), (vals_map NaN (w_x w)) by (rewrite ?KY, ?KY'; assumption). rewrite KY, KY', !combine_map.
  rewrite (map_ext _ (fun r => (match dget r (w_Y w) with Some v => v | None => [] end, match dget r (w_x w) with Some v => v | None => NaN end))) by (intros q; rewrite Gx, GY; reflexivity).
  apply Permutation_map. exact P.
Qed.
Print Assumptions C69_answers.
(** The sum of the products of targets and first inputs: a density may depend on the rows. *)
Example C69_symmetric_ex : symmetric (fun x y n Y X => Ok (Fin (IZR n + fold_right Rplus 0%R (map (fun e => match snd e, fst e with Fin a, Fin b :: _ => (a * b)%R | _, _ => 0%R end) (combine Y X)))%R)).
Proof.
  intros x y n Y X Y' X' _ _ P. do 3 f_equal. apply (Permutation_map (fun e => match snd e, fst e with Fin a, Fin b :: _ => (a * b)%R | _, _ => 0%R end)) in P.
  induction P; cbn [fold_right]; [reflexivity|lra|lra|congruence].
Qed.
