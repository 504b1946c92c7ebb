(** C67: the density of the kernel density estimator is the density of its sampler. *)
From Coq Require Import Permutation.
From Verif Require Import LogSpaceFacts Holders Kde.
Local Open Scope R_scope.

(* ------------------------------------------------------------------ *)
(** ** Specification *)
Definition bell (mu s x : R) : R := exp (- ((x - mu) / s) ^ 2 / 2) / (s * sqrt (2 * PI)).
(** The chance of [x] by the kernel about [xi], a category among [n]. *)
Definition kern (c : kcol) (n : R) (xi x : R) : R :=
  match kc_kind c with Num => bell xi (kc_bw c) x | Cat _ => if Req_EM_T xi x then 1 - kc_bw c else kc_bw c / (n - 1) end.
Definition declared (c : kcol) : R := match kc_kind c with Num => 0 | Cat k => IZR k end.
Fixpoint chance (cols : list kcol) (ns cells xs : list R) : R :=
  match cols, ns, cells, xs with c :: cols', n :: ns', xi :: cells', x :: xs' => kern c n xi x * chance cols' ns' cells' xs' | _, _, _, _ => 1 end.
Definition proper (c : kcol) : Prop := match kc_kind c with Num => 0 < kc_bw c | Cat k => (2 <= k)%Z /\ 0 < kc_bw c < 1 end.
(** A cell of the column. *)
Definition cell_ok (c : kcol) (x : R) : Prop := match kc_kind c with Num => True | Cat k => exists j, x = INR j /\ (Z.of_nat j < k)%Z end.
(** All categories occur; two values or more occur; [n] values occur. *)
Definition full (c : kcol) (Xi : list R) : Prop := match kc_kind c with Num => True | Cat k => forall j, (Z.of_nat j < k)%Z -> In (INR j) Xi end.
Definition varied (c : kcol) (Xi : list R) : Prop := match kc_kind c with Num => True | Cat _ => exists a b, In a Xi /\ In b Xi /\ a <> b end.
Definition occurring (Xi : list R) (n : nat) : Prop := exists l, NoDup l /\ length l = n /\ forall x, In x l <-> In x Xi.
Definition at_column (j : nat) (M : list (list R)) : list R := map (fun row => nth j row 0) M.
(** Rows with the cells of the targets and then those of the constraints, columns and values in
    order, every category of a target and two of a constraint among the rows. *)
Record sound (ct cc : list kcol) (M : list (list R)) (xt xc : list R) : Prop := Sound {
  s_xt : length xt = length ct; s_xc : length xc = length cc; s_rows : forall row, In row M -> length row = (length ct + length cc)%nat;
  s_proper : Forall proper (ct ++ cc);
  s_cells : forall j c, nth_error ct j = Some c -> Forall (cell_ok c) (at_column j M) /\ full c (at_column j M);
  s_value : Forall2 cell_ok ct xt;
  s_varied : forall j c, nth_error cc j = Some c -> varied c (at_column (length ct + j) M) }.

(* ------------------------------------------------------------------ *)
(** ** Products of kernels *)
Definition count (Xi : list R) : nat := length (nodup Req_EM_T Xi).
Lemma count_occurring Xi : occurring Xi (count Xi).
Proof. exists (nodup Req_EM_T Xi). split; [apply NoDup_nodup|]. split; [reflexivity|]. intros x. apply nodup_In. Qed.
Lemma occurring_fun Xi n m : occurring Xi n -> occurring Xi m -> n = m.
Proof. intros [l [A [<- B]]] [l' [A' [<- B']]]. apply Permutation_length, NoDup_Permutation; auto. intros x. rewrite B, B'. reflexivity. Qed.
Lemma varied_count c Xi k : kc_kind c = Cat k -> varied c Xi -> (2 <= count Xi)%nat.
Proof.
  unfold varied. intros -> [a [b [Ha [Hb Hn]]]]. unfold count. change 2%nat with (length [a; b]). apply NoDup_incl_length.
  - constructor; [intros [E|[]]; congruence|]. constructor; [intros []|constructor].
  - intros x [<-|[<-|[]]]; apply nodup_In; assumption.
Qed.
Lemma full_count c Xi k : kc_kind c = Cat k -> (2 <= k)%Z -> Forall (cell_ok c) Xi -> full c Xi -> INR (count Xi) = IZR k.
Proof.
  intros Ek Hk Hc Hf. unfold full in Hf. rewrite Ek in Hf. assert (E : count Xi = Z.to_nat k).
  { apply (occurring_fun Xi); [apply count_occurring|]. exists (map INR (seq 0 (Z.to_nat k))). split; [|split; [rewrite map_length, seq_length; reflexivity|]].
    - apply FinFun.Injective_map_NoDup; [intros x y H; apply INR_eq, H|apply seq_NoDup].
    - intros x. split.
      + intros H. apply in_map_iff in H. destruct H as [j [<- Hj]]. apply in_seq in Hj. apply Hf. lia.
      + intros H. rewrite Forall_forall in Hc. specialize (Hc x H). unfold cell_ok in Hc. rewrite Ek in Hc. destruct Hc as [j [-> Hj]]. apply in_map, in_seq. lia. }
  rewrite E, INR_IZR_INZ, Z2Nat.id by lia. reflexivity.
Qed.
Lemma full_varied c Xi : proper c -> full c Xi -> varied c Xi.
Proof.
  unfold proper, full, varied. destruct (kc_kind c) as [|k]; [trivial|]. intros [Hk _] Hf. exists (INR 0), (INR 1). split; [apply Hf; lia|]. split; [apply Hf; lia|]. cbn. lra.
Qed.
Lemma bell_pos mu s x : 0 < s -> 0 < bell mu s x.
Proof. intros Hs. unfold bell. apply Rdiv_lt_0_compat; [apply exp_pos|]. apply Rmult_lt_0_compat; [exact Hs|]. apply sqrt_lt_R0. pose proof PI_RGT_0. lra. Qed.
Lemma kern_pos c n xi x : proper c -> (kc_kind c <> Num -> 1 < n) -> 0 < kern c n xi x.
Proof.
  unfold proper, kern. destruct (kc_kind c) as [|k]; intros Hp Hn; [apply bell_pos, Hp|]. destruct Hp as [_ Hb]. destruct (Req_EM_T xi x); [lra|]. apply Rdiv_lt_0_compat; [lra|]. assert (1 < n) by (apply Hn; discriminate). lra.
Qed.
Lemma chance_pos cols : forall ns cells xs, Forall proper cols -> (forall j c n, nth_error cols j = Some c -> nth_error ns j = Some n -> kc_kind c <> Num -> 1 < n) -> 0 < chance cols ns cells xs.
Proof.
  induction cols as [|c cols IH]; intros [|n ns] [|xi cells] [|x xs] Hp Hn; cbn; try lra. inversion Hp as [|? ? P1 P2]; subst. apply Rmult_lt_0_compat.
  - apply kern_pos; [exact P1|]. apply (Hn 0%nat); reflexivity.
  - apply IH; [exact P2|]. intros j. apply (Hn (S j)).
Qed.

(** The width of the numerical columns. *)
Definition width (cols : list kcol) : R := fold_right (fun c a => (if is_num c then kc_bw c else 1) * a) 1 cols.
Lemma width_fold cols : fold_left Rmult (map kc_bw (filter is_num cols)) 1 = width cols.
Proof.
  assert (G : forall a, fold_left Rmult (map kc_bw (filter is_num cols)) a = a * width cols).
  { induction cols as [|c cols IH]; intros a; cbn; [ring|]. destruct (is_num c); cbn; rewrite IH; fold (width cols); ring. }
  rewrite G. ring.
Qed.
Lemma width_pos cols : Forall proper cols -> 0 < width cols.
Proof.
  induction 1 as [|c cols P Q IH]; cbn; [lra|]. apply Rmult_lt_0_compat; [|exact IH]. unfold proper, is_num in *. destruct (kc_kind c); [exact P|lra].
Qed.
Lemma kernel_nth c Xi x i xi : proper c -> varied c Xi -> nth_error Xi i = Some xi ->
  nth i (kernel c Xi x) NaN = Fin ((if is_num c then kc_bw c else 1) * kern c (INR (count Xi)) xi x).
Proof.
  intros Hp Hv Hi. unfold kernel. apply nth_error_nth. rewrite nth_error_map, Hi. cbn [option_map]. f_equal. unfold is_num, kern. destruct (kc_kind c) as [|k] eqn:Ek.
  - unfold proper in Hp. rewrite Ek in Hp. unfold gaussian, ediv. replace (Reqb (kc_bw c ^ 2 * 2) 0) with false by (symmetry; apply Reqb_false; nra). cbn [eexp emul]. f_equal. unfold bell.
    assert (Hs : 0 < sqrt (2 * PI)) by (apply sqrt_lt_R0; pose proof PI_RGT_0; lra). replace (- ((x - xi) / kc_bw c) ^ 2 / 2) with (- (xi - x) ^ 2 / (kc_bw c ^ 2 * 2)) by (field; lra). field. split; lra.
  - pose proof (varied_count c Xi k Ek Hv) as Hc. unfold aitchison. fold (count Xi). apply le_INR in Hc. cbn in Hc. destruct (Req_EM_T xi x) as [->|N].
    + rewrite (proj2 (Reqb_true x x) eq_refl). f_equal. ring.
    + rewrite (proj2 (Reqb_false xi x) N). unfold ediv. replace (Reqb (INR (count Xi) - 1) 0) with false by (symmetry; apply Reqb_false; lra). f_equal. ring.
Qed.
Lemma product_val M i row : nth_error M i = Some row -> forall cols xs j a, length xs = length cols -> Forall proper cols ->
  (forall t c, nth_error cols t = Some c -> varied c (at_column (j + t) M)) -> (j + length cols <= length row)%nat ->
  fold_left emul (map (fun K => nth i K NaN) (map (fun '(j, (c, x)) => kernel c (map (fun row => nth j row 0) M) x) (combine (seq j (length cols)) (combine cols xs)))) (Fin a) =
  Fin (a * width cols * chance cols (map (fun t => INR (count (at_column t M))) (seq j (length cols))) (skipn j row) xs).
Proof.
  intros Hi. induction cols as [|c cols IH]; intros [|x xs] j a L Hp Hv Hl; try discriminate; [cbn; f_equal; destruct (skipn j row); ring|].
  inversion Hp as [|? ? P1 P2]; subst. cbn [length seq combine map fold_left]. change (map (fun row0 => nth j row0 0) M) with (at_column j M).
  assert (Hn : nth_error (at_column j M) i = Some (nth j row 0)) by (unfold at_column; rewrite nth_error_map, Hi; reflexivity).
  rewrite (kernel_nth c (at_column j M) x i (nth j row 0) P1); [|specialize (Hv 0%nat c eq_refl); rewrite Nat.add_0_r in Hv; exact Hv|exact Hn]. cbn [emul].
  rewrite IH; [|cbn in L; lia|exact P2|intros t d Ht; replace (S j + t)%nat with (j + S t)%nat by lia; apply Hv; exact Ht|cbn in Hl; lia]. f_equal.
  assert (Es : skipn j row = nth j row 0 :: skipn (S j) row). { cbn in Hl. assert (Hj : (j < length row)%nat) by lia. clear - Hj. revert j Hj. induction row as [|r row IH]; intros [|j] Hj; cbn in Hj; try lia; [reflexivity|]. cbn [skipn nth]. apply IH. lia. }
  rewrite Es. cbn [chance]. cbn [width fold_right]. fold (width cols). ring.
Qed.
Lemma gpke_val cols M xs : length xs = length cols -> Forall proper cols -> (forall t c, nth_error cols t = Some c -> varied c (at_column t M)) -> (forall row, In row M -> (length cols <= length row)%nat) ->
  gpke cols M xs = map (fun row => Fin (chance cols (map (fun t => INR (count (at_column t M))) (seq 0 (length cols))) row xs)) M.
Proof.
  intros L Hp Hv Hl. unfold gpke. rewrite width_fold. pose proof (width_pos cols Hp) as Hw.
  set (ns := map (fun t => INR (count (at_column t M))) (seq 0 (length cols))).
  assert (G : forall i row, nth_error M i = Some row -> ediv (fold_left emul (map (fun K => nth i K NaN) (map (fun '(j, (c, x)) => kernel c (map (fun row => nth j row 0) M) x) (combine (seq 0 (length cols)) (combine cols xs)))) (Fin 1)) (Fin (width cols)) = Fin (chance cols ns row xs)).
  { intros i row Hi. rewrite (product_val M i row Hi) by (auto; try exact Hv; apply Hl; eapply nth_error_In; exact Hi). unfold ediv. replace (Reqb (width cols) 0) with false by (symmetry; apply Reqb_false; lra). f_equal. cbn [skipn]. fold ns. field. lra. }
  clearbody ns. clear - G. revert G. generalize (map (fun '(j, (c, x)) => kernel c (map (fun row => nth j row 0) M) x) (combine (seq 0 (length cols)) (combine cols xs))). intros Kval G.
  assert (Q : forall M' i, (forall t row, nth_error M' t = Some row -> nth_error M (i + t) = Some row) -> map (fun i0 => ediv (fold_left emul (map (fun K => nth i0 K NaN) Kval) (Fin 1)) (Fin (width cols))) (seq i (length M')) = map (fun row => Fin (chance cols ns row xs)) M').
  { induction M' as [|row M' IH]; intros i H; [reflexivity|]. cbn [length seq map]. f_equal; [apply G; specialize (H 0%nat row eq_refl); rewrite Nat.add_0_r in H; exact H|]. apply IH. intros t r Ht. replace (S i + t)%nat with (i + S t)%nat by lia. apply H, Ht. }
  apply Q. intros t row Ht. exact Ht.
Qed.

(* ------------------------------------------------------------------ *)
(** ** The law *)
Lemma chance_app c1 c2 n1 n2 y1 y2 x1 x2 : length n1 = length c1 -> length y1 = length c1 -> length x1 = length c1 ->
  chance (c1 ++ c2) (n1 ++ n2) (y1 ++ y2) (x1 ++ x2) = chance c1 n1 y1 x1 * chance c2 n2 y2 x2.
Proof.
  revert n1 y1 x1. induction c1 as [|c c1 IH]; intros [|n n1] [|y y1] [|x x1] A B C; try discriminate; cbn; [ring|]. rewrite IH by (cbn in *; lia). ring.
Qed.
Lemma map_Rsum_scale {A} (f : A -> R) k l : Rsum (map (fun x => k * f x) l) = k * Rsum (map f l).
Proof. induction l as [|x l IH]; cbn; [ring|]. fold (Rsum (map (fun x => k * f x) l)) (Rsum (map f l)). rewrite IH. ring. Qed.
Lemma Rsum_pos_map {A} (f : A -> R) l : l <> [] -> (forall x, In x l -> 0 < f x) -> 0 < Rsum (map f l).
Proof.
  induction l as [|x l IH]; intros Hne H; [congruence|]. cbn. fold (Rsum (map f l)). assert (0 < f x) by (apply H; left; reflexivity). destruct l as [|y l]; [cbn; lra|].
  assert (0 < Rsum (map f (y :: l))) by (apply IH; [discriminate|intros z Hz; apply H; right; exact Hz]). lra.
Qed.
Lemma map_combine_same {A B C} (f : A -> B) (g : B -> A -> C) l : map (fun '(w, r) => g w r) (combine (map f l) l) = map (fun r => g (f r) r) l.
Proof. induction l as [|a l IH]; cbn; [reflexivity|]. rewrite IH. reflexivity. Qed.
Lemma nth_firstn {A} (l : list A) d n j : (j < n)%nat -> nth j (firstn n l) d = nth j l d.
Proof. revert n l. induction j as [|j IH]; intros [|n] [|a l] H; cbn; try lia; auto. apply IH. lia. Qed.
Lemma nth_skipn_ {A} (l : list A) d n j : nth j (skipn n l) d = nth (n + j) l d.
Proof. revert l. induction n as [|n IH]; intros [|a l]; cbn; auto. destruct j; reflexivity. Qed.

Lemma target_counts ct cc M xt xc : sound ct cc M xt xc -> forall row, length row = length ct ->
  chance ct (map (fun t => INR (count (at_column t M))) (seq 0 (length ct))) row xt = chance ct (map declared ct) row xt.
Proof.
  intros S. assert (Hp : Forall proper ct) by (pose proof (s_proper _ _ _ _ _ S) as H; apply Forall_app in H; apply H). pose proof (s_cells _ _ _ _ _ S) as Hc. clear S.
  assert (G : forall cols j, Forall proper cols -> (forall t c, nth_error cols t = Some c -> Forall (cell_ok c) (at_column (j + t) M) /\ full c (at_column (j + t) M)) ->
    forall row xs, chance cols (map (fun t => INR (count (at_column t M))) (seq j (length cols))) row xs = chance cols (map declared cols) row xs).
  { induction cols as [|c cols IH]; intros j P H row xs; [reflexivity|]. cbn [length seq map chance]. destruct row as [|y row]; [reflexivity|]. destruct xs as [|x xs]; [reflexivity|]. inversion P as [|? ? P1 P2]; subst. f_equal.
    - destruct (H 0%nat c eq_refl) as [H1 H2]. rewrite Nat.add_0_r in H1, H2. unfold kern, declared. destruct (kc_kind c) as [|k] eqn:Ek; [reflexivity|]. unfold proper in P1. rewrite Ek in P1. rewrite (full_count c _ k Ek (proj1 P1) H1 H2). reflexivity.
    - apply (IH (S j) P2). intros t d Ht. replace (S j + t)%nat with (j + S t)%nat by lia. apply H, Ht. }
  intros row _. apply G; [exact Hp|exact Hc].
Qed.
Lemma counts_big cols M j : Forall proper cols -> (forall t c, nth_error cols t = Some c -> varied c (at_column (j + t) M)) ->
  forall t c n, nth_error cols t = Some c -> nth_error (map (fun t => INR (count (at_column t M))) (seq j (length cols))) t = Some n -> kc_kind c <> Num -> 1 < n.
Proof.
  intros P H t c n Ht Hn Hk. destruct (kc_kind c) as [|k] eqn:Ek; [congruence|]. rewrite nth_error_map in Hn. assert (Hlt : (t < length cols)%nat) by (apply nth_error_Some; congruence).
  rewrite (nth_error_nth' (seq j (length cols)) 0%nat) in Hn by (rewrite seq_length; exact Hlt). rewrite seq_nth in Hn by exact Hlt. cbn in Hn. injection Hn as <-.
  pose proof (varied_count c _ k Ek (H t c Ht)) as Hc. apply le_INR in Hc. cbn in Hc. lra.
Qed.

(** The density of a query is that of the following draw: a row, with the weight of its kernels
    for the constraints, and then each target by its kernel about the row. *)
Theorem C67_law : forall ct cc M xt xc, sound ct cc M xt xc -> M <> [] -> (cc = [] -> (length ct < length M)%nat) ->
  exists ws ns, (forall j n, nth_error ns j = Some n -> exists m, occurring (at_column (length ct + j) M) m /\ n = INR m) /\ length ns = length cc /\
    ws = map (fun row => chance cc ns (skipn (length ct) row) xc) M /\ Forall (fun w => 0 < w) ws /\
    row_weights ct cc M xc = map Fin ws /\
    density ct cc M xt xc = Ok (Fin (ln (Rsum (map (fun '(w, row) => w / Rsum ws * chance ct (map declared ct) (firstn (length ct) row) xt) (combine ws M))))).
Proof.
  intros ct cc M xt xc S Hne Hfew. pose proof S as [Lt Lc Lr Hp Hcell Hval Hvar]. pose proof Hp as Hp0. apply Forall_app in Hp0. destruct Hp0 as [Hpt Hpc].
  assert (Hcc : cc = [] \/ cc <> []) by (destruct cc; [left; reflexivity|right; discriminate]).
  assert (RW : cc <> [] -> row_weights ct cc M xc = gpke cc (map (skipn (length ct)) M) xc) by (unfold row_weights; destruct cc; congruence).
  assert (DN : cc <> [] -> density ct cc M xt xc = Ok (npx_log (ediv (esum (gpke (ct ++ cc) M (xt ++ xc))) (esum (gpke cc (map (skipn (length ct)) M) xc))))) by (unfold density; destruct cc; congruence).
  set (ns := map (fun t => INR (count (at_column t M))) (seq (length ct) (length cc))).
  assert (Hvt : forall t c, nth_error ct t = Some c -> varied c (at_column t M)).
  { intros t c Ht. destruct (Hcell t c Ht) as [_ Hf]. apply full_varied; [|exact Hf]. rewrite Forall_forall in Hpt. apply Hpt. eapply nth_error_In; exact Ht. }
  assert (Hcv : forall t c, nth_error cc t = Some c -> varied c (at_column (length ct + t) M)) by exact Hvar.
  set (ws := map (fun row => chance cc ns (skipn (length ct) row) xc) M).
  assert (Hw : Forall (fun w => 0 < w) ws).
  { apply Forall_forall. intros w Hin. apply in_map_iff in Hin. destruct Hin as [row [<- _]]. apply chance_pos; [exact Hpc|]. apply (counts_big cc M (length ct) Hpc Hcv). }
  assert (HW : 0 < Rsum ws). { unfold ws. apply Rsum_pos_map; [exact Hne|]. intros row Hr. rewrite Forall_forall in Hw. apply Hw. unfold ws. apply in_map_iff. eauto. }
  assert (Ew : row_weights ct cc M xc = map Fin ws).
  { destruct Hcc as [->|Hcc]; [unfold ws; rewrite map_map; apply map_ext; intros; reflexivity|]. rewrite (RW Hcc). unfold ws. rewrite map_map.
    rewrite gpke_val; [|exact Lc|exact Hpc| |].
    - rewrite map_map. apply map_ext. intros row.
      assert (Q : forall n b, map (fun t => INR (count (at_column t (map (skipn (length ct)) M)))) (seq b n) = map (fun t => INR (count (at_column t M))) (seq (length ct + b) n)).
      { induction n as [|n IH]; intros b; [reflexivity|]. cbn [seq map]. f_equal; [|rewrite IH; f_equal; f_equal; lia]. do 2 f_equal. unfold at_column. rewrite map_map. apply map_ext. intros r. apply nth_skipn_. }
      rewrite Q, Nat.add_0_r. reflexivity.
    - intros t c Ht. specialize (Hcv t c Ht). replace (at_column t (map (skipn (length ct)) M)) with (at_column (length ct + t) M); [exact Hcv|]. unfold at_column. rewrite map_map. apply map_ext. intros r. symmetry. apply nth_skipn_.
    - intros row Hr. apply in_map_iff in Hr. destruct Hr as [r [<- Hr]]. rewrite skipn_length, (Lr r Hr). lia. }
  exists ws, ns. split; [|split; [unfold ns; rewrite map_length, seq_length; reflexivity|split; [reflexivity|split; [exact Hw|split; [exact Ew|]]]]].
  { intros j n Hj. unfold ns in Hj. rewrite nth_error_map in Hj. destruct (nth_error (seq (length ct) (length cc)) j) as [t|] eqn:Et; [|discriminate]. injection Hj as <-.
    assert (Hlt : (j < length cc)%nat) by (rewrite <- (seq_length (length cc) (length ct)); apply nth_error_Some; congruence). rewrite (nth_error_nth' _ 0%nat) in Et by (rewrite seq_length; exact Hlt). rewrite seq_nth in Et by exact Hlt. injection Et as <-.
    eexists. split; [apply count_occurring|reflexivity]. }
  (* the mixture *)
  unfold ws at 2. rewrite map_combine_same with (g := fun w row => w / Rsum ws * chance ct (map declared ct) (firstn (length ct) row) xt).
  set (tch := fun row => chance ct (map declared ct) (firstn (length ct) row) xt).
  assert (Htpos : forall row, In row M -> 0 < tch row).
  { intros row Hr. unfold tch. apply chance_pos; [exact Hpt|]. intros j c n Hj Hn Hk. rewrite nth_error_map, Hj in Hn. injection Hn as <-. unfold declared. rewrite Forall_forall in Hpt. pose proof (Hpt c (nth_error_In _ _ Hj)) as Pc. unfold proper in Pc. destruct (kc_kind c) as [|k]; [congruence|].
    apply IZR_lt. lia. }
  assert (Emix : Rsum (map (fun row => chance cc ns (skipn (length ct) row) xc / Rsum ws * tch row) M) = Rsum (map (fun row => chance cc ns (skipn (length ct) row) xc * tch row) M) / Rsum ws).
  { unfold Rdiv at 2. rewrite Rmult_comm. rewrite <- map_Rsum_scale. f_equal. apply map_ext. intros row. unfold Rdiv. ring. }
  change (map (fun r => chance cc ns (skipn (length ct) r) xc / Rsum ws * chance ct (map declared ct) (firstn (length ct) r) xt) M) with (map (fun row => chance cc ns (skipn (length ct) row) xc / Rsum ws * tch row) M).
  rewrite Emix.
  assert (Hnum : 0 < Rsum (map (fun row => chance cc ns (skipn (length ct) row) xc * tch row) M)).
  { apply Rsum_pos_map; [exact Hne|]. intros row Hr. apply Rmult_lt_0_compat; [|apply Htpos, Hr]. rewrite Forall_forall in Hw. apply Hw. unfold ws. apply in_map_iff. eauto. }
  destruct Hcc as [Ecc|Hcc].
  - subst cc. unfold density. replace (Nat.leb (length M) (length ct)) with false by (symmetry; apply Nat.leb_gt, Hfew; reflexivity).
    assert (Eg : gpke ct M xt = map Fin (map tch M)).
    { rewrite gpke_val; [|exact Lt|exact Hpt|exact Hvt|intros row Hr; rewrite (Lr row Hr); lia]. rewrite map_map. apply map_ext_in. intros row Hr. f_equal. unfold tch.
      rewrite firstn_all2 by (rewrite (Lr row Hr); cbn; lia). apply (target_counts ct [] M xt xc S). rewrite (Lr row Hr). cbn. lia. }
    rewrite Eg, esum_fin. assert (E1 : Rsum ws = INR (length M)).
    { unfold ws. clear. induction M as [|r M IH]; [reflexivity|]. cbn [map length]. rewrite S_INR. cbn. fold (Rsum (map (fun row => 1) M)). rewrite <- IH. cbn. ring. }
    rewrite E1. unfold ediv. assert (HM : 0 < INR (length M)) by (apply lt_0_INR; destruct M; [congruence|cbn; lia]). replace (Reqb (INR (length M)) 0) with false by (symmetry; apply Reqb_false; lra).
    assert (E2 : Rsum (map (fun row => chance [] ns (skipn (length ct) row) xc * tch row) M) = Rsum (map tch M)) by (f_equal; apply map_ext; intros; cbn; ring).
    rewrite E2 in Hnum |- *. cbn [npx_log]. unfold np_log. rewrite (proj2 (Rltb_true _ _)); [reflexivity|]. apply Rdiv_lt_0_compat; assumption.
  - rewrite (DN Hcc). assert (Eg : gpke (ct ++ cc) M (xt ++ xc) = map Fin (map (fun row => chance cc ns (skipn (length ct) row) xc * tch row) M)).
    { rewrite gpke_val; [|rewrite !app_length; lia|exact Hp| |intros row Hr; rewrite (Lr row Hr), app_length; lia].
      - rewrite map_map. apply map_ext_in. intros row Hr. f_equal. rewrite app_length, seq_app, map_app. rewrite <- (firstn_skipn (length ct) row) at 1. cbn [Nat.add]. rewrite chance_app; [|rewrite map_length, seq_length; reflexivity|rewrite firstn_length, (Lr row Hr); lia|exact Lt].
        fold ns. unfold tch. rewrite (target_counts ct cc M xt xc S) by (rewrite firstn_length, (Lr row Hr); lia). ring.
      - intros t c Ht. destruct (Nat.lt_ge_cases t (length ct)) as [Hl|Hl]; [rewrite nth_error_app1 in Ht by exact Hl; apply Hvt, Ht|]. rewrite nth_error_app2 in Ht by exact Hl. replace t with (length ct + (t - length ct))%nat by lia. apply Hcv, Ht. }
    assert (Ec : gpke cc (map (skipn (length ct)) M) xc = map Fin ws) by (rewrite <- Ew, RW by exact Hcc; reflexivity).
    rewrite Eg, Ec, !esum_fin. unfold ediv. replace (Reqb (Rsum ws) 0) with false by (symmetry; apply Reqb_false; lra). cbn [npx_log]. unfold np_log. rewrite (proj2 (Rltb_true _ _)); [reflexivity|]. apply Rdiv_lt_0_compat; assumption.
Qed.
Print Assumptions C67_law.

(* ------------------------------------------------------------------ *)
(** ** The sampler *)
(** What is asked for a target about the cell [xi] has the chances of the kernel. *)
Definition lawful (c : kcol) (xi : R) (q : request) : Prop :=
  match kc_kind c, q with
  | Num, RNormal mu s => forall x, bell mu s x = kern c (declared c) xi x
  | Cat k, RChoice p => length p = Z.to_nat k /\ Rsum p = 1 /\ Forall (fun x => 0 <= x) p /\ forall j, (Z.of_nat j < k)%Z -> nth_error p j = Some (kern c (declared c) xi (INR j))
  | _, _ => False
  end.
Lemma Rsum_const {A} (f : A -> R) v l : (forall x, In x l -> f x = v) -> Rsum (map f l) = INR (length l) * v.
Proof.
  induction l as [|x l IH]; intros H; [cbn; ring|]. cbn [map length]. rewrite S_INR. cbn. fold (Rsum (map f l)). rewrite IH by (intros y Hy; apply H; right; exact Hy). rewrite (H x (or_introl eq_refl)). ring.
Qed.
Lemma one_apart k a u v : (a < k)%nat -> Rsum (map (fun j => if Req_EM_T (INR a) (INR j) then u else v) (seq 0 k)) = u + INR (k - 1) * v.
Proof.
  intros Ha. replace k with (a + S (k - S a))%nat at 1 by lia. rewrite seq_app, map_app. cbn [seq map Nat.add]. unfold Rsum. rewrite fold_right_app. cbn [fold_right]. destruct (Req_EM_T (INR a) (INR a)) as [_|N]; [|congruence].
  assert (S1 : forall l z, fold_right Rplus z l = Rsum l + z) by (induction l as [|y l IH]; intros z; cbn; [unfold Rsum; cbn; ring|]; rewrite IH; unfold Rsum; cbn; ring).
  rewrite S1. fold (Rsum (map (fun j => if Req_EM_T (INR a) (INR j) then u else v) (seq (S a) (k - S a)))). rewrite !(Rsum_const _ v).
  - rewrite !seq_length. replace (k - 1)%nat with (a + (k - S a))%nat by lia. rewrite plus_INR. ring.
  - intros j Hj. apply in_seq in Hj. destruct (Req_EM_T (INR a) (INR j)) as [E|_]; [apply INR_eq in E; lia|reflexivity].
  - intros j Hj. apply in_seq in Hj. destruct (Req_EM_T (INR a) (INR j)) as [E|_]; [apply INR_eq in E; lia|reflexivity].
Qed.
Lemma fold_left_Rsum l : fold_left Rplus l 0 = Rsum l.
Proof.
  assert (G : forall a, fold_left Rplus l a = a + Rsum l) by (induction l as [|x l IH]; intros a; cbn; [ring|]; rewrite IH; fold (Rsum l); ring). rewrite G. ring.
Qed.
Theorem C67_request : forall c xi, proper c -> cell_ok c xi -> exists q, ask_for c xi = Ok q /\ lawful c xi q.
Proof.
  intros c xi Hp Hc. unfold proper, cell_ok, ask_for, lawful, kern, declared in *. destruct (kc_kind c) as [|k] eqn:Ek.
  - rewrite (proj2 (Rleb_true _ _)) by lra. eexists. split; [reflexivity|]. intros x. reflexivity.
  - destruct Hp as [Hk Hb]. destruct Hc as [a [-> Ha]]. replace (k =? 1)%Z with false by (symmetry; apply Z.eqb_neq; lia).
    set (f := fun j => if Req_EM_T (INR a) (INR j) then 1 - kc_bw c else kc_bw c / (IZR k - 1)).
    assert (E : map (fun s => if Reqb (INR s) (INR a) then Ok (1 - kc_bw c) else Ok (kc_bw c / IZR (k - 1))) (seq 0 (Z.to_nat k)) = map (@Ok R) (map f (seq 0 (Z.to_nat k)))).
    { rewrite map_map. apply map_ext. intros s. unfold f. rewrite minus_IZR. destruct (Req_EM_T (INR a) (INR s)) as [E|N]; [rewrite (proj2 (Reqb_true _ _)) by congruence; reflexivity|rewrite (proj2 (Reqb_false _ _)) by congruence; reflexivity]. }
    rewrite E, (proj2 (rsequence_ok _ _) eq_refl). cbn [rbind]. rewrite fold_left_Rsum.
    assert (Hk1 : 0 < IZR k - 1) by (rewrite <- minus_IZR; apply IZR_lt; lia).
    assert (Hs : Rsum (map f (seq 0 (Z.to_nat k))) = 1).
    { unfold f. rewrite one_apart by lia. replace (INR (Z.to_nat k - 1)) with (IZR k - 1); [field; lra|]. rewrite <- minus_IZR, INR_IZR_INZ. f_equal. lia. }
    rewrite Hs. replace (1 - 1) with 0 by ring. rewrite Rabs_R0, (proj2 (Rleb_true _ _)) by lra. cbn [negb].
    assert (Hf : forall j, 0 < f j). { intros j. unfold f. destruct (Req_EM_T (INR a) (INR j)); [lra|apply Rdiv_lt_0_compat; lra]. }
    replace (forallb (Rleb 0) (map f (seq 0 (Z.to_nat k)))) with true.
    2:{ symmetry. apply forallb_forall. intros x Hx. apply in_map_iff in Hx. destruct Hx as [j [<- _]]. apply Rleb_true. specialize (Hf j). lra. }
    eexists. split; [reflexivity|]. cbn beta iota. split; [rewrite map_length, seq_length; reflexivity|]. split; [exact Hs|]. split.
    + apply Forall_forall. intros x Hx. apply in_map_iff in Hx. destruct Hx as [j [<- _]]. specialize (Hf j). lra.
    + intros j Hj. rewrite nth_error_map, (nth_error_nth' (seq 0 (Z.to_nat k)) 0%nat) by (rewrite seq_length; lia). rewrite seq_nth by lia. reflexivity.
Qed.
Print Assumptions C67_request.

Definition drawn (d : list ext -> nat) (w : list R) : nat := if (length w =? 1)%nat then 0%nat else d (map Fin (map (fun x => x / Rsum w) w)).
Lemma choice_drawn d w : draw_ok d -> Forall (fun x => 0 < x) w -> (2 <= length w)%nat -> choice d (seq 0 (length w)) (normalize (map Fin w)) = Ok (drawn d w) /\ (drawn d w < length w)%nat.
Proof.
  intros Hd Hw Hl. assert (Hw' : Forall (fun x => 0 <= x) w) by (eapply Forall_impl; [|exact Hw]; intros; lra). assert (Hne : w <> []) by (intros ->; cbn in Hl; lia).
  assert (Hp : 0 < Rsum w). { rewrite <- (map_id w). apply Rsum_pos_map; [exact Hne|]. intros x Hx. rewrite Forall_forall in Hw. apply Hw, Hx. }
  rewrite (normalize_weights (map Fin w) w) by (split; [reflexivity|split; assumption]). destruct (choice_spec d (seq 0 (length w)) w Hd (seq_length _ _) Hw' Hp) as [_ [a [_ [Ea _]]]]. rewrite Ea.
  unfold drawn. replace (length w =? 1)%nat with false by (symmetry; apply Nat.eqb_neq; lia). unfold choice in Ea. destruct (_ && _) in Ea; [|discriminate].
  set (i := d (map Fin (map (fun x => x / Rsum w) w))) in *. destruct (nth_error (seq 0 (length w)) i) as [b|] eqn:E; [|discriminate]. injection Ea as ->.
  assert (L : (i < length w)%nat) by (rewrite <- (seq_length (length w) 0); apply nth_error_Some; congruence). rewrite (nth_error_nth' _ 0%nat) in E by (rewrite seq_length; exact L). rewrite seq_nth in E by exact L. injection E as <-. auto.
Qed.
Lemma member_ok d n : forall cols row t0, length row = length cols -> Forall proper cols -> Forall2 cell_ok cols row ->
  exists x, rsequence (map (fun '(t, (c, xi)) => rbind (ask_for c xi) (fun q => Ok (reply d n t q))) (combine (seq t0 (length cols)) (combine cols row))) = Ok x /\ length x = length cols /\
    forall t c xi, nth_error cols t = Some c -> nth_error row t = Some xi -> exists q, lawful c xi q /\ nth_error x t = Some (reply d n (t0 + t) q).
Proof.
  induction cols as [|c cols IH]; intros [|xi row] t0 L Hp Hc; try discriminate; [exists []; repeat split; intros [|t]; discriminate|].
  inversion Hp as [|? ? P1 P2]; subst. inversion Hc as [|? ? ? ? C1 C2]; subst. destruct (C67_request c xi P1 C1) as [q [Eq Lq]]. destruct (IH row (S t0) ltac:(cbn in L; lia) P2 C2) as [x [Ex [Lx Q]]].
  exists (reply d n t0 q :: x). cbn [length seq combine map rsequence]. rewrite Eq. cbn [rbind]. rewrite Ex. split; [reflexivity|]. split; [cbn; rewrite Lx; reflexivity|]. intros [|t] c' xi' H1 H2; cbn in H1, H2.
  - injection H1 as <-. injection H2 as <-. exists q. rewrite Nat.add_0_r. auto.
  - destruct (Q t c' xi' H1 H2) as [q' [A B]]. exists q'. replace (t0 + S t)%nat with (S t0 + t)%nat by lia. auto.
Qed.

(** A sample takes the row drawn by the weights and asks for each target what its kernel about
    the cell of the row requires; N samples are N such draws. *)
Definition follows (d : draws) (n : nat) (ct : list kcol) (row x : list R) : Prop :=
  length x = length ct /\ forall t c xi, nth_error ct t = Some c -> nth_error row t = Some xi -> exists q, lawful c xi q /\ nth_error x t = Some (reply d n t q).
Theorem C67_simulate : forall d ct cc M xc ws, (forall n, draw_ok (index d n)) -> M <> [] ->
  Forall (fun row => (length ct <= length row)%nat) M -> Forall proper ct -> (forall j c, nth_error ct j = Some c -> Forall (cell_ok c) (at_column j M)) ->
  row_weights ct cc M xc = map Fin ws -> length ws = length M -> Forall (fun w => 0 < w) ws ->
  (exists x row, sample d ct cc M xc None = Ok (One x) /\ nth_error M (drawn (index d 0) ws) = Some row /\ follows d 0 ct row x) /\
  (forall N, exists xs, sample d ct cc M xc (Some N) = Ok (Many xs) /\ length xs = N /\
     forall n, (n < N)%nat -> exists x row, nth_error xs n = Some x /\ nth_error M (drawn (index d n) ws) = Some row /\ follows d n ct row x).
Proof.
  intros d ct cc M xc ws Hd Hne Hlen Hp Hcell EW LW HW. assert (HM : (0 < length M)%nat) by (destruct M; [congruence|cbn; lia]).
  assert (Hmem : forall n i row, nth_error M i = Some row -> exists x, member d n ct (firstn (length ct) row) = Ok x /\ follows d n ct row x).
  { intros n i row Hi. rewrite Forall_forall in Hlen. specialize (Hlen row (nth_error_In _ _ Hi)).
    assert (C : Forall2 cell_ok ct (firstn (length ct) row)).
    { assert (Hn : forall j c, nth_error ct j = Some c -> cell_ok c (nth j row 0)).
      { intros j c Hj. specialize (Hcell j c Hj). rewrite Forall_forall in Hcell. apply Hcell. unfold at_column. apply (in_map (fun r => nth j r 0)). eapply nth_error_In; exact Hi. }
      clear - Hlen Hn. revert row Hlen Hn. induction ct as [|c ct IH]; intros [|y row] Hl Hn; cbn in *; try lia; [constructor|constructor|]. constructor; [apply (Hn 0%nat c eq_refl)|]. apply IH; [lia|]. intros j. apply (Hn (S j)). }
    destruct (member_ok d n ct (firstn (length ct) row) 0 ltac:(rewrite firstn_length; lia) Hp C) as [x [Ex [Lx Q]]]. exists x. split; [exact Ex|]. split; [exact Lx|]. intros t c xi Ht Hxi. apply Q; [exact Ht|].
    assert (Hlt : (t < length ct)%nat) by (apply nth_error_Some; congruence). rewrite <- Hxi. clear - Hlt. revert row t Hlt. induction (length ct) as [|m IH]; intros [|y row] [|t] H; cbn; auto; try lia. apply IH. lia. }
  assert (Hidx : forall n, (drawn (index d n) ws < length M)%nat).
  { intros n. destruct (Nat.eq_dec (length ws) 1) as [E|E]; [unfold drawn; rewrite E; cbn; lia|]. rewrite <- LW. apply choice_drawn; [apply Hd|exact HW|lia]. }
  assert (Hrow : forall n, exists row, nth_error M (drawn (index d n) ws) = Some row). { intros n. destruct (nth_error M (drawn (index d n) ws)) as [row|] eqn:E; [eauto|]. apply nth_error_None in E. specialize (Hidx n). lia. }
  assert (Hpick : forall i row, nth_error M i = Some row -> nth_error (map (firstn (length ct)) M) i = Some (firstn (length ct) row)) by (intros i row Hi; rewrite nth_error_map, Hi; reflexivity).
  assert (Es : forall N, sample d ct cc M xc N = match N with
      | None => rbind (pflip (index d 0) (map Fin ws) (seq 0 (length (map Fin ws)))) (fun i => rbind (match nth_error (map (firstn (length ct)) M) i with Some row => Ok row | None => Err IndexError end) (fun row => rbind (member d 0 ct row) (fun x => Ok (One x))))
      | Some n => rbind (pflip_many (index d) (map Fin ws) (seq 0 (length (map Fin ws))) n) (fun l =>
          rbind (rsequence (map (fun '(j, i) => rbind (match nth_error (map (firstn (length ct)) M) i with Some row => Ok row | None => Err IndexError end) (fun row => member d j ct row)) (combine (seq 0 (length l)) l))) (fun xs => Ok (Many xs)))
      end) by (intros N; rewrite <- EW; destruct M; [congruence|reflexivity]).
  rewrite map_length in Es. split.
  - rewrite Es. assert (Ep : pflip (index d 0) (map Fin ws) (seq 0 (length ws)) = Ok (drawn (index d 0) ws)).
    { destruct (Nat.eq_dec (length ws) 1) as [E|E]; [destruct ws as [|w [|w' ws]]; try discriminate E; reflexivity|]. transitivity (choice (index d 0) (seq 0 (length ws)) (normalize (map Fin ws))); [destruct ws as [|w [|w' ws]]; cbn in *; try lia; reflexivity|]. apply choice_drawn; [apply Hd|exact HW|lia]. }
    rewrite Ep. cbn [rbind]. destruct (Hrow 0%nat) as [row Hr]. rewrite (Hpick _ _ Hr). cbn [rbind]. destruct (Hmem 0%nat _ row Hr) as [x [Ex Fx]]. rewrite Ex. cbn [rbind]. exists x, row. auto.
  - intros N. rewrite Es. assert (Ep : pflip_many (index d) (map Fin ws) (seq 0 (length ws)) N = Ok (map (fun n => drawn (index d n) ws) (seq 0 N))).
    { destruct (Nat.eq_dec (length ws) 1) as [E|E].
      - destruct ws as [|w [|w' ws]]; try discriminate E. cbn [pflip_many map length seq]. f_equal. unfold drawn. cbn [length Nat.eqb]. clear. generalize 0%nat at 3. induction N as [|N IH]; intros a; cbn; [reflexivity|]. rewrite <- (IH (S a)). reflexivity.
      - transitivity (if Nat.eqb (length (seq 0 (length ws))) (length (map Fin ws)) && forallb ext_nonneg (normalize (map Fin ws)) then rsequence (map (fun j => choice (index d j) (seq 0 (length ws)) (normalize (map Fin ws))) (seq 0 N)) else Err ValueError); [destruct ws as [|w [|w' ws]]; cbn in *; try lia; reflexivity|].
        rewrite seq_length, map_length, Nat.eqb_refl. cbn [andb]. assert (Hnn : forallb ext_nonneg (normalize (map Fin ws)) = true).
        { assert (Hw' : Forall (fun x => 0 <= x) ws) by (eapply Forall_impl; [|exact HW]; intros; lra).
          assert (Hps : 0 < Rsum ws). { rewrite <- (map_id ws). apply Rsum_pos_map; [intros ->; cbn in LW; lia|]. intros x Hx. rewrite Forall_forall in HW. apply HW, Hx. }
          rewrite (normalize_weights (map Fin ws) ws) by (split; [reflexivity|split; assumption]). apply forallb_forall. intros y Hy. rewrite map_map in Hy. apply in_map_iff in Hy. destruct Hy as [x [<- Hx]]. cbn. apply Rleb_true. rewrite Forall_forall in Hw'. apply Rmult_le_pos; [apply Hw', Hx|apply Rlt_le, Rinv_0_lt_compat, Hps]. }
        rewrite Hnn. apply rsequence_ok. rewrite map_map. apply map_ext. intros n. apply choice_drawn; [apply Hd|exact HW|lia]. }
    rewrite Ep. cbn [rbind].
    assert (Q : forall m a, exists xs, rsequence (map (fun '(j, i) => rbind (match nth_error (map (firstn (length ct)) M) i with Some row => Ok row | None => Err IndexError end) (fun row => member d j ct row)) (combine (seq a m) (map (fun n => drawn (index d n) ws) (seq a m)))) = Ok xs /\ length xs = m /\
      forall n, (n < m)%nat -> exists x row, nth_error xs n = Some x /\ nth_error M (drawn (index d (a + n)) ws) = Some row /\ follows d (a + n) ct row x).
    { induction m as [|m IH]; intros a; [exists []; repeat split; intros n Hn; lia|]. destruct (IH (S a)) as [xs [E [L Q]]]. destruct (Hrow a) as [row Hr]. destruct (Hmem a _ row Hr) as [x [Ex Fx]].
      exists (x :: xs). cbn [seq map combine rsequence]. rewrite (Hpick _ _ Hr). cbn [rbind]. rewrite Ex. cbn [rbind]. rewrite E. split; [reflexivity|]. split; [cbn; rewrite L; reflexivity|]. intros [|n] Hn.
      - exists x, row. rewrite Nat.add_0_r. auto.
      - destruct (Q n ltac:(lia)) as [y [r [A [B C]]]]. exists y, r. replace (a + S n)%nat with (S a + n)%nat by lia. auto. }
    rewrite map_length, seq_length. destruct (Q N 0%nat) as [xs [E [L Q']]]. rewrite E. cbn [rbind]. exists xs. split; [reflexivity|]. split; [exact L|exact Q'].
Qed.
Print Assumptions C67_simulate.

(* ------------------------------------------------------------------ *)
(** ** The mass of a categorical output *)
Lemma Rsum_swapped {A B} (f : A -> B -> R) l m : Rsum (map (fun a => Rsum (map (f a) m)) l) = Rsum (map (fun b => Rsum (map (fun a => f a b) l)) m).
Proof.
  induction l as [|a l IH]; cbn [map].
  - induction m as [|b m IHm]; [reflexivity|]. cbn [map]. change (Rsum [] = Rsum [] + Rsum (map (fun _ : B => Rsum []) m)). cbn [map] in IHm. rewrite <- IHm. cbn. ring.
  - change (Rsum (map (f a) m) + Rsum (map (fun a => Rsum (map (f a) m)) l) = Rsum (map (fun b => f a b + Rsum (map (fun a => f a b) l)) m)). rewrite IH. clear IH.
    induction m as [|b m IHm]; [cbn; ring|]. cbn [map]. change (f a b + Rsum (map (f a) m) + (Rsum (map (fun a => f a b) l) + Rsum (map (fun b => Rsum (map (fun a => f a b) l)) m)) = f a b + Rsum (map (fun a => f a b) l) + Rsum (map (fun b => f a b + Rsum (map (fun a => f a b) l)) m)). rewrite <- IHm. ring.
Qed.
(** Over the categories of an output the densities sum to one just when all of them occur. *)
Theorem C67_mass : forall c k M L, kc_kind c = Cat k -> proper c -> Forall (fun row => exists a, row = [INR a] /\ (Z.of_nat a < k)%Z) M -> (2 <= length M)%nat ->
  occurring (at_column 0 M) L -> (2 <= L)%nat ->
  exists ms, length ms = Z.to_nat k /\ (forall j m, nth_error ms j = Some m -> 0 < m /\ density [c] [] M [INR j] [] = Ok (Fin (ln m))) /\
    Rsum ms = 1 + kc_bw c * (IZR k - INR L) / (INR L - 1).
Proof.
  intros c k M L Ek Hp HM Hn HL HL2. assert (EL : count (at_column 0 M) = L) by (apply (occurring_fun (at_column 0 M)); [apply count_occurring|exact HL]).
  pose proof Hp as Hp'. unfold proper in Hp'. rewrite Ek in Hp'. destruct Hp' as [Hk Hb]. assert (HLr : 1 < INR L) by (apply le_INR in HL2; cbn in HL2; lra).
  assert (HN : 0 < INR (length M)) by (apply lt_0_INR; lia).
  assert (Hv : varied c (at_column 0 M)).
  { unfold varied. rewrite Ek. destruct HL as [l [A [B C]]]. destruct l as [|a [|b l]]; cbn in B; try lia. exists a, b. split; [apply C; left; reflexivity|]. split; [apply C; right; left; reflexivity|]. intros ->. inversion A as [|? ? N _]; subst. apply N. left. reflexivity. }
  set (f := fun (row : list R) x => kern c (INR L) (nth 0 row 0) x).
  assert (Hd : forall j, density [c] [] M [INR j] [] = Ok (Fin (ln (Rsum (map (fun row => f row (INR j)) M) / INR (length M)))) /\ 0 < Rsum (map (fun row => f row (INR j)) M) / INR (length M)).
  { intros j. assert (Hpos : 0 < Rsum (map (fun row => f row (INR j)) M) / INR (length M)).
    { apply Rdiv_lt_0_compat; [|exact HN]. apply Rsum_pos_map; [intros ->; cbn in Hn; lia|]. intros row _. apply kern_pos; [exact Hp|intros _; exact HLr]. }
    split; [|exact Hpos]. unfold density. replace (Nat.leb (length M) (length [c])) with false by (symmetry; apply Nat.leb_gt; cbn; lia).
    rewrite gpke_val; [|reflexivity|constructor; [exact Hp|constructor]|intros [|[|t]] d Hd; try discriminate; injection Hd as <-; exact Hv|intros row Hr; rewrite Forall_forall in HM; destruct (HM row Hr) as [a [-> _]]; cbn; lia].
    replace (map (fun row => Fin (chance [c] (map (fun t => INR (count (at_column t M))) (seq 0 (length [c]))) row [INR j])) M) with (map Fin (map (fun row => f row (INR j)) M)).
    - rewrite esum_fin. unfold ediv. replace (Reqb (INR (length M)) 0) with false by (symmetry; apply Reqb_false; lra). cbn [npx_log]. unfold np_log. rewrite (proj2 (Rltb_true _ _) Hpos). reflexivity.
    - rewrite map_map. apply map_ext_in. intros row Hr. f_equal. rewrite Forall_forall in HM. destruct (HM row Hr) as [a [-> _]]. cbn [length seq map chance]. rewrite EL. unfold f. cbn [nth]. ring. }
  exists (map (fun j => Rsum (map (fun row => f row (INR j)) M) / INR (length M)) (seq 0 (Z.to_nat k))). split; [rewrite map_length, seq_length; reflexivity|]. split.
  { intros j m Hj. rewrite nth_error_map in Hj. destruct (nth_error (seq 0 (Z.to_nat k)) j) as [i|] eqn:Ei; [|discriminate]. injection Hj as <-. assert (Hlt : (j < Z.to_nat k)%nat) by (rewrite <- (seq_length (Z.to_nat k) 0); apply nth_error_Some; congruence).
    rewrite (nth_error_nth' _ 0%nat) in Ei by (rewrite seq_length; exact Hlt). rewrite seq_nth in Ei by exact Hlt. injection Ei as <-. destruct (Hd j) as [A B]. auto. }
  assert (Sw : forall l, Rsum (map (fun j => Rsum (map (fun row => f row (INR j)) M)) l) = Rsum (map (fun row => Rsum (map (fun j => f row (INR j)) l)) M)) by (intros l; apply (Rsum_swapped (fun j row => f row (INR j)))).
  assert (Ed : Rsum (map (fun j => Rsum (map (fun row => f row (INR j)) M) / INR (length M)) (seq 0 (Z.to_nat k))) = Rsum (map (fun j => Rsum (map (fun row => f row (INR j)) M)) (seq 0 (Z.to_nat k))) / INR (length M)).
  { apply Rsum_map_div. }
  rewrite Ed, Sw, (Rsum_const _ (1 + kc_bw c * (IZR k - INR L) / (INR L - 1))); [field; lra|].
  intros row Hr. rewrite Forall_forall in HM. destruct (HM row Hr) as [a [-> Ha]]. unfold f, kern. rewrite Ek. cbn [nth]. rewrite (one_apart (Z.to_nat k) a) by lia.
  replace (INR (Z.to_nat k - 1)) with (IZR k - 1) by (rewrite <- minus_IZR, INR_IZR_INZ; f_equal; lia). field. lra.
Qed.
Print Assumptions C67_mass.

(** "The densities of the categories sum to one, as the chances of the sampler do": not when a
    category does not occur in the data. *)
Theorem C67_levels_refuted : exists c M ms, proper c /\ kc_kind c = Cat 3 /\ length ms = 3%nat /\
  (forall j m, nth_error ms j = Some m -> density [c] [] M [INR j] [] = Ok (Fin (ln m)) /\ 0 < m) /\ Rsum ms = 11 / 10 /\
  Forall (fun row => exists q, ask_for c (nth 0 row 0) = Ok q /\ lawful c (nth 0 row 0) q) M.
Proof.
  set (c := KCol (Cat 3) (1 / 10)). assert (Hp : proper c) by (cbn; split; [lia|lra]).
  assert (HO : occurring (at_column 0 [[INR 0]; [INR 1]]) 2).
  { exists [INR 0; INR 1]. split; [|split; [reflexivity|intros x; cbn; tauto]]. constructor; [cbn; intros [E|[]]; lra|]. constructor; [intros []|constructor]. }
  destruct (C67_mass c 3 [[INR 0]; [INR 1]] 2 eq_refl Hp) as [ms [L [Q E]]]; [repeat constructor; eexists; (split; [reflexivity|]); lia|cbn; lia|exact HO|lia|].
  exists c, [[INR 0]; [INR 1]], ms. split; [exact Hp|]. split; [reflexivity|]. split; [exact L|]. split; [intros j m H; destruct (Q j m H); auto|]. split; [rewrite E; cbn; lra|].
  constructor; [|constructor; [|constructor]]; apply C67_request; try exact Hp; cbn [cell_ok c kc_kind nth]; eexists; (split; [reflexivity|]); lia.
Qed.
Print Assumptions C67_levels_refuted.
(** With one category among the data every other one has infinite density. *)
Theorem C67_infinite_refuted : exists c M, proper c /\ density [c] [] M [INR 1] [] = Ok PInf.
Proof.
  exists (KCol (Cat 3) (1 / 10)), [[INR 0]; [INR 0]]. split; [cbn; split; [lia|lra]|]. unfold density. cbn [length Nat.leb]. f_equal.
  assert (E : nodup Req_EM_T [INR 0; INR 0] = [INR 0]). { cbn [nodup]. destruct (in_dec Req_EM_T (INR 0) [INR 0]) as [_|N]; [|exfalso; apply N; left; reflexivity]. destruct (in_dec Req_EM_T (INR 0) []) as [[]|_]. reflexivity. }
  assert (A : aitchison (1 / 10) [INR 0; INR 0] (INR 0) (INR 1) = PInf).
  { unfold aitchison. replace (Reqb (INR 0) (INR 1)) with false by (symmetry; apply Reqb_false; cbn; lra). rewrite E. cbn [length INR]. unfold ediv. replace (Reqb (1 - 1) 0) with true by (symmetry; apply Reqb_true; lra).
    replace (Reqb (1 / 10) 0) with false by (symmetry; apply Reqb_false; lra). replace (Rltb 0 (1 / 10)) with true by (symmetry; apply Rltb_true; lra). reflexivity. }
  unfold gpke. cbn [length seq combine map filter is_num kc_kind fold_left nth kernel kc_bw]. rewrite !A. cbn [nth emul].
  replace (Reqb 1 0) with false by (symmetry; apply Reqb_false; lra). replace (Rltb 0 1) with true by (symmetry; apply Rltb_true; lra). cbn [ediv]. replace (Rltb 1 0) with false by (symmetry; apply Rltb_false; lra).
  unfold esum. cbn [fold_left eadd ediv]. replace (Rltb (INR 2) 0) with false by (symmetry; apply Rltb_false; cbn; lra). reflexivity.
Qed.
Print Assumptions C67_infinite_refuted.
(** "The component requires at least one observation": with one row and one target the density is
    refused, while samples are drawn. *)
Theorem C67_few_refuted : exists c M, proper c /\ length M = 1%nat /\ Forall (fun row => Forall2 cell_ok [c] row) M /\
  (forall x, density [c] [] M [x] [] = Err ValueError) /\ forall d, (forall n, draw_ok (index d n)) -> exists x, sample d [c] [] M [] None = Ok (One [x]).
Proof.
  exists (KCol Num 1), [[0]]. split; [cbn; lra|]. split; [reflexivity|]. split; [repeat constructor|]. split; [reflexivity|]. intros d Hd.
  destruct (C67_simulate d [KCol Num 1] [] [[0]] [] [1] Hd) as [[x [row [E [_ [L _]]]]] _]; [discriminate|repeat constructor|repeat constructor; cbn; lra|intros [|[|j]] c H; try discriminate; injection H as <-; repeat constructor|reflexivity|reflexivity|repeat constructor; lra|].
  destruct x as [|y [|z x]]; try discriminate L. eauto.
Qed.
Print Assumptions C67_few_refuted.

(* ------------------------------------------------------------------ *)
(** ** The chain rule *)
(** When the marginal is taken over the same rows, the density of targets and constraints is the
    conditional density times the marginal. *)
Theorem C67_chain : forall ct cc M xt xc a b, Forall proper (ct ++ cc) -> (forall row, In row M -> length row = (length ct + length cc)%nat) ->
  (forall t c, nth_error (ct ++ cc) t = Some c -> varied c (at_column t M)) -> length xt = length ct -> length xc = length cc -> cc <> [] -> (length ct + length cc < length M)%nat ->
  density ct cc M xt xc = Ok (Fin a) -> density cc [] (map (skipn (length ct)) M) xc [] = Ok (Fin b) ->
  density (ct ++ cc) [] M (xt ++ xc) [] = Ok (Fin (a + b)).
Proof.
  intros ct cc M xt xc a b Hp Lr Hvt Lt Lc Hc Hlen Ha Hb. pose proof Hp as Hp0. apply Forall_app in Hp0. destruct Hp0 as [Hpt Hpc].
  assert (HM : M <> []) by (intros ->; cbn in Hlen; lia). assert (HN : 0 < INR (length M)) by (apply lt_0_INR; lia).
  assert (Hvar : forall t c, nth_error cc t = Some c -> varied c (at_column (length ct + t) M)).
  { intros t c Hn. apply Hvt. rewrite nth_error_app2 by lia. replace (length ct + t - length ct)%nat with t by lia. exact Hn. }
  assert (Hcv : forall t c, nth_error cc t = Some c -> varied c (at_column t (map (skipn (length ct)) M))).
  { intros t c Hn. replace (at_column t (map (skipn (length ct)) M)) with (at_column (length ct + t) M); [apply Hvar, Hn|]. unfold at_column. rewrite map_map. apply map_ext. intros r. symmetry. apply nth_skipn_. }
  set (J := Rsum (map (fun row => chance (ct ++ cc) (map (fun t => INR (count (at_column t M))) (seq 0 (length (ct ++ cc)))) row (xt ++ xc)) M)).
  set (C := Rsum (map (fun row => chance cc (map (fun t => INR (count (at_column t (map (skipn (length ct)) M)))) (seq 0 (length cc))) row xc) (map (skipn (length ct)) M))).
  assert (EJ : esum (gpke (ct ++ cc) M (xt ++ xc)) = Fin J).
  { rewrite gpke_val; [|rewrite !app_length; lia|exact Hp|exact Hvt|intros row Hr; rewrite (Lr row Hr), app_length; lia]. rewrite <- map_map with (g := Fin). apply esum_fin. }
  assert (EC : esum (gpke cc (map (skipn (length ct)) M) xc) = Fin C).
  { rewrite gpke_val; [|exact Lc|exact Hpc|exact Hcv|intros row Hr; apply in_map_iff in Hr; destruct Hr as [r [<- Hr]]; rewrite skipn_length, (Lr r Hr); lia]. rewrite <- map_map with (g := Fin). apply esum_fin. }
  assert (PJ : 0 < J) by (apply Rsum_pos_map; [exact HM|]; intros row _; apply chance_pos; [exact Hp|apply (counts_big (ct ++ cc) M 0 Hp Hvt)]).
  assert (PC : 0 < C) by (apply Rsum_pos_map; [destruct M; [congruence|discriminate]|]; intros row _; apply chance_pos; [exact Hpc|apply (counts_big cc _ 0 Hpc Hcv)]).
  assert (Da : density ct cc M xt xc = Ok (Fin (ln (J / C)))).
  { unfold density. destruct cc as [|c0 cc]; [congruence|]. rewrite EJ, EC. unfold ediv. replace (Reqb C 0) with false by (symmetry; apply Reqb_false; lra). cbn [npx_log]. unfold np_log. rewrite (proj2 (Rltb_true _ _)); [reflexivity|apply Rdiv_lt_0_compat; assumption]. }
  assert (Db : density cc [] (map (skipn (length ct)) M) xc [] = Ok (Fin (ln (C / INR (length M))))).
  { unfold density. rewrite map_length. replace (Nat.leb (length M) (length cc)) with false by (symmetry; apply Nat.leb_gt; lia). rewrite EC. unfold ediv. replace (Reqb (INR (length M)) 0) with false by (symmetry; apply Reqb_false; lra). cbn [npx_log]. unfold np_log. rewrite (proj2 (Rltb_true _ _)); [reflexivity|apply Rdiv_lt_0_compat; assumption]. }
  rewrite Da in Ha. injection Ha as <-. rewrite Db in Hb. injection Hb as <-.
  unfold density. rewrite app_length. replace (Nat.leb (length M) (length ct + length cc)) with false by (symmetry; apply Nat.leb_gt; lia). rewrite EJ. unfold ediv. replace (Reqb (INR (length M)) 0) with false by (symmetry; apply Reqb_false; lra). cbn [npx_log]. unfold np_log.
  rewrite (proj2 (Rltb_true _ _)) by (apply Rdiv_lt_0_compat; assumption). do 2 f_equal. rewrite <- ln_mult by (apply Rdiv_lt_0_compat; assumption). f_equal. field. lra.
Qed.
Print Assumptions C67_chain.

(* ------------------------------------------------------------------ *)
(** ** The queries of the component *)
(** The rows asked for: those that have all the cells, the others lack one. *)
Definition has (obs : list Z) (qs : list Z) (cells : list ext) (row : list R) : Prop := Forall2 (fun q x => dget q (combine obs cells) = Some (Fin x)) qs row.
Inductive gathered (obs qs : list Z) : list (list ext) -> list (list R) -> Prop :=
| gathered_nil : gathered obs qs [] []
| gathered_has cells row l rows : has obs qs cells row -> gathered obs qs l rows -> gathered obs qs (cells :: l) (row :: rows)
| gathered_lacks cells q l rows : In q qs -> dget q (combine obs cells) = Some NaN -> gathered obs qs l rows -> gathered obs qs (cells :: l) rows.
Lemma index_cell q : forall obs cells v, dget q (combine obs cells) = Some v -> exists i, index_of q obs = Ok (Z.of_nat i) /\ nth i cells NaN = v.
Proof.
  induction obs as [|o obs IH]; intros [|x cells] v H; try discriminate H. cbn [combine dget] in H. cbn [index_of]. destruct (Z.eqb q o) eqn:E.
  - injection H as <-. exists 0%nat. auto.
  - destruct (IH cells v H) as [i [Ei En]]. exists (S i). rewrite Ei. cbn [rbind]. split; [f_equal; lia|exact En].
Qed.
Lemma index_known q obs : In q obs -> exists i, index_of q obs = Ok (Z.of_nat i).
Proof.
  induction obs as [|o obs IH]; intros H; [destruct H|]. cbn [index_of]. destruct (Z.eqb q o) eqn:E; [exists 0%nat; reflexivity|]. destruct H as [->|H]; [rewrite Z.eqb_refl in E; discriminate|]. destruct (IH H) as [i ->]. exists (S i). cbn [rbind]. f_equal. lia.
Qed.
Lemma dataset_gathered g s qs rows : (forall q, In q qs -> In q (t_obs g)) -> gathered (t_obs g) qs (map snd (t_data s)) rows -> dataset g s qs = Ok (map (map Fin) rows).
Proof.
  intros Hk H. assert (Hi : exists idx, rsequence (map (fun q => index_of q (t_obs g)) qs) = Ok idx /\ Forall2 (fun q i => index_of q (t_obs g) = Ok i) qs idx).
  { clear H. induction qs as [|q qs IH]; [exists []; split; [reflexivity|constructor]|]. destruct (index_known q (t_obs g) (Hk q (or_introl eq_refl))) as [i Ei]. destruct IH as [idx [E F]]; [intros z Hz; apply Hk; right; exact Hz|].
    exists (Z.of_nat i :: idx). cbn [map rsequence]. rewrite Ei, E. split; [reflexivity|constructor; assumption]. }
  destruct Hi as [idx [E F]]. unfold dataset. rewrite E. cbn [rbind]. f_equal. clear E Hk. revert H. generalize (t_data s) as D. intros D. revert rows.
  induction D as [|[r cells] D IH]; intros rows H; cbn [map snd filter] in *.
  - inversion H; subst. reflexivity.
  - inversion H as [|? row ? rows' Hh Hr|? q ? rows' Hq Hn Hr]; subst.
    + assert (Er : map (fun i => nth (Z.to_nat i) cells NaN) idx = map Fin row).
      { clear - F Hh. revert idx F. induction Hh as [|q x qs row H1 H2 IH]; intros idx F; inversion F as [|? i ? idx' A B]; subst; [reflexivity|]. cbn [map]. rewrite (IH idx' B). f_equal. destruct (index_cell q _ _ _ H1) as [n [A' <-]]. rewrite A in A'. injection A' as ->. rewrite Nat2Z.id. reflexivity. }
      rewrite Er. assert (En : existsb eisnan (map Fin row) = false) by (clear; induction row; cbn; auto). rewrite En. cbn [negb map]. f_equal. apply IH, Hr.
    + assert (En : existsb eisnan (map (fun i => nth (Z.to_nat i) cells NaN) idx) = true).
      { apply existsb_exists. exists NaN. split; [|reflexivity]. destruct (index_cell q _ _ _ Hn) as [n [A Ev]]. clear - F Hq A Ev. induction F as [|q' i qs idx B F IH]; [destruct Hq|]. cbn [map]. destruct Hq as [->|Hq]; [left; rewrite A in B; injection B as <-; rewrite Nat2Z.id; exact Ev|right; apply IH, Hq]. }
      rewrite En. cbn [negb]. apply IH, Hr.
Qed.
Lemma finites_ok row : finites (map Fin row) = Ok row.
Proof. unfold finites. apply rsequence_ok. rewrite map_map. reflexivity. Qed.
Lemma all_finites rows : rsequence (map finites (map (map Fin) rows)) = Ok rows.
Proof. apply rsequence_ok. rewrite map_map. apply map_ext. exact finites_ok. Qed.
Lemma columns_ok spec qs cols : Forall2 (fun q c => dget q spec = Some c) qs cols -> columns spec qs = Ok cols.
Proof. intros F. unfold columns. apply rsequence_ok. induction F as [|q c qs cols H F IH]; [reflexivity|]. cbn [map]. rewrite H, IH. reflexivity. Qed.
(** On a row that is not stored the queries are answered by the density and the sampler, with the
    columns asked for and the rows that have all their cells. *)
Theorem C67_query : forall g s spec r T C rows ct cc xt xc, (0 < t_N s)%Z -> dget r (t_data s) = None -> T <> [] ->
  (forall q, In q (dkeys T ++ dkeys C) -> In q (t_obs g)) -> (forall q, In q (dkeys T) -> ~ In q (dkeys C)) ->
  Forall2 (fun q c => dget q spec = Some c) (dkeys T) ct -> Forall2 (fun q c => dget q spec = Some c) (dkeys C) cc -> dvals T = map Fin xt -> dvals C = map Fin xc ->
  gathered (t_obs g) (dkeys T ++ dkeys C) (map snd (t_data s)) rows ->
  kde_logpdf g (query_density spec) s r T C [] = density ct cc rows xt xc /\
  forall d N, kde_simulate g (query_sample d spec N) s r (dkeys T) C [] = sample d ct cc rows xc N.
Proof.
  intros g s spec r T C rows ct cc xt xc HN Hr HT Hk Hdis Ft Fc Et Ec Hg. pose proof (dataset_gathered g s _ rows Hk Hg) as Ed.
  assert (Hu : unknown g (dkeys T) = false).
  { unfold unknown. apply Bool.not_true_is_false. intros E. apply existsb_exists in E. destruct E as [q [Hq E]]. apply Bool.negb_true_iff in E. assert (In q (t_out g)) by (unfold t_out; apply in_or_app; left; apply Hk, in_or_app; left; exact Hq). apply zmem_in in H. congruence. }
  assert (Ho : overlapping (dkeys T) C = false).
  { unfold overlapping. apply Bool.not_true_is_false. intros E. apply existsb_exists in E. destruct E as [q [Hq E]]. apply (Hdis q Hq). apply dmem_in. exact E. }
  assert (Hp : forall tl, populate_constraints g s r tl C = Ok C) by (intros tl; unfold populate_constraints; rewrite Hr; reflexivity).
  assert (H0 : (t_N s =? 0)%Z = false) by (apply Z.eqb_neq; lia).
  split.
  - unfold kde_logpdf. rewrite H0, Hp. cbn [rbind]. destruct T as [|t0 T0]; [congruence|]. set (T := t0 :: T0) in *.
    assert (En : existsb eisnan (map snd T) = false). { change (map snd T) with (dvals T). rewrite Et. clear. induction xt; cbn; auto. }
    rewrite En, Hu, Ho, Ed. cbn [rbind]. unfold query_density. rewrite (columns_ok spec _ _ Ft), (columns_ok spec _ _ Fc). cbn [rbind]. rewrite all_finites. cbn [rbind]. rewrite Et, Ec, !finites_ok. reflexivity.
  - intros d N. unfold kde_simulate. rewrite H0, Hu, Ho, Hp. assert (Hd : dkeys T <> []) by (destruct T; [congruence|discriminate]). destruct (dkeys T) as [|t0 T0] eqn:ET; [congruence|]. rewrite <- ET in *. cbn [rbind]. rewrite Ed. cbn [rbind]. unfold query_sample. rewrite (columns_ok spec _ _ Ft), (columns_ok spec _ _ Fc). cbn [rbind]. rewrite all_finites. cbn [rbind]. rewrite Ec, finites_ok. reflexivity.
Qed.
Print Assumptions C67_query.

(* ------------------------------------------------------------------ *)
(** ** Missing cells *)
Lemma density_plain cols M x ns : length x = length cols -> Forall proper cols -> (forall t c, nth_error cols t = Some c -> varied c (at_column t M)) -> (forall row, In row M -> length row = length cols) ->
  (length cols < length M)%nat -> map (fun t => INR (count (at_column t M))) (seq 0 (length cols)) = ns ->
  density cols [] M x [] = Ok (Fin (ln (Rsum (map (fun row => chance cols ns row x) M) / INR (length M)))).
Proof.
  intros L Hp Hv Hr Hlen <-. unfold density. replace (Nat.leb (length M) (length cols)) with false by (symmetry; apply Nat.leb_gt; exact Hlen).
  rewrite gpke_val; [|exact L|exact Hp|exact Hv|intros row H; rewrite (Hr row H); lia]. rewrite <- map_map with (g := Fin), esum_fin.
  assert (HN : 0 < INR (length M)) by (apply lt_0_INR; lia). unfold ediv. replace (Reqb (INR (length M)) 0) with false by (symmetry; apply Reqb_false; lra). cbn [npx_log]. unfold np_log. rewrite (proj2 (Rltb_true _ _)); [reflexivity|].
  apply Rdiv_lt_0_compat; [|exact HN]. apply Rsum_pos_map; [intros ->; cbn in Hlen; lia|]. intros row _. apply chance_pos; [exact Hp|apply (counts_big cols M 0 Hp Hv)].
Qed.
Definition bit : kcol := KCol (Cat 2) (1 / 10).
Lemma bit_proper : proper bit.
Proof. cbn. split; [lia|lra]. Qed.
Lemma bits_two Xi : (forall x, In x Xi -> x = 0 \/ x = 1) -> In 0 Xi -> In 1 Xi -> INR (count Xi) = 2 /\ varied bit Xi.
Proof.
  intros H H0 H1. split; [|exists 0, 1; repeat split; auto; lra]. replace (count Xi) with 2%nat; [cbn; lra|]. apply (occurring_fun Xi); [|apply count_occurring].
  exists [0; 1]. split; [constructor; [intros [E|[]]; lra|constructor; [intros []|constructor]]|]. split; [reflexivity|]. intros x. cbn. split; [intros [<-|[<-|[]]]; assumption|]. intros Hx. destruct (H x Hx); auto.
Qed.
Ltac bits := apply bits_two; [intros x Hx; cbn in Hx; intuition subst; lra|cbn; auto 10|cbn; auto 10].
Definition stored (g : shape) (l : list (Z * dict ext)) : table := fold_left (fun s '(r, o) => fst (table_incorporate g s r o [])) l (Table [] 0).
(** "The density of two outputs is the conditional density of one times the marginal of the
    other": not when cells are missing, as the rows of the marginal are others. *)
Theorem C67_chain_refuted : exists g spec l r x y, let s := stored g l in let p T C := kde_logpdf g (query_density spec) s r T C [] in
  Forall (fun '(_, c) => proper c) spec /\ exists a b j, p [(0%Z, x)] [(1%Z, y)] = Ok (Fin a) /\ p [(1%Z, y)] [] = Ok (Fin b) /\ p [(0%Z, x); (1%Z, y)] [] = Ok (Fin j) /\ j < a + b.
Proof.
  set (g := Shape [0; 1]%Z []). set (spec := [(0%Z, bit); (1%Z, bit)]).
  set (l := [(0%Z, [(0%Z, Fin 0); (1%Z, Fin 0)]); (1%Z, [(0%Z, Fin 1); (1%Z, Fin 1)]); (2%Z, [(0%Z, Fin 0); (1%Z, Fin 1)]); (3%Z, [(1%Z, Fin 1)]); (4%Z, [(1%Z, Fin 1)])]).
  set (M := [[0; 0]; [1; 1]; [0; 1]]). set (K := [[0]; [1]; [1]; [1]; [1]]).
  exists g, spec, l, 9%Z, (Fin 0), (Fin 1). intros s p. split; [repeat constructor; cbn; try lia; try lra|].
  assert (Es : s = Table [(0%Z, [Fin 0; Fin 0]); (1%Z, [Fin 1; Fin 1]); (2%Z, [Fin 0; Fin 1]); (3%Z, [NaN; Fin 1]); (4%Z, [NaN; Fin 1])] 5) by reflexivity.
  assert (G2 : gathered (t_obs g) [0; 1]%Z (map snd (t_data s)) M).
  { rewrite Es. cbn [map snd t_data]. repeat (apply gathered_has; [constructor; [reflexivity|constructor; [reflexivity|constructor]]|]). apply (gathered_lacks _ _ _ 0%Z); [left; reflexivity|reflexivity|]. apply (gathered_lacks _ _ _ 0%Z); [left; reflexivity|reflexivity|]. constructor. }
  assert (G1 : gathered (t_obs g) [1]%Z (map snd (t_data s)) K).
  { rewrite Es. cbn [map snd t_data]. repeat (apply gathered_has; [constructor; [reflexivity|constructor]|]). constructor. }
  assert (B0 : INR (count (at_column 0 M)) = 2 /\ varied bit (at_column 0 M)) by bits.
  assert (B1 : INR (count (at_column 1 M)) = 2 /\ varied bit (at_column 1 M)) by bits.
  assert (BK : INR (count (at_column 0 K)) = 2 /\ varied bit (at_column 0 K)) by bits.
  assert (BS : INR (count (at_column 0 (map (skipn 1) M))) = 2 /\ varied bit (at_column 0 (map (skipn 1) M))) by bits.
  assert (V : forall t c, nth_error [bit; bit] t = Some c -> varied c (at_column t M)) by (intros [|[|[|t]]] c H; try discriminate; injection H as <-; tauto).
  assert (P2 : Forall proper [bit; bit]) by (repeat constructor; apply bit_proper).
  assert (Dj : density [bit; bit] [] M [0; 1] [] = Ok (Fin (ln (33 / 100)))).
  { rewrite (density_plain _ _ _ [2; 2]); [|reflexivity|exact P2|exact V|intros row Hr; cbn in Hr; intuition subst; reflexivity|cbn; lia|cbn [length seq map]; rewrite (proj1 B0), (proj1 B1); reflexivity].
    do 3 f_equal. cbn [M map chance kern bit kc_kind kc_bw length INR]. unfold Rsum. cbn [fold_right]. unfold kern. cbn [bit kc_kind kc_bw]. repeat (destruct (Req_EM_T _ _); try lra). }
  assert (Db : density [bit] [] K [1] [] = Ok (Fin (ln (74 / 100)))).
  { rewrite (density_plain _ _ _ [2]); [|reflexivity|repeat constructor; apply bit_proper|intros [|[|t]] c H; try discriminate; injection H as <-; tauto|intros row Hr; cbn in Hr; intuition subst; reflexivity|cbn; lia|cbn [length seq map]; rewrite (proj1 BK); reflexivity].
    do 3 f_equal. cbn [K map chance length INR]. unfold Rsum. cbn [fold_right]. unfold kern. cbn [bit kc_kind kc_bw]. repeat (destruct (Req_EM_T _ _); try lra). }
  assert (Dm : density [bit] [] (map (skipn 1) M) [1] [] = Ok (Fin (ln (19 / 30)))).
  { rewrite (density_plain _ _ _ [2]); [|reflexivity|repeat constructor; apply bit_proper|intros [|[|t]] c H; try discriminate; injection H as <-; tauto|intros row Hr; cbn in Hr; intuition subst; reflexivity|cbn; lia|cbn [length seq map]; rewrite (proj1 BS); reflexivity].
    do 3 f_equal. cbn [M map skipn chance length INR]. unfold Rsum. cbn [fold_right]. unfold kern. cbn [bit kc_kind kc_bw]. repeat (destruct (Req_EM_T _ _); try lra). }
  assert (Da : exists a, density [bit] [bit] M [0] [1] = Ok (Fin a)).
  { unfold density. rewrite !gpke_val; try reflexivity; try exact P2; try exact V; try (repeat constructor; apply bit_proper); try (intros row Hr; cbn in Hr; intuition subst; cbn; lia).
    2:{ intros [|[|t]] c H; try discriminate; injection H as <-; tauto. }
    assert (ES : forall (f : list R -> R) L, esum (map (fun row => Fin (f row)) L) = Fin (Rsum (map f L))) by (intros f L; rewrite <- map_map with (g := Fin); apply esum_fin). rewrite !ES.
    match goal with |- exists a, Ok (npx_log (ediv (Fin ?u) (Fin ?v))) = _ => set (J := u); set (C := v) end.
    assert (PJ : 0 < J) by (apply Rsum_pos_map; [discriminate|]; intros row _; apply chance_pos; [exact P2|apply (counts_big [bit; bit] M 0 P2 V)]).
    assert (PC : 0 < C). { apply Rsum_pos_map; [discriminate|]. intros row _. apply chance_pos; [repeat constructor; apply bit_proper|]. apply (counts_big [bit] (map (skipn 1) M) 0); [repeat constructor; apply bit_proper|]. intros [|[|t]] c H; try discriminate; injection H as <-; tauto. }
    unfold ediv. replace (Reqb C 0) with false by (symmetry; apply Reqb_false; lra). cbn [npx_log]. unfold np_log. rewrite (proj2 (Rltb_true _ _)) by (apply Rdiv_lt_0_compat; assumption). eauto. }
  destruct Da as [a Da]. pose proof (C67_chain [bit] [bit] M [0] [1] a _ P2 ltac:(intros row Hr; cbn in Hr; intuition subst; reflexivity) V eq_refl eq_refl ltac:(discriminate) ltac:(cbn; lia) Da Dm) as Ch. cbn [app] in Ch. rewrite Dj in Ch. injection Ch as Ch.
  exists a, (ln (74 / 100)), (ln (33 / 100)). subst p. cbv beta.
  destruct (C67_query g s spec 9 [(0%Z, Fin 0)] [(1%Z, Fin 1)] M [bit] [bit] [0] [1]) as [Q1 _]; try reflexivity; try exact G2; try discriminate; try (repeat constructor; reflexivity); [cbn; intuition lia|cbn; intuition lia|].
  destruct (C67_query g s spec 9 [(1%Z, Fin 1)] [] K [bit] [] [1] []) as [Q2 _]; try reflexivity; try exact G1; try discriminate; try (repeat constructor; reflexivity); [cbn; intuition lia|cbn; intuition lia|].
  destruct (C67_query g s spec 9 [(0%Z, Fin 0); (1%Z, Fin 1)] [] M [bit; bit] [] [0; 1] []) as [Q3 _]; try reflexivity; try exact G2; try discriminate; try (repeat constructor; reflexivity); [cbn; intuition lia|cbn; intuition lia|].
  split; [rewrite Q1; exact Da|]. split; [rewrite Q2; exact Db|]. split; [rewrite Q3; exact Dj|]. pose proof (ln_increasing (19 / 30) (74 / 100) ltac:(lra) ltac:(lra)). lra.
Qed.
Print Assumptions C67_chain_refuted.

(* ------------------------------------------------------------------ *)
(** ** Examples *)
Definition ex_rows : list (list R) := [[0; 5; 0]; [1; 7; 1]; [0; 6; 1]].
Example C67_sound_ex : sound [bit; KCol Num 2] [bit] ex_rows [1; 6] [0].
Proof.
  assert (H : Forall (cell_ok bit) [0; 1; 0]) by (repeat constructor; cbn; [exists 0%nat|exists 1%nat|exists 0%nat]; cbn; split; auto; lia).
  constructor; try reflexivity.
  - intros row Hr. cbn in Hr. intuition subst; reflexivity.
  - repeat constructor; cbn; try lia; lra.
  - intros [|[|[|j]]] c Hc; try discriminate; injection Hc as <-; split; cbn [full bit kc_kind at_column ex_rows map nth]; [exact H| |repeat constructor|exact I].
    intros [|[|j]] Hj; cbn; [auto|auto|lia].
  - repeat constructor. exists 1%nat. cbn. split; [reflexivity|lia].
  - intros [|[|j]] c Hc; try discriminate; injection Hc as <-. exists 0, 1. cbn. repeat split; auto; lra.
Qed.
Fixpoint first_pos (l : list ext) : nat := match l with [] => 0%nat | x :: l' => if eltb (Fin 0) x then 0%nat else S (first_pos l') end.
Lemma first_pos_ok : draw_ok first_pos.
Proof.
  intros p _ [x [Hx Px]]. induction p as [|y p IH]; [destruct Hx|]. cbn [first_pos]. destruct (eltb (Fin 0) y) eqn:E; [exists y; auto|]. destruct Hx as [->|Hx]; [congruence|]. cbn [nth_error]. apply IH, Hx.
Qed.
Definition ex_draws : draws := Draws (fun _ => first_pos) (fun _ _ q => match q with RNormal mu _ => mu | RChoice _ => 0 end).
Example C67_simulate_ex : exists x, sample ex_draws [bit; KCol Num 2] [] ex_rows [] (Some 2%nat) = Ok (Many x) /\ length x = 2%nat.
Proof.
  destruct C67_sound_ex as [_ _ Lr Hp Hcell _ _]. destruct (C67_simulate ex_draws [bit; KCol Num 2] [] ex_rows [] [1; 1; 1]) as [_ Q]; try reflexivity.
  - intros n. exact first_pos_ok.
  - discriminate.
  - repeat constructor; cbn; lia.
  - repeat constructor; cbn; try lia; lra.
  - intros j c H. apply Hcell. exact H.
  - repeat constructor; lra.
  - destruct (Q 2%nat) as [xs [E [L _]]]. eauto.
Qed.
