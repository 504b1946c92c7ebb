(** Properties C23, C24, C28, C42 and C51 (the part about views): mixtures of columns. *)
From Verif Require Import ViewFacts RowGibbs ViewUndo.
Local Open Scope R_scope.

(* ------------------------------------------------------------------ *)
(** ** C23: columns and row partition agree *)

(** The views, with the data table they share, that histories of calls lead to.
    The calls are those of the State that owns the view; it passes the table's own
    values when it inserts a row, and has written forced values to the table before.
    Calls that raise are included where they leave the view usable; the others are
    the subject of C42. *)
Inductive vreach : table -> view -> Prop :=
| vr_new X o alpha grid : vreach X (view_new o alpha grid)
| vr_table X X' v : vreach X v ->                  (* other rows of the table change *)
    (forall c r, In r (dkeys (v_rows v)) -> X' c r = X c r) -> vreach X' v
| vr_incorporate X v draws r k obs v' : vreach X v ->
    (forall c a, dget c (v_dims v) = Some a -> exists x, dget c obs = Some x /\ X c r = Ok x) ->
    view_incorporate X draws v r k obs = (v', Ok tt) -> vreach X v'
| vr_unincorporate X v r v' res : vreach X v -> view_unincorporate v r = (v', res) -> vreach X v'
| vr_force X X' v r obs v' : vreach X v -> NoDup (dkeys obs) ->
    (forall c r', r' <> r \/ ~ In c (dkeys obs) -> X' c r' = X c r') ->
    (forall c x, dget c obs = Some x -> X' c r = Ok x) ->
    inputs_forced v obs ->
    view_force_cell X' v r obs = (v', Ok tt) -> vreach X' v'
| vr_rows X v draws rows v' : vreach X v ->
    transition_rows X draws v rows = (v', Ok tt) -> vreach X v'
| vr_new_dim X v c M h set ins tape v' a' : vreach X v -> known M ->
    view_incorporate_dim X v c (ADim M (dim_new M h set ins tape)) true = (v', a', Ok tt) ->
    vreach X v'
| vr_move_dim X v c X2 v2 c2 a v' a' : vreach X v ->  (* a column of another view *)
    vreach X2 v2 -> dget c2 (v_dims v2) = Some a ->
    view_incorporate_dim X v c a true = (v', a', Ok tt) -> vreach X v'
| vr_put_back X v c a v1 v' a' : vreach X v ->
    dget c (v_dims v) = Some a -> view_unincorporate_dim v c = (v1, Ok tt) ->
    view_incorporate_dim X v1 c a false = (v', a', Ok tt) -> vreach X v'
| vr_unincorporate_dim X v c v' res : vreach X v ->
    view_unincorporate_dim v c = (v', res) -> vreach X v'
| vr_cctype X v c M h set ins tape v' : vreach X v -> known M ->
    view_update_cctype X v c (ADim M (dim_new M h set ins tape)) = (v', Ok tt) -> vreach X v'
| vr_call X v c o v' res : vreach X v -> view_call v c o = (v', res) -> vreach X v'
| vr_alpha X lgam v draws v' res : vreach X v ->
    view_transition_alpha lgam draws v = (v', res) -> vreach X v'.

Lemma known_ainv M h set ins tape : known M -> ainv (ADim M (dim_new M h set ins tape)).
Proof. intros HM. split; [apply known_laws; exact HM|]. apply dinv_new, known_laws, HM. Qed.

Lemma vreach_vinv X v : vreach X v -> vinv X v.
Proof.
  induction 1 as [X o alpha grid|X X' v _ IH H|X v draws r k obs v' _ IH Ho E|X v r v' res _ IH E
    |X X' v r obs v' _ IH Hn H1 H2 Hf E|X v draws rows v' _ IH E|X v c M h set ins tape v' a' _ IH HM E
    |X v c X2 v2 c2 a v' a' _ IH _ IH2 Ha E|X v c a v1 v' a' _ IH Ha E1 E|X v c v' res _ IH E
    |X v c M h set ins tape v' _ IH HM E|X v c o v' res _ IH E|X lgam v draws v' res _ IH E].
  - split; [apply crp_inv_new|]. split; [constructor|]. discriminate.
  - eapply vinv_table; eassumption.
  - eapply view_inc_ok; [exact IH| |exact Ho|exact E]. reflexivity.
  - destruct (dget r (v_rows v)) as [k|] eqn:Er.
    + destruct (view_uninc_ok X v r k IH Er) as [v2 [E2 [H _]]]. rewrite E in E2.
      injection E2 as -> _. exact H.
    + destruct (view_uninc_none X v r IH Er) as [e E2]. rewrite E in E2.
      injection E2 as -> _. exact IH.
  - eapply force_ok; eassumption.
  - eapply transition_rows_ok; eassumption.
  - eapply (incorporate_dim_ok X v c _ true); [exact IH| |exact E]. apply known_ainv; exact HM.
  - eapply (incorporate_dim_ok X v c _ true); [exact IH| |exact E].
    apply (proj2 (proj2 IH2) c2 a Ha).
  - destruct (unincorporate_dim_ok X v c v1 IH E1) as [V1 [R1 [C1 _]]].
    eapply (incorporate_dim_ok X v1 c a false); [exact V1| |exact E].
    destruct (proj2 (proj2 IH) c a Ha) as [A [B C]]. split; [exact A|]. rewrite R1, C1.
    split; [exact B|exact C].
  - destruct res as [[]|e].
    + eapply unincorporate_dim_ok; eassumption.
    + unfold view_unincorporate_dim in E. destruct (dmem c (v_dims v)); [discriminate|].
      injection E as <- _. exact IH.
  - eapply update_cctype_ok; [exact IH| |exact E]. apply known_ainv; exact HM.
  - eapply view_call_ok; eassumption.
  - eapply view_alpha_ok; eassumption.
Qed.

(** The row's cell and the cells it depends on are all observed. *)
Definition cell_observed (X : table) (c : Z) (a : adim) (r : Z) (v : R) (l : list R) : Prop :=
  X c r = Ok (Some v) /\ Forall2 (fun i y => X i r = Ok (Some y)) (d_ins (a_d a)) l.

Lemma all_some_map ins l : all_some ins = Some l <-> ins = map Some l.
Proof.
  revert l. induction ins as [|i ins IH]; intros l; simpl.
  - split; [intros E; injection E as <-; reflexivity|]. destruct l; [reflexivity|discriminate].
  - destruct i as [v|].
    2:{ split; [discriminate|]. destruct l; discriminate. }
    destruct (all_some ins) as [l'|].
    + split; [intros E; injection E as <-; simpl; f_equal; apply IH; reflexivity|].
      destruct l as [|w l]; [discriminate|]. simpl. intros E. injection E as -> E.
      apply IH in E. injection E as ->. reflexivity.
    + split; [discriminate|]. destruct l as [|w l]; [discriminate|]. simpl.
      intros E. injection E as _ E. apply IH in E. discriminate.
Qed.

Lemma map_ok_forall2 (X : table) r ins l : map (fun i => X i r) ins = map (fun y => Ok (Some y)) l <->
  Forall2 (fun i y => X i r = Ok (Some y)) (ins : list Z) (l : list R).
Proof.
  revert l. induction ins as [|i ins IH]; intros [|y l]; simpl; split; intros H;
    try discriminate; try (inversion H; fail); try constructor; auto.
  - injection H as H _. exact H.
  - apply IH. injection H as _ H. exact H.
  - inversion H; subst. f_equal; [assumption|]. apply IH. assumption.
Qed.

Lemma rsequence_map_ok {A} (l : list A) : rsequence (map Ok l) = Ok l.
Proof. induction l as [|x l IH]; simpl; [reflexivity|]. rewrite IH. reflexivity. Qed.

Lemma input_values_some X r a l :
  (exists ins, input_values X r a = Ok ins /\ all_some ins = Some l) <->
  Forall2 (fun i y => X i r = Ok (Some y)) (d_ins (a_d a)) l.
Proof.
  rewrite <- map_ok_forall2. unfold input_values. split.
  - intros [ins [E1 E2]]. apply all_some_map in E2. subst ins.
    apply rsequence_inv in E1. rewrite <- E1, map_map. reflexivity.
  - intros E. exists (map Some l). split; [|apply all_some_map; reflexivity].
    rewrite E. replace (map (fun y => Ok (Some y)) l) with (map (@Ok cell) (map Some l))
      by apply map_map. apply rsequence_map_ok.
Qed.

Lemma expected_observed X c a r v l : expected X c a r = Some (Some (v, l)) <->
  exists x, cell_observed X c a r x l /\ v = m_keep (a_M a) x.
Proof.
  unfold expected, cell_observed. split.
  - destruct (X c r) as [[x|]|]; try discriminate.
    + destruct (input_values X r a) as [ins|] eqn:Ei; [|discriminate]. simpl.
      destruct (all_some ins) as [l'|] eqn:El; [|discriminate]. simpl. intros E.
      injection E as <- <-. exists x. split; [split; [reflexivity|]|reflexivity].
      apply input_values_some. eauto.
    + destruct (input_values X r a) as [ins|]; simpl; discriminate.
  - intros [x [[E1 E2] ->]]. apply input_values_some in E2. destruct E2 as [ins [Ei El]].
    rewrite E1, Ei. simpl. rewrite El. reflexivity.
Qed.

(** Every column has the rows of the partition, in the same clusters; its clusters are
    those of the partition; and a cluster holds exactly the observed cells of its rows,
    as the table has them. *)
Definition column_follows (X : table) (v : view) (c : Z) (a : adim) : Prop :=
  let M := a_M a in let d := a_d a in
  (forall r k, dget r (v_rows v) = Some k <->
     dget r (d_zr d) = Some k \/ dget r (d_zi d) = Some k) /\
  (forall r, ~ (In r (dkeys (d_zr d)) /\ In r (dkeys (d_zi d)))) /\
  (forall k, In k (dkeys (d_clusters d)) <-> exists r, dget r (v_rows v) = Some k) /\
  (forall r, In r (dkeys (d_zr d)) <->
     In r (dkeys (v_rows v)) /\ exists x l, cell_observed X c a r x l) /\
  (forall k s, dget k (d_clusters d) = Some s -> reach M s /\
     forall r y l, dget r (m_rows M s) = Some (y, l) <->
       dget r (v_rows v) = Some k /\ exists x, cell_observed X c a r x l /\ y = m_keep M x).
Lemma column_ok_follows X v c a : crp_inv (v_crp v) -> column_ok X v c a -> column_follows X v c a.
Proof.
  intros Hc Ha. unfold column_follows.
  destruct Ha as [[HL Hi] [Hk Hr]]. unfold acontent, content in Hr.
  destruct a as [M d]. cbv zeta. unfold akeys in Hk. cbn [a_M a_d] in *.
  assert (Hzi : forall r k, dget r (d_zi d) = Some k -> dget r (v_rows v) = Some k /\
     expected X c (ADim M d) r = Some None).
  { intros r k E. specialize (Hr r). rewrite E in Hr. destruct (dget r (v_rows v)); [|discriminate].
    destruct Hr as [e [E1 E2]]. injection E2 as -> <-. auto. }
  assert (Hzr : forall r k, dget r (d_zr d) = Some k -> dget r (v_rows v) = Some k /\
     exists s y, dget k (d_clusters d) = Some s /\ dget r (m_rows M s) = Some y /\
       expected X c (ADim M d) r = Some (Some y)).
  { intros r k E. destruct (di_in _ _ _ Hi r k E) as [s [y [E1 E2]]].
    specialize (Hr r). rewrite (di_disj _ _ _ Hi r k E), E, E1, E2 in Hr.
    destruct (dget r (v_rows v)); [|discriminate].
    destruct Hr as [e [F1 F2]]. injection F2 as -> <-. split; [reflexivity|]. eauto. }
  split; [|split; [|split; [|split]]].
  - intros r k. split; [|intros [E|E]; [apply (Hzr r k E)|apply (Hzi r k E)]].
    intros E. specialize (Hr r). rewrite E in Hr. destruct Hr as [e [F1 F2]].
    destruct (dget r (d_zi d)) as [k'|]; [injection F2 as -> _; auto|].
    destruct (dget r (d_zr d)) as [k'|]; [|discriminate].
    destruct (dget k' (d_clusters d)); [|discriminate]. injection F2 as -> _. auto.
  - intros r [H1 H2]. apply in_dkeys_Some in H1. destruct H1 as [k E].
    apply (di_disj _ _ _ Hi) in E. apply in_dkeys_Some in H2. destruct H2 as [k2 E2]. congruence.
  - intros k. rewrite Hk. split; [apply crp_counts_rows; exact Hc|].
    intros [r E]. eapply crp_rows_counts; eassumption.
  - intros r. split.
    + intros H. apply in_dkeys_Some in H. destruct H as [k E].
      destruct (Hzr r k E) as [E1 [s [[y l] [E2 [E3 E4]]]]]. split; [eapply dget_Some_in; exact E1|].
      apply expected_observed in E4. destruct E4 as [x [E4 _]]. eauto.
    + intros [H [x [l Hob]]]. apply in_dkeys_Some in H. destruct H as [k E].
      specialize (Hr r). rewrite E in Hr. destruct Hr as [e [F1 F2]].
      assert (F3 : expected X c (ADim M d) r = Some (Some (m_keep M x, l)))
        by (apply expected_observed; eauto).
      rewrite F1 in F3. injection F3 as ->.
      destruct (dget r (d_zi d)) as [k'|]; [discriminate|].
      destruct (dget r (d_zr d)) as [k'|] eqn:Er; [|discriminate]. eapply dget_Some_in; exact Er.
  - intros k s Es. split; [apply (di_good _ _ _ Hi k s Es)|]. intros r y l. split.
    + intros E. pose proof (di_only _ _ _ Hi r k s (y, l) Es E) as Ez.
      destruct (Hzr r k Ez) as [E1 [s' [y' [E2 [E3 E4]]]]]. split; [exact E1|].
      rewrite Es in E2. injection E2 as <-. rewrite E in E3. injection E3 as <-.
      apply expected_observed. exact E4.
    + intros [E1 E2]. apply expected_observed in E2. specialize (Hr r). rewrite E1 in Hr.
      destruct Hr as [e [F1 F2]]. rewrite E2 in F1. injection F1 as <-.
      destruct (dget r (d_zi d)) as [k'|]; [discriminate|].
      destruct (dget r (d_zr d)) as [k'|] eqn:Er; [|discriminate].
      destruct (dget k' (d_clusters d)) as [s'|] eqn:E'; [|discriminate].
      injection F2 as -> F2. rewrite Es in E'. injection E' as <-. exact F2.
Qed.
Lemma vinv_column X v c a : vinv X v -> dget c (v_dims v) = Some a -> column_follows X v c a.
Proof. intros [Hc [Hn Hd]] Ha. apply column_ok_follows; [exact Hc|apply Hd; exact Ha]. Qed.

(** After any history, and whatever was drawn. *)
Theorem C23_columns_follow_partition X v c a : vreach X v -> dget c (v_dims v) = Some a ->
  let M := a_M a in let d := a_d a in
  (forall r k, dget r (v_rows v) = Some k <->
     dget r (d_zr d) = Some k \/ dget r (d_zi d) = Some k) /\
  (forall r, ~ (In r (dkeys (d_zr d)) /\ In r (dkeys (d_zi d)))) /\
  (forall k, In k (dkeys (d_clusters d)) <-> exists r, dget r (v_rows v) = Some k) /\
  (forall r, In r (dkeys (d_zr d)) <->
     In r (dkeys (v_rows v)) /\ exists x l, cell_observed X c a r x l) /\
  (forall k s, dget k (d_clusters d) = Some s -> reach M s /\
     forall r y l, dget r (m_rows M s) = Some (y, l) <->
       dget r (v_rows v) = Some k /\ exists x, cell_observed X c a r x l /\ y = m_keep M x).
Proof. intros HR Ha. exact (vinv_column X v c a (vreach_vinv X v HR) Ha). Qed.
Print Assumptions C23_columns_follow_partition.

(** The partition itself keeps count of its rows. *)
Theorem C23_partition_counts X v : vreach X v ->
  NoDup (dkeys (v_rows v)) /\
  c_N (v_crp v) = Z.of_nat (length (v_rows v)) /\
  forall k n, dget k (c_counts (v_crp v)) = Some n <->
    (0 < n)%Z /\ n = Z.of_nat (length (filter (fun p => (snd p =? k)%Z) (v_rows v))).
Proof.
  intros HR. destruct (vreach_vinv X v HR) as [[H1 [[H2 H3] H4]] _].
  split; [exact H1|]. split; [exact H4|].
  assert (Ho : forall k, occ k (dvals (v_rows v)) =
    Z.of_nat (length (filter (fun p => (snd p =? k)%Z) (v_rows v)))).
  { intros k. induction (v_rows v) as [|[r z] l IH]; [reflexivity|].
    change (dvals ((r, z) :: l)) with (z :: dvals l). rewrite occ_cons, IH, (Z.eqb_sym k z).
    cbn [filter snd]. destruct (z =? k)%Z; cbn [length]; lia. }
  intros k n. fold (v_rows v) in H3. rewrite H3, <- Ho.
  destruct (Z.eqb_spec (occ k (dvals (v_rows v))) 0) as [->|Hz].
  - split; [discriminate|]. lia.
  - split; [intros E; injection E as <-|intros [_ ->]; reflexivity].
    split; [|reflexivity]. unfold occ in *. lia.
Qed.
Print Assumptions C23_partition_counts.

(* ------------------------------------------------------------------ *)
(** ** C24: removing a row that was just inserted *)

(** Nothing observable has changed: partition (rows, counts, concentration) and, in
    every column, clusters, assignments, hyperparameters and grids. *)
Definition same_column (a a' : adim) : Prop :=
  exists d', a' = ADim (a_M a) d' /\ d_clusters d' = d_clusters (a_d a) /\
    d_zr d' = d_zr (a_d a) /\ d_zi d' = d_zi (a_d a) /\ d_hyp d' = d_hyp (a_d a) /\
    d_grids d' = d_grids (a_d a) /\ d_ins d' = d_ins (a_d a).

Theorem C24_insert_then_remove X0 X draws v r k obs v1 lgam : vreach X0 v ->
  view_incorporate X draws v r (Some k) obs = (v1, Ok tt) ->
  exists v2, view_unincorporate v1 r = (v2, Ok tt) /\
    v_crp v2 = v_crp v /\
    Forall2 (fun p q => fst p = fst q /\ same_column (snd p) (snd q)) (v_dims v) (v_dims v2) /\
    view_score lgam v2 = view_score lgam v.
Proof.
  intros HR E. apply vreach_vinv in HR.
  destruct (view_inc_undo X0 X draws v r k obs v1 HR E) as [v2 [E2 Hr]].
  exists v2. split; [exact E2|]. split; [apply Hr|]. split; [|apply restored_score; exact Hr].
  destruct Hr as [_ [_ [_ F]]].
  induction F as [|p q l l' [A U] _ IH]; constructor; [|exact IH].
  split; [exact A|]. destruct U as [d' [B [U1 [U2 [U3 [U4 [U5 [_ [U6 _]]]]]]]]].
  exists d'. auto 8.
Qed.
Print Assumptions C24_insert_then_remove.

(* ------------------------------------------------------------------ *)
(** ** C28: the weights of row reassignment *)

(** [v'] is the view with row [r], now in cluster [z], placed in cluster [k]: [v]
    itself, or the row removed and inserted in [k]. *)
Definition row_placed (X : table) (v : view) (r z k : Z) (v' : view) : Prop :=
  (k = z /\ v' = v) \/
  (k <> z /\ exists v0 obs, view_unincorporate v r = (v0, Ok tt) /\
     (forall c a, dget c (v_dims v0) = Some a -> exists x, dget c obs = Some x /\ X c r = Ok x) /\
     view_insert X v0 r k obs = (v', Ok tt)).

(** Columns of collapsed classes with hyperparameters that the classes accept. *)
Definition collapsed_column (a : adim) : Prop :=
  collapsed (a_M a) (m_hyp (a_M a) (d_aux (a_d a))) /\
  forall k c, dget k (d_clusters (a_d a)) = Some c -> collapsed (a_M a) (m_hyp (a_M a) c).

(** The clusters offered: those of the other rows, and exactly one empty one. *)
Definition choices (v : view) (r : Z) (K : list Z) : Prop :=
  NoDup K /\
  (forall k, (exists r', r' <> r /\ dget r' (v_rows v) = Some k) -> In k K) /\
  exists k0, In k0 K /\
    forall k, In k K -> (k = k0 <-> ~ exists r', r' <> r /\ dget r' (v_rows v) = Some k).

Lemma filter_one (f : Z -> bool) (l : list Z) : NoDup l -> length (filter f l) = 1%nat ->
  exists k0, In k0 l /\ forall k, In k l -> (k = k0 <-> f k = true).
Proof.
  intros Hn Hl. destruct (filter f l) as [|k0 [|]] eqn:E; try discriminate.
  exists k0. assert (H0 : In k0 (filter f l)) by (rewrite E; left; reflexivity).
  apply filter_In in H0. destruct H0 as [H0 H1]. split; [exact H0|].
  intros k Hk. split; [intros ->; exact H1|]. intros Hf.
  assert (H : In k (filter f l)) by (apply filter_In; auto). rewrite E in H.
  destruct H as [H|[]]; auto.
Qed.

Lemma tables_choices v r z K : crp_inv (v_crp v) -> dget r (v_rows v) = Some z ->
  crp_gibbs_tables (v_crp v) r 1 = Ok K -> choices v r K.
Proof.
  intros Hc Hr EK. destruct (gibbs_tables_spec (v_crp v) r z 1 Hc Hr Nat.lt_0_1) as [K0 [E0 [Hn [Hin Hl]]]].
  rewrite EK in E0. injection E0 as <-.
  destruct (gibbs_data' (v_crp v) r z 1 Hc Hr Nat.lt_0_1) as [D [_ [_ [Hc' [_ _]]]]].
  set (s' := fst (crp_unincorporate (v_crp v) r)) in *.
  assert (Hocc : forall k, In k (dkeys (c_counts s')) <-> exists r', r' <> r /\ dget r' (v_rows v) = Some k).
  { intros k. split.
    - intros H. destruct (crp_counts_rows _ _ Hc' H) as [r' E]. rewrite D in E.
      rewrite dget_ddel in E by apply Hc. destruct (Z.eqb_spec r' r); [discriminate|]. eauto.
    - intros [r' [Hne E]]. apply (crp_rows_counts s' r' k Hc'). rewrite D, dget_ddel by apply Hc.
      destruct (Z.eqb_spec r' r); [contradiction|]. exact E. }
  split; [exact Hn|]. split; [intros k H; apply Hin, Hocc, H|].
  destruct (filter_one _ _ Hn Hl) as [k0 [H0 H1]]. exists k0. split; [exact H0|].
  intros k Hk. rewrite (H1 k Hk), negb_true_iff, dmem_false, Hocc. reflexivity.
Qed.

Lemma Forall2_imp {A B} (P Q : A -> B -> Prop) l l' : (forall x y, P x y -> Q x y) ->
  Forall2 P l l' -> Forall2 Q l l'.
Proof. intros H F. induction F; constructor; auto. Qed.

Theorem C28_row_weights X lgam v r z v1 K w S : gamma_rec lgam -> lgam 1 = 0 -> vreach X v ->
  (forall c a, dget c (v_dims v) = Some a -> collapsed_column a) ->
  0 < c_alpha (v_crp v) -> dget r (v_rows v) = Some z ->
  view_score lgam v = Ok (Fin S) -> row_weights X v r = (v1, Ok (K, w)) ->
  choices v r K /\
  exists C, Forall2 (fun k wk => exists v' S', row_placed X v r z k v' /\
    view_score lgam v' = Ok (Fin S') /\ wk = Fin (S' - C)) K w.
Proof.
  intros Hg H1 HR Hh Ha Hr HS E. apply vreach_vinv in HR.
  split.
  { eapply tables_choices; [apply HR|exact Hr|]. eapply row_weights_ok; eassumption. }
  destruct (row_weights_exact X lgam v r z v1 K w S Hg H1 HR Hh Ha Hr HS E) as [C F].
  exists C. eapply Forall2_imp; [|exact F].
  intros k wk [v' [S' [P [A B]]]]. exists v', S'. split; [|auto].
  destruct P as [P|[Hk P]]; [left; exact P|]. right. split; [exact Hk|].
  unfold view_migrate in P. destruct (view_unincorporate v r) as [v0 [[]|]]; [|discriminate].
  destruct (table_row X v0 r) as [obs|] eqn:Et; [|discriminate].
  exists v0, obs. split; [reflexivity|]. split; [|exact P]. apply table_row_spec. exact Et.
Qed.
Print Assumptions C28_row_weights.

(** The weights can always be computed, if no column is of the von Mises class. *)
Theorem C28_weights_exist X lgam v r z : vreach X v ->
  (forall c a, dget c (v_dims v) = Some a ->
     collapsed_column a /\ forall lbes, a_M a <> M_vonmises lbes) ->
  0 < c_alpha (v_crp v) -> dget r (v_rows v) = Some z ->
  (exists S, view_score lgam v = Ok (Fin S)) /\
  exists v1 K w, row_weights X v r = (v1, Ok (K, w)).
Proof.
  intros HR Hh Ha Hr. apply vreach_vinv in HR. split.
  - eapply view_score_total; [exact HR|exact Ha|exact Hh].
  - destruct (row_weights_total X v r z HR Ha Hr Hh) as [v1 [K [w [E _]]]]. eauto.
Qed.
Print Assumptions C28_weights_exist.

(** The step itself: it draws a cluster with these weights, moves the row there, and
    moves no other row. *)
Theorem C28_row_step X lgam draw v r z v' S : gamma_rec lgam -> lgam 1 = 0 -> vreach X v ->
  (forall c a, dget c (v_dims v) = Some a -> collapsed_column a) ->
  0 < c_alpha (v_crp v) -> dget r (v_rows v) = Some z ->
  view_score lgam v = Ok (Fin S) -> transition_row X draw v r = (v', Ok tt) ->
  exists K w C k, choices v r K /\
    Forall2 (fun k wk => exists v2 S2, row_placed X v r z k v2 /\
      view_score lgam v2 = Ok (Fin S2) /\ wk = Fin (S2 - C)) K w /\
    log_pflip draw w K = Ok k /\ In k K /\
    dget r (v_rows v') = Some k /\
    (forall r', r' <> r -> dget r' (v_rows v') = dget r' (v_rows v)).
Proof.
  intros Hg H1 HR Hh Ha Hr HS E. pose proof E as E0. unfold transition_row in E.
  destruct (row_weights X v r) as [v1 [[K w]|]] eqn:Ew; [|discriminate].
  destruct (log_pflip draw w K) as [k|] eqn:Ek; [|discriminate].
  destruct (C28_row_weights X lgam v r z v1 K w S Hg H1 HR Hh Ha Hr HS Ew) as [HC [C F]].
  pose proof (vreach_vinv X v HR) as Hv.
  destruct (row_weights_ok X v r v1 K w Hv Ew) as [V1 [C1 _]].
  assert (R1 : v_rows v1 = v_rows v) by (unfold v_rows; rewrite C1; reflexivity).
  rewrite R1, Hr in E.
  exists K, w, C, k. split; [exact HC|]. split; [exact F|]. split; [exact Ek|].
  split; [eapply log_pflip_in; exact Ek|]. split.
  - destruct (Z.eqb_spec z k) as [->|Hne].
    + injection E as <-. rewrite R1. exact Hr.
    + destruct (view_migrate_ok X v1 r k v' V1 E) as [_ [-> _]]. apply dget_dset_same.
  - eapply transition_row_ok; eassumption.
Qed.
Print Assumptions C28_row_step.

(* ------------------------------------------------------------------ *)
(** ** An example view

    A Normal column 0 and a regression column 1 on column 0.  Three rows, in two
    clusters; the input of row 2 is missing. *)
Definition ex_reg (code : list R -> res (list R)) : model :=
  regression unit code (fun _ _ _ _ => Ok (Fin 0)) (fun _ _ => Ok (Fin 0)) 0 hset_none true.
Definition ex_X (x : R) (c r : Z) : res cell :=
  match c, r with
  | 0%Z, 0%Z | 1%Z, 0%Z | 0%Z, 1%Z | 1%Z, 1%Z | 1%Z, 2%Z => Ok (Some x)
  | 0%Z, 2%Z => Ok None
  | _, _ => Err IndexError
  end.
Definition ex_col0 lgam h : adim := ADim (M_normal lgam) (dim_new (M_normal lgam) h true [] (fun _ => tt)).
Definition ex_col1 : adim :=
  ADim (ex_reg (fun l => Ok l)) (dim_new (ex_reg (fun l => Ok l)) tt true [0%Z] (fun _ => tt)).
Definition ex_row (X : table) (v : view) (r k : Z) : view * res unit :=
  view_incorporate X (fun _ _ => 0%nat) v r (Some k)
    (map (fun c => (c, match X c r with Ok x => x | Err _ => None end)) (dkeys (v_dims v))).
Definition ex_v1 lgam h x : view :=
  fst (fst (view_incorporate_dim (ex_X x) (view_new 100 1 [1]) 0 (ex_col0 lgam h) true)).
Definition ex_v2 lgam h x : view :=
  fst (fst (view_incorporate_dim (ex_X x) (ex_v1 lgam h x) 1 ex_col1 true)).
Definition ex_v3 lgam h x : view := fst (ex_row (ex_X x) (ex_v2 lgam h x) 0 0).
Definition ex_v4 lgam h x : view := fst (ex_row (ex_X x) (ex_v3 lgam h x) 1 0).
Definition ex_v5 lgam h x : view := fst (ex_row (ex_X x) (ex_v4 lgam h x) 2 7).

Lemma ex_reach lgam h x : vreach (ex_X x) (ex_v4 lgam h x) /\ vreach (ex_X x) (ex_v5 lgam h x).
Proof.
  assert (R1 : vreach (ex_X x) (ex_v1 lgam h x)).
  { eapply (vr_new_dim _ (view_new 100 1 [1]) 0 (M_normal lgam)); [constructor|constructor|].
    unfold ex_v1. rewrite <- surjective_pairing.
    replace (Ok tt) with (snd (view_incorporate_dim (ex_X x) (view_new 100 1 [1]) 0 (ex_col0 lgam h) true))
      by (vm_compute; reflexivity). apply surjective_pairing. }
  assert (R2 : vreach (ex_X x) (ex_v2 lgam h x)).
  { eapply (vr_new_dim _ (ex_v1 lgam h x) 1 (ex_reg (fun l => Ok l))); [exact R1|constructor; reflexivity|].
    unfold ex_v2. rewrite <- surjective_pairing.
    replace (Ok tt) with (snd (view_incorporate_dim (ex_X x) (ex_v1 lgam h x) 1 ex_col1 true))
      by (vm_compute; reflexivity). apply surjective_pairing. }
  assert (Hrow : forall v r k, vreach (ex_X x) v -> (0 <= r <= 2)%Z ->
    dkeys (v_dims v) = [0; 1]%Z -> snd (ex_row (ex_X x) v r k) = Ok tt ->
    vreach (ex_X x) (fst (ex_row (ex_X x) v r k))).
  { intros v r k Hv Hr Hk He. eapply vr_incorporate; [exact Hv| |].
    2:{ rewrite <- He. unfold ex_row. apply surjective_pairing. }
    rewrite Hk. intros c a Ha. apply dget_Some_in in Ha. rewrite Hk in Ha.
    assert (r = 0 \/ r = 1 \/ r = 2)%Z as Hr' by lia.
    destruct Ha as [<-|[<-|[]]]; destruct Hr' as [-> | [-> | ->]]; simpl; eauto. }
  assert (R3 : vreach (ex_X x) (ex_v3 lgam h x)).
  { apply Hrow; [exact R2|lia| |]; vm_compute; reflexivity. }
  assert (R4 : vreach (ex_X x) (ex_v4 lgam h x)).
  { apply Hrow; [exact R3|lia| |]; vm_compute; reflexivity. }
  split; [exact R4|]. apply Hrow; [exact R4|lia| |]; vm_compute; reflexivity.
Qed.

(** Hypotheses and conclusion of C23 in this case. *)
Example C23_ex lgam h x :
  let v := ex_v5 lgam h x in
  vreach (ex_X x) v /\ v_rows v = [(0, 0); (1, 0); (2, 7)]%Z /\
  map (fun p => (fst p, (d_zr (a_d (snd p)), d_zi (a_d (snd p)), dkeys (d_clusters (a_d (snd p))))))
    (v_dims v) =
    [(0, ([(0, 0); (1, 0)], [(2, 7)], [0; 7])); (1, ([(0, 0); (1, 0)], [(2, 7)], [0; 7]))]%Z.
Proof. split; [exact (proj2 (ex_reach lgam h x))|]. split; vm_compute; reflexivity. Qed.

(** C24: row 2 is inserted in the new cluster 7, and removed again. *)
Example C24_ex lgam h x :
  vreach (ex_X x) (ex_v4 lgam h x) /\ snd (ex_row (ex_X x) (ex_v4 lgam h x) 2 7) = Ok tt.
Proof. split; [exact (proj1 (ex_reach lgam h x))|]. vm_compute; reflexivity. Qed.
