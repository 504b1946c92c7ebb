(** Properties C25, C26, C27 and C29: crosscat states. *)
From Verif Require Import Classes ClassFacts P06_Dim P07_View ColumnFacts.
Local Open Scope R_scope.

(* ------------------------------------------------------------------ *)
(** ** Histories *)

(** The public mutating operations with their arguments and random choices. *)
Inductive sop : Type :=
| OIncorporate (draws : nat -> nat -> list ext -> nat) (rowid : Z) (obs : dict cell) (clus : dict Z)
| OUnincorporate (rowid : Z)
| OForce (rowid : Z) (obs : dict cell)
| OAdd (T : list cell) (col : Z) (k : cspec) (v : option Z) (seed : vseed) (d : cdraws)
    (hd : nat -> list ext -> nat) (ho : list nat)
| ORemove (col : Z)
| OCctype (col : Z) (a : adim) (grids : list (list R)) (picks : nat -> nat)
    (hd : nat -> list ext -> nat) (ho : list nat)
| OKernel (k : kernel).

Definition run_op (s : state) (o : sop) : state * res unit :=
  match o with
  | OIncorporate draws rowid obs clus => state_incorporate draws s rowid obs clus
  | OUnincorporate rowid => state_unincorporate s rowid
  | OForce rowid obs => state_force_cell s rowid obs
  | OAdd T col k v seed d hd ho => state_incorporate_dim s T col k v seed d hd ho
  | ORemove col => state_unincorporate_dim s col
  | OCctype col a grids picks hd ho => state_update_cctype s col a grids picks hd ho
  | OKernel k => run_kernel s k
  end.

(** A column of one of the classes, without rows. *)
Definition fresh (a : adim) : Prop :=
  exists M h set ins tape, known M /\ a = ADim M (dim_new M h set ins tape).
(** The arguments are what Python values can be: new columns are of the classes that
    exist, dictionaries do not repeat a key. *)
Definition wf_op (o : sop) : Prop :=
  match o with
  | OAdd _ _ k _ _ _ _ _ => fresh (cs_col k)
  | OCctype _ a _ _ _ _ => fresh a
  | OForce _ obs => NoDup (dkeys obs)
  | _ => True
  end.

(** The states that histories of successful operations lead to, the operations being
    restricted by [ok]. *)
Inductive sreach (ok : state -> sop -> Prop) : state -> Prop :=
| sr_init X zv alpha grid Cd Ci vspecs cspecs order n s :
    NoDup (dkeys X) -> X <> [] -> (forall c l, dget c X = Some l -> length l = n) ->
    NoDup order -> (forall v, In v order <-> In v (map snd zv)) ->
    (forall v, match vp_zr (vspecs v) with Some z => length z = n | None => True end) ->
    (forall c, In c (dkeys X) -> fresh (cs_col (cspecs c))) ->
    state_init X zv alpha grid Cd Ci vspecs cspecs order = Ok s -> sreach ok s
| sr_step s o s' : sreach ok s -> wf_op o -> ok s o -> run_op s o = (s', Ok tt) -> sreach ok s'.

(** The restrictions that make the operations keep a state consistent; the findings
    below show what happens without them.
    - Forcing a cell of a column that is the input of another column must also force
      the cell of the latter.
    - A column that is the input of another column is not removed.
    - Columns that are not collapsed are reassigned only if the numbers of the views
      ascend in the order in which the views were made. *)
Fixpoint columns_safe (d : nat -> cdraws) (m : nat) (s : state) (cols : list Z) : Prop :=
  match cols with
  | [] => True
  | c :: cols' => col_safe s c /\
      forall s1, transition_dim (d (length cols')) s c m = (s1, Ok tt) -> columns_safe d m s1 cols'
  end.
Definition safe (s : state) (o : sop) : Prop :=
  match o with
  | OForce _ obs => state_inputs_forced s obs
  | OAdd _ _ k v _ _ _ _ => add_safe s k v
  | ORemove col => not_input s col
  | OKernel (KColumns d m cols) => columns_safe d m s cols
  | _ => True
  end.

(* ------------------------------------------------------------------ *)
(** ** C25: consistency *)

Definition view_has (s : state) (v c : Z) : Prop :=
  exists w, dget v (s_views s) = Some w /\ In c (dkeys (v_dims w)).

Record consistent (n : nat) (s : state) : Prop := {
  (* the table: its columns are the outputs, each with n cells *)
  co_outs : NoDup (s_outs s) /\ s_outs s <> [];
  co_table : forall c, In c (s_outs s) <-> exists l, dget c (s_X s) = Some l /\ length l = n;
  (* each column is in exactly one view, the one the column partition says *)
  co_one : forall c, In c (s_outs s) -> exists v, view_has s v c /\ forall v', view_has s v' c -> v' = v;
  co_zv : forall c v, view_has s v c <-> dget c (s_zv s) = Some v;
  co_only : forall c v, view_has s v c -> In c (s_outs s);
  (* no view is empty *)
  co_ne : forall v w, dget v (s_views s) = Some w -> v_dims w <> [];
  (* every view partitions exactly the rows of the table *)
  co_rows : forall v w, dget v (s_views s) = Some w ->
    forall r, In r (dkeys (v_rows w)) <-> (0 <= r < Z.of_nat n)%Z;
  (* clusters hold exactly the cells of the table assigned to them *)
  co_cells : forall v w c a, dget v (s_views s) = Some w -> dget c (v_dims w) = Some a ->
    column_follows (tab (s_X s)) w c a
}.

Lemma sinv_consistent n s : sinv n s -> consistent n s.
Proof.
  intros H.
  assert (Hz : forall c v, view_has s v c <-> dget c (s_zv s) = Some v).
  { intros c v. split.
    - intros [w [Hw Hc]]. apply (si_view _ _ H v w Hw). exact Hc.
    - intros Hc. assert (Hv : In v (dkeys (s_views s))) by (apply (used_views _ _ _ H); eauto).
      apply in_dkeys_Some in Hv. destruct Hv as [w Hw]. exists w. split; [exact Hw|].
      apply (si_view _ _ H v w Hw). exact Hc. }
  constructor.
  - split; [apply (si_nodup _ _ H)|apply (si_ne _ _ H)].
  - intros c. split.
    + intros Hc. apply (si_X _ _ H) in Hc. apply in_dkeys_Some in Hc. destruct Hc as [l Hl].
      exists l. split; [exact Hl|]. eapply si_len; eassumption.
    + intros [l [Hl _]]. apply (si_X _ _ H). eapply dget_Some_in; exact Hl.
  - intros c Hc. apply (si_zv _ _ H) in Hc. apply in_dkeys_Some in Hc. destruct Hc as [v Hv].
    exists v. split; [apply Hz; exact Hv|]. intros v' Hv'. apply Hz in Hv'. congruence.
  - exact Hz.
  - intros c v Hv. apply Hz in Hv. apply (si_zv _ _ H). eapply dget_Some_in; exact Hv.
  - intros v w Hw E. assert (Hv : In v (dkeys (s_views s))) by (eapply dget_Some_in; exact Hw).
    apply (used_views _ _ _ H) in Hv. destruct Hv as [c Hc].
    apply (proj1 (proj2 (proj2 (si_view _ _ H v w Hw)))) in Hc. rewrite E in Hc. destruct Hc.
  - intros v w Hw. apply (si_view _ _ H v w Hw).
  - intros v w c a Hw Ha. apply vinv_column; [apply (si_view _ _ H v w Hw)|exact Ha].
Qed.

Lemma fresh_ainv a : fresh a -> ainv a.
Proof. intros [M [h [set [ins [tape [HM ->]]]]]]. apply known_ainv. exact HM. Qed.

Lemma transition_dims_ok n d m cols : forall s s', sinv n s -> columns_safe d m s cols ->
  transition_dims d m s cols = (s', Ok tt) -> sinv n s'.
Proof.
  induction cols as [|c cols IH]; intros s s' H Hs; cbn [transition_dims].
  { intros E. injection E as <-. exact H. }
  destruct Hs as [H1 H2].
  destruct (transition_dim (d (length cols)) s c m) as [s1 [[]|e]] eqn:E1; [|discriminate].
  intros E. eapply IH; [|apply H2; reflexivity|exact E].
  apply (transition_dim_ok n _ _ _ _ _ H H1 E1).
Qed.

Lemma step_sinv n s o s' : sinv n s -> wf_op o -> safe s o -> run_op s o = (s', Ok tt) -> exists n', sinv n' s'.
Proof.
  intros H Hw Hs. destruct o as [draws rowid obs clus|rowid|rowid obs|T col k v seed d hd ho|col
    |col a grids picks hd ho|k]; cbn [run_op wf_op safe] in *; intros E.
  - exists (S n). apply (state_inc_ok _ _ _ _ _ _ _ H E).
  - destruct (state_uninc_ok _ _ _ _ H E) as [m [_ [_ [_ [H' _]]]]]. exists m. exact H'.
  - exists n. apply (state_force_ok _ _ _ _ _ H Hw Hs E).
  - exists n. apply (state_add_ok _ _ _ _ _ _ _ _ _ _ _ H (fresh_ainv _ Hw) Hs E).
  - exists n. apply (state_remove_ok _ _ _ _ H Hs E).
  - exists n. apply (state_cctype_ok _ _ _ _ _ _ _ _ _ H (fresh_ainv _ Hw) E).
  - exists n. destruct k as [| | | | | |d m cols]; try (refine (proj1 (kernel_ok n s _ s' H _ E)); exact I).
    exact (transition_dims_ok n d m cols s s' H Hs E).
Qed.

Lemma sreach_sinv s : sreach safe s -> exists n, sinv n s.
Proof.
  induction 1 as [X zv alpha grid Cd Ci vspecs cspecs order n s H1 H2 H3 H4 H5 H6 H7 E
                 |s o s' _ [n IH] Hw Hs E].
  - exists n. apply (state_init_ok X zv alpha grid Cd Ci vspecs cspecs order n s H1 H2 H3 H4 H5 H6); [|exact E].
    intros c Hc. apply fresh_ainv, H7, Hc.
  - eapply step_sinv; eassumption.
Qed.

(** Full claim: the same for [sreach (fun _ _ => True)], i.e. for every history of
    successful operations.  That is false of the code, see [C25_refuted] below; proved
    here for the histories whose operations are [safe]. *)
Theorem C25_consistent_partial s : sreach safe s -> exists n, consistent n s.
Proof. intros H. destruct (sreach_sinv s H) as [n Hn]. exists n. apply sinv_consistent. exact Hn. Qed.
Print Assumptions C25_consistent_partial.

(** Each operation does to the table what it says. *)
Theorem C25_table_follows_operations s o s' : sreach safe s -> wf_op o -> safe s o ->
  run_op s o = (s', Ok tt) ->
  exists n, consistent n s /\
  match o with
  | OIncorporate _ rowid obs _ => rowid = Z.of_nat n /\ consistent (S n) s' /\ s_outs s' = s_outs s /\
      (forall c r, (0 <= r < rowid)%Z -> tab (s_X s') c r = tab (s_X s) c r) /\
      (forall c, In c (s_outs s) ->
         tab (s_X s') c rowid = Ok (match dget c obs with Some x => x | None => None end))
  | OUnincorporate rowid => rowid = (Z.of_nat n - 1)%Z /\ consistent (n - 1) s' /\ s_outs s' = s_outs s /\
      (forall c r, (0 <= r < rowid)%Z -> tab (s_X s') c r = tab (s_X s) c r)
  | OForce rowid obs => (0 <= rowid < Z.of_nat n)%Z /\ consistent n s' /\ s_outs s' = s_outs s /\
      (forall c r, (0 <= r)%Z -> tab (s_X s') c r =
         match dget c obs with
         | Some x => if (r =? rowid)%Z then Ok x else tab (s_X s) c r
         | None => tab (s_X s) c r
         end)
  | OAdd T col _ _ _ _ _ _ => consistent n s' /\ s_outs s' = s_outs s ++ [col] /\ length T = n /\
      (forall c r, c <> col -> tab (s_X s') c r = tab (s_X s) c r) /\ dget col (s_X s') = Some T
  | ORemove col => consistent n s' /\ (forall c, In c (s_outs s') <-> In c (s_outs s) /\ c <> col) /\
      (forall c r, c <> col -> tab (s_X s') c r = tab (s_X s) c r)
  | OCctype _ _ _ _ _ _ | OKernel _ => consistent n s' /\ s_outs s' = s_outs s /\ s_X s' = s_X s
  end.
Proof.
  intros HR Hw Hs E. destruct (sreach_sinv s HR) as [n H]. exists n.
  split; [apply sinv_consistent; exact H|].
  destruct o as [draws rowid obs clus|rowid|rowid obs|T col k v seed d hd ho|col
    |col a grids picks hd ho|k]; cbn [run_op wf_op safe] in *.
  - destruct (state_inc_ok _ _ _ _ _ _ _ H E) as [A [B [C [_ [_ [_ [_ [D [F _]]]]]]]]].
    split; [exact A|]. split; [apply sinv_consistent; exact B|]. split; [exact C|]. subst rowid. split; [exact D|exact F].
  - destruct (state_uninc_ok _ _ _ _ H E) as [m [A [_ [B [C [D [_ [_ [_ [_ [F _]]]]]]]]]]]. subst n rowid.
    split; [lia|]. replace (S m - 1)%nat with m by lia.
    split; [apply sinv_consistent; exact C|]. split; [exact D|exact F].
  - destruct (state_force_ok _ _ _ _ _ H Hw Hs E) as [A [B [C [_ [_ [_ [_ [_ [D _]]]]]]]]].
    split; [exact A|]. split; [apply sinv_consistent; exact B|]. split; [exact C|exact D].
  - destruct (state_add_ok _ _ _ _ _ _ _ _ _ _ _ H (fresh_ainv _ Hw) Hs E) as [A [_ [B [C [D _]]]]].
    split; [apply sinv_consistent; exact A|]. split; [exact C|]. split; [exact B|]. rewrite D. split.
    + intros c r Hc. unfold tab. rewrite dget_dset_other by exact Hc. reflexivity.
    + apply dget_dset_same.
  - destruct (state_remove_ok _ _ _ _ H Hs E) as [A [_ [C [D _]]]].
    split; [apply sinv_consistent; exact A|]. rewrite C, D. split.
    + intros c. rewrite filter_In, negb_true_iff, Z.eqb_neq. tauto.
    + intros c r Hc. unfold tab. rewrite dget_ddel_other by exact Hc. reflexivity.
  - destruct (state_cctype_ok _ _ _ _ _ _ _ _ _ H (fresh_ainv _ Hw) E) as [A [[B [C _]] _]].
    split; [apply sinv_consistent; exact A|]. auto.
  - assert (G : sinv n s' /\ same_data s s').
    { assert (Hk : rows_kernel k \/ exists d m cols, k = KColumns d m cols) by (destruct k; simpl; eauto 6).
      destruct Hk as [Hk|[d [m [cols ->]]]]; [destruct (kernel_ok n s k s' H Hk E) as [A [B _]]; auto|].
      clear - H Hs E. cbn [run_kernel] in E. revert s H Hs E.
      induction cols as [|c cols IH]; intros s H Hs; cbn [transition_dims].
      { intros E. injection E as <-. split; [exact H|repeat split]. }
      destruct Hs as [H1 H2].
      destruct (transition_dim (d (length cols)) s c m) as [s1 [[]|e]] eqn:E1; [|discriminate].
      intros E. destruct (transition_dim_ok n _ _ _ _ _ H H1 E1) as [A [B _]].
      destruct (IH s1 A (H2 s1 eq_refl) E) as [C D]. split; [exact C|]. eapply same_data_trans; eassumption. }
    destruct G as [A [B [C _]]]. split; [apply sinv_consistent; exact A|]. auto.
Qed.
Print Assumptions C25_table_follows_operations.

(* ------------------------------------------------------------------ *)
(** ** C26: inference leaves the data alone *)

Lemma migrate_data s c va vb b s' r : migrate_dim s c va vb b = (s', r) -> same_data s s'.
Proof.
  unfold migrate_dim, migrate_to.
  destruct (dget va (c_counts (s_crp s))) as [nva|]; [|intros E; injection E as <- _; repeat split].
  destruct (dget va (s_views s)) as [wa|]; [|intros E; injection E as <- _; repeat split].
  destruct (if dmem c (v_dims wa) then _ else _) as [wa1 [[]|e]]; [|intros E; injection E as <- _; repeat split].
  destruct (dget vb _) as [wb|]; [|intros E; injection E as <- _; repeat split].
  destruct (view_incorporate_dim _ wb c b _) as [[wb1 b1] r2].
  destruct (rbind r2 _); [|intros E; injection E as <- _; repeat split].
  destruct (crp_unincorporate _ c) as [k1 [[]|e]]; [|intros E; injection E as <- _; repeat split].
  destruct (crp_incorporate k1 c vb) as [k2 [[]|e]]; [|intros E; injection E as <- _; repeat split].
  destruct (nva =? 1)%Z; [|intros E; injection E as <- _; repeat split].
  destruct (dmem va (c_counts k2)); intros E; injection E as <- _; repeat split.
Qed.

Lemma plan_data seeds s c m a s1 r : column_plan seeds s c m a = (s1, r) ->
  same_data s s1 /\ s_crp s1 = s_crp s.
Proof.
  unfold column_plan. destruct (data_logps _ c a a (s_views s)) as [[ws sh] [ex|e]];
    intros E; injection E as <- _; repeat split.
Qed.

Lemma transition_dim_data d s c m s' r : transition_dim d s c m = (s', r) -> same_data s s'.
Proof.
  unfold transition_dim.
  destruct (all_dims s) as [ds|]; [|intros E; injection E as <- _; repeat split].
  destruct (existsb _ ds); [intros E; injection E as <- _; repeat split|].
  destruct (s_Cd s); [|intros E; injection E as <- _; repeat split].
  destruct (dim_for s c) as [a|]; [|intros E; injection E as <- _; repeat split].
  destruct (column_plan (cd_seeds d) s c m a) as [s1 [p|e]] eqn:Ep;
    destruct (plan_data _ _ _ _ _ _ _ Ep) as [HD _]; [|intros E; injection E as <- _; exact HD].
  intros E. eapply same_data_trans; [exact HD|]. revert E.
  destruct (log_pflip _ _ _) as [[vb prop]|]; [|intros E; injection E as <- _; repeat split].
  destruct (dget c (s_zv s1)) as [va|]; [|intros E; injection E as <- _; repeat split].
  destruct (va =? vb)%Z.
  - destruct (dget va (s_views s1)) as [wa|]; [|intros E; injection E as <- _; repeat split].
    destruct (view_incorporate_dim _ wa c _ _) as [[wa1 b1] r1]. intros E. injection E as <- _. repeat split.
  - destruct (zmax_list (dkeys (s_views s1))) as [mx|]; [|intros E; injection E as <- _; repeat split].
    destruct (mx <? vb)%Z; [|apply migrate_data].
    destruct (dget vb (cp_aux p)) as [w|]; [|intros E; injection E as <- _; repeat split].
    intros E. apply migrate_data in E. eapply same_data_trans; [|exact E]. repeat split.
Qed.

Lemma transition_dims_data d m cols : forall s s' r, transition_dims d m s cols = (s', r) -> same_data s s'.
Proof.
  induction cols as [|c cols IH]; intros s s' r; cbn [transition_dims].
  { intros E. injection E as <- _. repeat split. }
  destruct (transition_dim (d (length cols)) s c m) as [s1 [[]|e]] eqn:E1; intros E;
    apply transition_dim_data in E1.
  - eapply same_data_trans; [exact E1|]. eapply IH; exact E.
  - injection E as <- _. exact E1.
Qed.

Lemma dims_call_data cols o : forall s s' r, dims_call s cols o = (s', r) -> same_data s s'.
Proof.
  induction cols as [|c cols IH]; intros s s' r; cbn [dims_call].
  { intros E. injection E as <- _. repeat split. }
  destruct (dim_call s c (o (length cols) c)) as [s1 r1] eqn:E1.
  destruct (dim_call_frame _ _ _ _ _ E1) as [A _]. destruct r1; intros E.
  - eapply same_data_trans; [exact A|]. eapply IH; exact E.
  - injection E as <- _. exact A.
Qed.

Lemma kernel_data s k s' r : run_kernel s k = (s', r) -> same_data s s'.
Proof.
  destruct k as [lgam draw|lgam draws vs|cols|cols draws order|cols grids picks|draws vs rows|d m cols];
    cbn [run_kernel]; try apply dims_call_data; try apply transition_dims_data.
  - destruct (crp_transition_alpha _ _ _ _). intros E. injection E as <- _. repeat split.
  - destruct (views_loop _ _ _). intros E. injection E as <- _. repeat split.
  - destruct (n_rows s) as [n|]; [|intros E; injection E as <- _; repeat split].
    destruct (n =? 1)%Z; [intros E; injection E as <- _; repeat split|].
    destruct (views_loop _ _ _). intros E. injection E as <- _. repeat split.
Qed.

(** Whatever the state, whatever is drawn and even if a kernel raises: the table (its
    columns, their cells, hence its row ids), the list of columns and the constraints
    are the same afterwards. *)
Theorem C26_data_unchanged s ks s' r : run_kernels s ks = (s', r) ->
  s_X s' = s_X s /\ s_outs s' = s_outs s /\ n_rows s' = n_rows s /\ s_Cd s' = s_Cd s /\ s_Ci s' = s_Ci s.
Proof.
  assert (G : forall ks s s' r, run_kernels s ks = (s', r) -> same_data s s').
  { clear. induction ks as [|k ks IH]; intros s s' r; cbn [run_kernels].
    { intros E. injection E as <- _. repeat split. }
    destruct (run_kernel s k) as [s1 r1] eqn:E1. apply kernel_data in E1. destruct r1; intros E.
    - eapply same_data_trans; [exact E1|]. eapply IH; exact E.
    - injection E as <- _. exact E1. }
  intros E. destruct (G ks s s' r E) as [A [B [C D]]]. do 2 (split; [assumption|]).
  split; [|auto]. unfold n_rows. rewrite A, B. reflexivity.
Qed.
Print Assumptions C26_data_unchanged.

(** The views hold the same rows and, between them, the same columns. *)
Fixpoint kernels_safe (s : state) (ks : list kernel) : Prop :=
  match ks with
  | [] => True
  | k :: ks' => safe s (OKernel k) /\
      forall s1, run_kernel s k = (s1, Ok tt) -> kernels_safe s1 ks'
  end.
Theorem C26_rows_and_columns_kept s ks s' : sreach safe s -> kernels_safe s ks ->
  run_kernels s ks = (s', Ok tt) ->
  exists n, consistent n s /\ consistent n s' /\
    (forall v w v' w', dget v (s_views s) = Some w -> dget v' (s_views s') = Some w' ->
       forall r, In r (dkeys (v_rows w')) <-> In r (dkeys (v_rows w))) /\
    (forall c, (exists v, view_has s' v c) <-> exists v, view_has s v c).
Proof.
  intros HR Hs E. destruct (sreach_sinv s HR) as [n H]. exists n.
  destruct (C26_data_unchanged _ _ _ _ E) as [_ [EO _]].
  assert (H' : sinv n s').
  { clear HR EO. revert s H Hs E. induction ks as [|k ks IH]; intros s H Hs; cbn [run_kernels].
    { intros E. injection E as <-. exact H. }
    destruct Hs as [H1 H2]. destruct (run_kernel s k) as [s1 [[]|]] eqn:E1; [|discriminate].
    intros E. eapply IH; [|apply H2; reflexivity|exact E].
    destruct k as [| | | | | |d m cols]; try (refine (proj1 (kernel_ok n s _ s1 H _ E1)); exact I).
    exact (transition_dims_ok n d m cols s s1 H H1 E1). }
  pose proof (sinv_consistent _ _ H) as C. pose proof (sinv_consistent _ _ H') as C'.
  split; [exact C|]. split; [exact C'|]. split.
  - intros v w v' w' Hw Hw' r. rewrite (co_rows _ _ C _ _ Hw), (co_rows _ _ C' _ _ Hw'). reflexivity.
  - intros c. split; intros [v Hv].
    + apply (co_only _ _ C') in Hv. rewrite EO in Hv. destruct (co_one _ _ C c Hv) as [v0 [A _]]. eauto.
    + apply (co_only _ _ C) in Hv. rewrite <- EO in Hv. destruct (co_one _ _ C' c Hv) as [v0 [A _]]. eauto.
Qed.
Print Assumptions C26_rows_and_columns_kept.
