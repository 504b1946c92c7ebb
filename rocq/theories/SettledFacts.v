(** Which hyperparameters the components of the columns of a state use, and in which
    order the columns of the data table come. *)
From Verif Require Export State DimFacts ClassFacts.
From Verif Require Import BaseFacts CrpFacts ListFacts P06_Dim StateFacts ColumnFacts P09_State.
From Coq Require Import Lia.
Local Open Scope R_scope.

Lemma In_dset {A} (k : Z) (v : A) d p : In p (dset k v d) -> p = (k, v) \/ In p d.
Proof.
  induction d as [|[k' v'] d IH]; simpl; [intros [<-|[]]; auto|].
  destruct (k =? k')%Z; simpl; [intros [<-|H]; auto|]. intros [<-|H]; [auto|]. destruct (IH H); auto.
Qed.
Lemma In_ddel {A} (k : Z) (d : dict A) p : In p (ddel k d) -> In p d.
Proof.
  induction d as [|[k' v'] d IH]; simpl; [auto|]. destruct (k =? k')%Z; simpl; [auto|]. intros [<-|H]; auto.
Qed.

(* ------------------------------------------------------------------ *)
(** ** Columns *)

(** The components, and the one that the next new cluster will be, are well formed and
    use the hyperparameters of the column. *)
Definition uses {M} (d : dim M) : Prop :=
  (reach M (d_aux d) /\ m_hyp M (d_aux d) = d_hyp d) /\
  forall k c, In (k, c) (d_clusters d) -> reach M c /\ m_hyp M c = d_hyp d.
Definition settledb (b : bool) (a : adim) : Prop :=
  mlaws (a_M a) (reach (a_M a)) /\ uses (a_d a) /\ d_set (a_d a) = b.
(** [settled]: its hyperparameters are set, too. *)
Notation settled := (settledb true).

Lemma settled_agree a : settled a -> agree (a_d a).
Proof. intros [_ [[A B] _]]. split; [apply A|]. intros k c E. apply (B k c), dget_In, E. Qed.

Section Uses.
  Context {M : model} (HL : mlaws M (reach M)).

  Lemma uses_new h set ins tape : uses (dim_new M h set ins tape).
  Proof. split; [split; apply (ml_new _ _ HL)|intros k c []]. Qed.
  Lemma uses_aux (d : dim M) : (forall k c, In (k, c) (d_clusters d) -> reach M c /\ m_hyp M c = d_hyp d) ->
    uses (fresh_aux M d).
  Proof. intros H. split; [split; apply (ml_new _ _ HL)|exact H]. Qed.
  Lemma uses_open (d : dim M) k : uses d -> uses (open_cluster M d k).
  Proof.
    intros [A B]. unfold open_cluster. destruct (dmem k (d_clusters d)); [split; assumption|].
    apply uses_aux. simpl. intros k' c Hin. apply In_dset in Hin. destruct Hin as [E|Hin]; [|eapply B; exact Hin].
    injection E as -> ->. exact A.
  Qed.
  Lemma open_rest (d : dim M) k : d_set (open_cluster M d k) = d_set d /\ d_hyp (open_cluster M d k) = d_hyp d.
  Proof. unfold open_cluster. destruct (dmem k (d_clusters d)); auto. Qed.
  Lemma uses_put (d : dim M) k c : uses d -> reach M c -> m_hyp M c = d_hyp d ->
    uses (set_clusters d (dset k c (d_clusters d))).
  Proof.
    intros [A B] G E. split; [exact A|]. simpl. intros k' c' Hin. apply In_dset in Hin.
    destruct Hin as [E'|Hin]; [injection E' as -> ->; auto|eapply B; exact Hin].
  Qed.

  Lemma uses_inc (d : dim M) r k x ins d' res : uses d -> dim_incorporate M d r k x ins = (d', res) ->
    uses d' /\ d_set d' = d_set d.
  Proof.
    intros H. unfold dim_incorporate.
    destruct (dmem r (d_zr d) || dmem r (d_zi d)); [intros E; injection E as <- _; auto|].
    destruct k as [k|]; [|intros E; injection E as <- _; auto].
    pose proof (uses_open d k H) as H1. destruct (open_rest d k) as [S1 _]. set (d1 := open_cluster M d k) in *.
    destruct (valid_cell x ins) as [[v l]|]; [|intros E; injection E as <- <-; auto].
    destruct (dget k (d_clusters d1)) as [c|] eqn:Ek; [|intros E; injection E as <- _; auto].
    destruct (m_inc M c r v l) as [c' rr] eqn:Em. destruct (proj2 H1 k c (dget_In _ _ _ Ek)) as [G Hh].
    assert (P : uses (set_clusters d1 (dset k c' (d_clusters d1)))).
    { destruct rr as [[]|e].
      - destruct (ml_inc _ _ HL _ _ _ _ _ G Em) as [G' [_ [_ [E _]]]]. apply uses_put; congruence.
      - apply (ml_inc_err _ _ HL) in Em. subst c'. apply uses_put; assumption. }
    destruct rr as [u|e]; intros E; injection E as <- <-; split; auto.
  Qed.
  Lemma uses_uninc (d : dim M) r d' res : uses d -> dim_unincorporate M d r = (d', res) ->
    uses d' /\ d_set d' = d_set d.
  Proof.
    intros H. unfold dim_unincorporate.
    destruct (dmem r (d_zi d)); [intros E; injection E as <- _; auto|].
    destruct (dget r (d_zr d)) as [k|] eqn:Er; [|intros E; injection E as <- _; auto].
    destruct (dget k (d_clusters d)) as [c|] eqn:Ek; [|intros E; injection E as <- _; auto].
    destruct (m_uninc M c r) as [c' rr] eqn:Em. destruct (proj2 H k c (dget_In _ _ _ Ek)) as [G Hh].
    assert (P : uses (set_clusters d (dset k c' (d_clusters d)))).
    { destruct (dget r (m_rows M c)) as [w|] eqn:Ew.
      - destruct (ml_uninc _ _ HL c r w G Ew) as [c2 [E2 [G' [_ [E3 _]]]]].
        rewrite Em in E2. injection E2 as <- _. apply uses_put; congruence.
      - destruct (ml_uninc_none _ _ HL c r Ew) as [e E2]. rewrite Em in E2. injection E2 as -> _.
        apply uses_put; assumption. }
    destruct rr as [u|e]; intros E; injection E as <- <-; split; auto.
  Qed.
  Lemma In_params tape pos (cs : dict (mS M)) k c : In (k, c) (clusters_set_params M tape pos cs) ->
    exists c0 q, In (k, c0) cs /\ c = m_set_params M c0 q.
  Proof.
    revert pos. induction cs as [|[k0 c0] cs IH]; intros pos; simpl; [intros []|].
    intros [E|H]; [injection E as <- <-; eauto|]. destruct (IH _ H) as [c1 [q [H1 H2]]]. eauto.
  Qed.
  Lemma uses_params (d : dim M) : uses d -> uses (dim_transition_params M d).
  Proof.
    intros [A B]. split; [exact A|]. simpl. intros k c Hin. apply In_params in Hin. destruct Hin as [c0 [q [Hin ->]]].
    destruct (B k c0 Hin) as [G E]. destruct (ml_par_set _ _ HL c0 q) as [P1 [_ P2]]. split; [auto|congruence].
  Qed.
  (** The clusters after a successful change of hyperparameters. *)
  Lemma In_hypers (cs : dict (mS M)) h cs' r : clusters_set_hypers M cs h = (cs', r) ->
    (forall k c, In (k, c) cs -> reach M c) ->
    (forall k c, In (k, c) cs' -> reach M c) /\ (r = Ok tt -> forall k c, In (k, c) cs' -> m_hyp M c = h).
  Proof.
    revert cs' r. induction cs as [|[k0 c0] cs IH]; intros cs' r; simpl.
    { intros E. injection E as <- <-. split; [intros k c []|intros _ k c []]. }
    destruct (m_set_hypers M c0 h) as [c1 r1] eqn:E1. intros E G.
    assert (G1 : reach M c1 /\ (r1 = Ok tt -> m_hyp M c1 = h)).
    { destruct r1 as [[]|e].
      - destruct (ml_set _ _ HL _ _ _ E1) as [P1 [_ [P2 _]]]. split; [apply P1, (G k0); left; reflexivity|auto].
      - apply (ml_set_err _ _ HL) in E1. subst c1. split; [apply (G k0); left; reflexivity|discriminate]. }
    destruct r1 as [[]|e].
    - destruct (clusters_set_hypers M cs h) as [cs2 r2] eqn:E2. injection E as <- <-.
      destruct (IH _ _ eq_refl (fun k c H => G k c (or_intror H))) as [P1 P2]. split.
      + intros k c [Ek|Hin]; [injection Ek as <- <-; apply G1|eapply P1; exact Hin].
      + intros Hr k c [Ek|Hin]; [injection Ek as <- <-; apply G1; reflexivity|eapply P2; eauto].
    - injection E as <- <-. split; [|discriminate].
      intros k c [Ek|Hin]; [injection Ek as <- <-; apply G1|apply (G k); right; exact Hin].
  Qed.
  Definition wellf (d : dim M) : Prop := reach M (d_aux d) /\ forall k c, In (k, c) (d_clusters d) -> reach M c.
  Lemma wellf_set (d : dim M) h d' r : dim_set_hypers M d h = (d', r) -> wellf d ->
    wellf d' /\ d_set d' = d_set d /\ d_hyp d' = h /\
    (r = Ok tt -> forall k c, In (k, c) (d_clusters d') -> m_hyp M c = h).
  Proof.
    unfold dim_set_hypers. simpl. destruct (clusters_set_hypers M (d_clusters d) h) as [cs r0] eqn:Ec.
    intros E [A B]. injection E as <- <-. destruct (In_hypers _ _ _ _ Ec B) as [P1 P2]. repeat split; auto.
  Qed.
  Lemma wellf_scores h vs : forall (d d' : dim M) r, grid_scores M d h vs = (d', r) -> wellf d ->
    wellf d' /\ d_set d' = d_set d.
  Proof.
    induction vs as [|v vs IH]; intros d d' r; simpl; [intros E; injection E as <- <-; auto|].
    unfold grid_score. destruct (dim_set_hypers M d _) as [d1 r1] eqn:E1. intros E W.
    destruct (wellf_set _ _ _ _ E1 W) as [W1 [S1 _]].
    destruct r1 as [[]|e]; [|injection E as <- <-; auto].
    destruct (dim_score M d1) as [x|e]; [|injection E as <- <-; auto].
    destruct (grid_scores M d1 h vs) as [d2 r2] eqn:E2. injection E as <- <-.
    destruct (IH _ _ _ E2 W1) as [W2 S2]. split; congruence || auto.
  Qed.
  Lemma wellf_each draws order : forall (d d' : dim M) r, transition_each M draws d order = (d', r) -> wellf d ->
    wellf d' /\ d_set d' = d_set d.
  Proof.
    induction order as [|h order IH]; intros d d' r; simpl; [intros E; injection E as <- <-; auto|].
    destruct (transition_hyper M _ d h) as [d1 r1] eqn:E1. intros E W.
    assert (W1 : wellf d1 /\ d_set d1 = d_set d).
    { unfold transition_hyper in E1. destruct (nth_error (d_grids d) h) as [g|]; [|injection E1 as <- <-; auto].
      destruct (grid_scores M d h g) as [d2 r2] eqn:E2. destruct (wellf_scores _ _ _ _ _ E2 W) as [W2 S2].
      destruct (rbind r2 _); injection E1 as <- <-; split; auto. }
    destruct W1 as [W1 S1]. destruct r1 as [[]|e]; [|injection E as <- <-; auto].
    destruct (IH _ _ _ E W1) as [W2 S2]. split; congruence || auto.
  Qed.
  Lemma uses_hypers draws order (d d' : dim M) : wellf d -> dim_transition_hypers M draws order d = (d', Ok tt) ->
    uses d' /\ d_set d' = d_set d.
  Proof.
    intros W. unfold dim_transition_hypers. destruct (transition_each M draws d order) as [d1 r1] eqn:E1.
    destruct (wellf_each _ _ _ _ _ E1 W) as [W1 S1]. destruct r1 as [[]|e]; [|discriminate].
    destruct (dim_set_hypers M d1 (d_hyp d1)) as [d2 r2] eqn:E2. destruct (wellf_set _ _ _ _ E2 W1) as [W2 [S2 [H2 U2]]].
    destruct r2 as [[]|e]; [|discriminate]. intros E. injection E as <-. split; [|simpl; congruence].
    apply uses_aux. intros k c Hin. split; [apply W2 in Hin; exact Hin|]. rewrite H2. exact (U2 eq_refl k c Hin).
  Qed.
  Lemma wellf_uses (d : dim M) : uses d -> wellf d.
  Proof. intros [[A _] B]. split; [exact A|]. intros k c Hin. apply (B k c Hin). Qed.

  (** Grids: the hyperparameters are drawn only if there are none, and the clusters that
      there are keep theirs. *)
  Lemma wellf_grids (d d' : dim M) g p r : wellf d -> dim_transition_grids M d g p = (d', r) ->
    wellf d' /\ (r = Ok tt -> d_set d' = true) /\ (d_set d = true -> uses d -> uses d') /\
    (d_clusters d = [] -> r = Ok tt -> uses d').
  Proof.
    intros [A B]. unfold dim_transition_grids. destruct (d_set d) eqn:Es.
    { intros E. injection E as <- <-. split; [split; [apply (ml_new _ _ HL)|exact B]|]. split; [simpl; auto|].
      split; [intros _ [_ U]; apply uses_aux; exact U|]. intros Hc _. apply uses_aux. simpl. rewrite Hc. intros k c []. }
    destruct (rsequence _) as [ps|e]; intros E; injection E as <- <-.
    - split; [split; [apply (ml_new _ _ HL)|exact B]|]. split; [simpl; auto|]. split; [discriminate|].
      intros Hc _. apply uses_aux. simpl. rewrite Hc. intros k c [].
    - split; [split; [exact A|exact B]|]. split; [discriminate|]. split; discriminate.
  Qed.
End Uses.

Lemma settled_inc b a r k x ins a' res : settledb b a -> a_incorporate a r k x ins = (a', res) -> settledb b a'.
Proof.
  intros [HL [U S]]. unfold a_incorporate. destruct (dim_incorporate _ _ _ _ _ _) as [d r1] eqn:E. intros E'.
  injection E' as <- <-. destruct (uses_inc HL _ _ _ _ _ _ _ U E) as [U1 S1]. split; [exact HL|]. split; simpl; congruence || auto.
Qed.
Lemma settled_uninc b a r a' res : settledb b a -> a_unincorporate a r = (a', res) -> settledb b a'.
Proof.
  intros [HL [U S]]. unfold a_unincorporate. destruct (dim_unincorporate _ _ _) as [d r1] eqn:E. intros E'.
  injection E' as <- <-. destruct (uses_uninc HL _ _ _ _ U E) as [U1 S1]. split; [exact HL|]. split; simpl; congruence || auto.
Qed.
Lemma settled_params b a : settledb b a -> settledb b (ADim (a_M a) (dim_transition_params (a_M a) (a_d a))).
Proof. intros [HL [U S]]. split; [exact HL|]. split; [apply (uses_params HL), U|exact S]. Qed.
Lemma settled_call a o a' : settled a -> a_call a o = (a', Ok tt) -> settled a'.
Proof.
  intros H. destruct o as [dr od|g p|]; simpl.
  - destruct H as [HL [U S]]. destruct (dim_transition_hypers _ _ _ _) as [d r] eqn:E. intros E'. injection E' as <- ->.
    destruct (uses_hypers HL _ _ _ _ (wellf_uses _ U) E) as [U1 S1]. split; [exact HL|]. split; simpl; congruence || auto.
  - destruct H as [HL [U S]]. destruct (dim_transition_grids _ _ _ _) as [d r] eqn:E. intros E'. injection E' as <- ->.
    destruct (wellf_grids HL _ _ _ _ _ (wellf_uses _ U) E) as [_ [S1 [U1 _]]]. split; [exact HL|]. split; simpl; auto.
  - intros E. injection E as <-. apply settled_params, H.
Qed.
(** A new column is settled once its grids are made. *)
Lemma settled_make k a : fresh (cs_col k) -> col_make k = (a, Ok tt) -> settled a.
Proof.
  intros [M [h [set [ins [tape [HM E]]]]]]. unfold col_make. rewrite E. simpl.
  pose proof (known_laws M HM) as HL. destruct (dim_transition_grids _ _ _ _) as [d r] eqn:Eg. intros E'. injection E' as <- ->.
  destruct (wellf_grids HL _ _ _ _ _ (wellf_uses _ (uses_new HL h set ins tape)) Eg) as [_ [S1 [_ U1]]].
  split; [exact HL|]. split; simpl; auto.
Qed.

Lemma settled_reset b a : settledb b a -> settledb b (a_reset a).
Proof. intros [HL [U S]]. split; [exact HL|]. split; [apply (uses_aux HL); intros k c []|exact S]. Qed.
Lemma settled_drop b a k : settledb b a ->
  settledb b (ADim (a_M a) (set_clusters (a_d a) (ddel k (d_clusters (a_d a))))).
Proof.
  intros [HL [[A B] S]]. split; [exact HL|]. split; [|exact S]. split; [exact A|]. simpl.
  intros k' c Hin. apply (B k' c), (In_ddel _ _ _ Hin).
Qed.

(* ------------------------------------------------------------------ *)
(** ** Views *)

Definition all_set (ds : dict adim) : Prop := forall c a, In (c, a) ds -> settled a.

Lemma all_set_get ds c a : all_set ds -> dget c ds = Some a -> settled a.
Proof. intros H E. apply (H c), dget_In, E. Qed.
Lemma all_set_dset ds c a : all_set ds -> settled a -> all_set (dset c a ds).
Proof. intros H Ha c' a' Hin. apply In_dset in Hin. destruct Hin as [E|Hin]; [injection E as -> ->; exact Ha|apply (H c'); exact Hin]. Qed.
Lemma all_set_ddel ds c : all_set ds -> all_set (ddel c ds).
Proof. intros H c' a' Hin. apply (H c'), (In_ddel _ _ _ Hin). Qed.
Lemma all_set_cons c a ds : settled a -> all_set ds -> all_set ((c, a) :: ds).
Proof. intros H1 H2 c' a' [E|Hin]; [injection E as <- <-; exact H1|apply (H2 c'); exact Hin]. Qed.
Lemma all_set_head c a ds : all_set ((c, a) :: ds) -> settled a /\ all_set ds.
Proof. intros H. split; [apply (H c); left; reflexivity|]. intros c' a' Hin. apply (H c'). right. exact Hin. Qed.

Lemma dims_inc_set X r k obs ds : forall ds' res, all_set ds -> dims_incorporate X r k obs ds = (ds', res) -> all_set ds'.
Proof.
  induction ds as [|[c a] ds IH]; intros ds' res H; cbn [dims_incorporate]; [intros E; injection E as <- <-; exact H|].
  destruct (dget c obs) as [x|]; [|intros E; injection E as <- <-; exact H].
  destruct (input_values X r a) as [ins|]; [|intros E; injection E as <- <-; exact H].
  apply all_set_head in H. destruct H as [Ha H]. destruct (a_incorporate a r k x ins) as [a' r1] eqn:E1.
  pose proof (settled_inc _ _ _ _ _ _ _ _ Ha E1) as Ha'. destruct r1.
  - destruct (dims_incorporate X r k obs ds) as [ds2 r2]. intros E. injection E as <- <-.
    apply all_set_cons; [exact Ha'|]. eapply IH; [exact H|reflexivity].
  - intros E. injection E as <- <-. apply all_set_cons; assumption.
Qed.
Lemma dims_uninc_set r ds : forall ds' res, all_set ds -> dims_unincorporate r ds = (ds', res) -> all_set ds'.
Proof.
  induction ds as [|[c a] ds IH]; intros ds' res H; cbn [dims_unincorporate]; [intros E; injection E as <- <-; exact H|].
  apply all_set_head in H. destruct H as [Ha H]. destruct (a_unincorporate a r) as [a' r1] eqn:E1.
  pose proof (settled_uninc _ _ _ _ _ Ha E1) as Ha'. destruct r1.
  - destruct (dims_unincorporate r ds) as [ds2 r2]. intros E. injection E as <- <-.
    apply all_set_cons; [exact Ha'|]. eapply IH; [exact H|reflexivity].
  - intros E. injection E as <- <-. apply all_set_cons; assumption.
Qed.
Lemma dims_drop_set k ds : forall ds' res, all_set ds -> dims_drop_cluster k ds = (ds', res) -> all_set ds'.
Proof.
  induction ds as [|[c a] ds IH]; intros ds' res H; cbn [dims_drop_cluster]; [intros E; injection E as <- <-; exact H|].
  destruct (dmem k (d_clusters (a_d a))); [|intros E; injection E as <- <-; exact H].
  apply all_set_head in H. destruct H as [Ha H]. destruct (dims_drop_cluster k ds) as [ds2 r2]. intros E. injection E as <- <-.
  apply all_set_cons; [apply settled_drop, Ha|]. eapply IH; [exact H|reflexivity].
Qed.
Lemma insert_set X w r k obs w' res : all_set (v_dims w) -> view_insert X w r k obs = (w', res) -> all_set (v_dims w').
Proof.
  intros H. unfold view_insert. destruct (crp_incorporate (v_crp w) r k) as [c r1]. destruct r1; [|intros E; injection E as <- <-; exact H].
  destruct (dims_incorporate X r k obs (v_dims w)) as [ds r2] eqn:E1. intros E. injection E as <- <-. eapply dims_inc_set; eassumption.
Qed.
Lemma uninc_set w r w' res : all_set (v_dims w) -> view_unincorporate w r = (w', res) -> all_set (v_dims w').
Proof.
  intros H. unfold view_unincorporate. destruct (dims_unincorporate r (v_dims w)) as [ds r1] eqn:E1.
  pose proof (dims_uninc_set _ _ _ _ H E1) as H1. destruct r1; [|intros E; injection E as <- <-; exact H1].
  destruct (dget r (v_rows w)) as [k|]; [|intros E; injection E as <- <-; exact H1].
  destruct (crp_unincorporate (v_crp w) r) as [c r2]. destruct r2; [|intros E; injection E as <- <-; exact H1].
  destruct (dmem k (c_counts c)); [intros E; injection E as <- <-; exact H1|].
  destruct (dims_drop_cluster k ds) as [ds2 r3] eqn:E2. intros E. injection E as <- <-. eapply dims_drop_set; eassumption.
Qed.
Lemma migrate_set X w r k w' res : all_set (v_dims w) -> view_migrate X w r k = (w', res) -> all_set (v_dims w').
Proof.
  intros H. unfold view_migrate. destruct (view_unincorporate w r) as [w1 r1] eqn:E1.
  pose proof (uninc_set _ _ _ _ H E1) as H1. destruct r1; [|intros E; injection E as <- <-; exact H1].
  destruct (table_row X w1 r); [|intros E; injection E as <- <-; exact H1]. apply insert_set. exact H1.
Qed.
Lemma cell_set X r z k c a a' res : settled a -> cell_gibbs X r z k c a = (a', res) -> settled a'.
Proof.
  intros H. unfold cell_gibbs. destruct (X c r) as [xc|]; [|intros E; injection E as <- <-; exact H].
  destruct (input_values X r a) as [inv|]; [|intros E; injection E as <- <-; exact H].
  destruct (z =? k)%Z; [|intros E; injection E as <- <-; exact H].
  destruct (a_unincorporate a r) as [a1 r1] eqn:E1. pose proof (settled_uninc _ _ _ _ _ H E1) as H1.
  destruct r1; [|intros E; injection E as <- <-; exact H1].
  destruct (a_logpdf a1 r k _ _) as [lp|]; [|intros E; injection E as <- <-; exact H1].
  destruct (a_incorporate a1 r k _ _) as [a2 r2] eqn:E2. intros E. injection E as <- <-. eapply settled_inc; eassumption.
Qed.
Lemma gibbs_dims_set X r z k ds : forall ds' res, all_set ds -> row_gibbs_dims X r z k ds = (ds', res) -> all_set ds'.
Proof.
  induction ds as [|[c a] ds IH]; intros ds' res H; cbn [row_gibbs_dims]; [intros E; injection E as <- <-; exact H|].
  apply all_set_head in H. destruct H as [Ha H]. destruct (cell_gibbs X r z k c a) as [a' r1] eqn:E1.
  pose proof (cell_set _ _ _ _ _ _ _ _ Ha E1) as Ha'. destruct r1.
  - destruct (row_gibbs_dims X r z k ds) as [ds2 r2]. intros E. injection E as <- <-.
    apply all_set_cons; [exact Ha'|]. eapply IH; [exact H|reflexivity].
  - intros E. injection E as <- <-. apply all_set_cons; assumption.
Qed.
Lemma gibbs_set X r z K : forall ds ds' res, all_set ds -> row_gibbs X r z K ds = (ds', res) -> all_set ds'.
Proof.
  induction K as [|k K IH]; intros ds ds' res H; cbn [row_gibbs]; [intros E; injection E as <- <-; exact H|].
  destruct (row_gibbs_dims X r z k ds) as [ds1 r1] eqn:E1. pose proof (gibbs_dims_set _ _ _ _ _ _ _ H E1) as H1.
  destruct r1; [|intros E; injection E as <- <-; exact H1].
  destruct (row_gibbs X r z K ds1) as [ds2 r2] eqn:E2. intros E. injection E as <- <-. eapply IH; [exact H1|exact E2].
Qed.
Lemma weights_set X w r w' res : all_set (v_dims w) -> row_weights X w r = (w', res) -> all_set (v_dims w').
Proof.
  intros H. unfold row_weights. destruct (crp_gibbs_tables _ _ _) as [K|]; [|intros E; injection E as <- <-; exact H].
  destruct (crp_gibbs_logps _ _ _); [|intros E; injection E as <- <-; exact H].
  destruct (dget r (v_rows w)) as [z|]; [|intros E; injection E as <- <-; exact H].
  destruct (row_gibbs X r z K (v_dims w)) as [ds r1] eqn:E1. intros E. injection E as <- <-. eapply gibbs_set; eassumption.
Qed.
Lemma row_set X draw w r w' res : all_set (v_dims w) -> transition_row X draw w r = (w', res) -> all_set (v_dims w').
Proof.
  intros H. unfold transition_row. destruct (row_weights X w r) as [w1 r1] eqn:E1.
  pose proof (weights_set _ _ _ _ _ H E1) as H1. destruct r1 as [[K wt]|]; [|intros E; injection E as <- <-; exact H1].
  destruct (log_pflip draw wt K) as [zb|]; [|intros E; injection E as <- <-; exact H1].
  destruct (dget r (v_rows w1)) as [z|]; [|intros E; injection E as <- <-; exact H1].
  destruct (z =? zb)%Z; [intros E; injection E as <- <-; exact H1|]. apply migrate_set. exact H1.
Qed.
Lemma rows_set X draws rows : forall w w' res, all_set (v_dims w) -> transition_rows X draws w rows = (w', res) -> all_set (v_dims w').
Proof.
  induction rows as [|r rows IH]; intros w w' res H; cbn [transition_rows]; [intros E; injection E as <- <-; exact H|].
  destruct (transition_row X _ w r) as [w1 r1] eqn:E1. pose proof (row_set _ _ _ _ _ _ H E1) as H1.
  destruct r1; [|intros E; injection E as <- <-; exact H1]. apply IH. exact H1.
Qed.
Lemma incorporate_set X draws w r k obs w' res : all_set (v_dims w) -> view_incorporate X draws w r k obs = (w', res) -> all_set (v_dims w').
Proof.
  intros H. unfold view_incorporate. destruct (view_insert X w r _ obs) as [w1 r1] eqn:E1.
  pose proof (insert_set _ _ _ _ _ _ _ H E1) as H1. destruct r1; [|intros E; injection E as <- <-; exact H1].
  destruct k; [intros E; injection E as <- <-; exact H1|]. apply rows_set. exact H1.
Qed.
Lemma force_set X r k obs : forall ds ds' res, all_set ds -> force_cells X r k obs ds = (ds', res) -> all_set ds'.
Proof.
  induction obs as [|[c x] obs IH]; intros ds ds' res H; cbn [force_cells]; [intros E; injection E as <- <-; exact H|].
  destruct (dget c ds) as [a|] eqn:Ec; [|intros E; injection E as <- <-; exact H].
  destruct (a_unincorporate a r) as [a1 r1] eqn:E1. pose proof (settled_uninc _ _ _ _ _ (all_set_get _ _ _ H Ec) E1) as H1.
  destruct r1; [|intros E; injection E as <- <-; apply all_set_dset; assumption].
  destruct (input_values X r a1) as [inv|]; [|intros E; injection E as <- <-; apply all_set_dset; assumption].
  destruct (a_incorporate a1 r k x _) as [a2 r2] eqn:E2. pose proof (settled_inc _ _ _ _ _ _ _ _ H1 E2) as H2.
  destruct r2; [|intros E; injection E as <- <-; apply all_set_dset; assumption].
  apply IH. apply all_set_dset; assumption.
Qed.
Lemma view_force_set X w r obs w' res : all_set (v_dims w) -> view_force_cell X w r obs = (w', res) -> all_set (v_dims w').
Proof.
  intros H. unfold view_force_cell. destruct (dget r (v_rows w)) as [k|]; [|intros E; injection E as <- <-; exact H].
  destruct (force_cells X r k obs (v_dims w)) as [ds r1] eqn:E1. intros E. injection E as <- <-. eapply force_set; eassumption.
Qed.

Lemma bulk_rows_set b X c rows : forall a a' res, settledb b a -> bulk_rows X c rows a = (a', res) -> settledb b a'.
Proof.
  induction rows as [|[r k] rows IH]; intros a a' res H; cbn [bulk_rows]; [intros E; injection E as <- <-; exact H|].
  destruct (X c r) as [xc|]; [|intros E; injection E as <- <-; exact H].
  destruct (input_values X r a) as [inv|]; [|intros E; injection E as <- <-; exact H].
  destruct (a_incorporate a r k _ _) as [a1 r1] eqn:E1. pose proof (settled_inc _ _ _ _ _ _ _ _ H E1) as H1.
  destruct r1; [|intros E; injection E as <- <-; exact H1]. apply IH. exact H1.
Qed.
Lemma bulk_set b X w c a a' res : settledb b a -> bulk_incorporate X w c a = (a', res) -> settledb b a'.
Proof.
  intros H. unfold bulk_incorporate. destruct (bulk_rows X c (v_rows w) (a_reset a)) as [a1 r1] eqn:E1.
  pose proof (bulk_rows_set _ _ _ _ _ _ _ (settled_reset _ _ H) E1) as H1.
  destruct r1; [|intros E; injection E as <- <-; exact H1].
  destruct (zdict_eq _ _); intros E; injection E as <- <-; [apply settled_params; exact H1|exact H1].
Qed.
Lemma incorporate_dim_set X w c a re w' a' res : all_set (v_dims w) -> settled a ->
  view_incorporate_dim X w c a re = (w', a', res) -> all_set (v_dims w') /\ settled a'.
Proof.
  intros H Ha. unfold view_incorporate_dim.
  destruct (if re then bulk_incorporate X w c a else (a, Ok tt)) as [a1 r1] eqn:E1.
  assert (H1 : settled a1). { destruct re; [eapply bulk_set; eassumption|injection E1 as <- _; exact Ha]. }
  destruct r1; intros E; injection E as <- <- <-; split; auto. apply all_set_dset; assumption.
Qed.
Lemma unincorporate_dim_set w c w' res : all_set (v_dims w) -> view_unincorporate_dim w c = (w', res) -> all_set (v_dims w').
Proof.
  intros H. unfold view_unincorporate_dim. destruct (dmem c (v_dims w)); intros E; injection E as <- <-; [apply all_set_ddel|]; exact H.
Qed.
Lemma alpha_set lgam draws w w' res : all_set (v_dims w) -> view_transition_alpha lgam draws w = (w', res) -> all_set (v_dims w').
Proof.
  intros H. unfold view_transition_alpha. destruct (crp_transition_alpha _ _ _ _) as [c1 r1].
  destruct r1; [|intros E; injection E as <- <-; exact H].
  destruct (crp_transition_alpha _ _ _ c1) as [c2 r2]. intros E. injection E as <- <-. exact H.
Qed.
Lemma call_set w c o w' : all_set (v_dims w) -> view_call w c o = (w', Ok tt) -> all_set (v_dims w').
Proof.
  intros H. unfold view_call. destruct (dget c (v_dims w)) as [a|] eqn:Ea; [|discriminate].
  destruct (a_call a o) as [a' r] eqn:E1. intros E. injection E as <- ->.
  apply all_set_dset; [exact H|]. eapply settled_call; [eapply all_set_get; eassumption|exact E1].
Qed.
Lemma columns_set X cols : forall w w', all_set (v_dims w) -> (forall c k, In (c, k) cols -> fresh (cs_col k)) ->
  view_columns X w cols = Ok w' -> all_set (v_dims w').
Proof.
  induction cols as [|[c k] cols IH]; intros w w' H Hf; cbn [view_columns]; [intros E; injection E as <-; exact H|].
  destruct (col_make k) as [a r] eqn:Ek. destruct r as [[]|]; [|discriminate]. cbn [rbind].
  pose proof (settled_make k a (Hf c k (or_introl eq_refl)) Ek) as Ha.
  destruct (view_incorporate_dim X w c a true) as [[w1 a1] r1] eqn:E1.
  destruct (incorporate_dim_set _ _ _ _ _ _ _ _ H Ha E1) as [H1 _]. destruct r1; [|discriminate]. cbn [rbind].
  destruct (match dget c (v_dims w1) with Some a' => a_score a' | None => Err KeyError end); [|discriminate]. cbn [rbind].
  apply IH; [exact H1|]. intros c' k' Hin. apply (Hf c'). right. exact Hin.
Qed.

(* ------------------------------------------------------------------ *)
(** ** States *)

Definition views_set (ws : dict view) : Prop := forall v w, In (v, w) ws -> all_set (v_dims w).
Lemma views_set_get ws v w : views_set ws -> dget v ws = Some w -> all_set (v_dims w).
Proof. intros H E. apply (H v), dget_In, E. Qed.
Lemma views_set_dset ws v w : views_set ws -> all_set (v_dims w) -> views_set (dset v w ws).
Proof. intros H Ha c' a' Hin. apply In_dset in Hin. destruct Hin as [E|Hin]; [injection E as -> ->; exact Ha|apply (H c'); exact Hin]. Qed.
Lemma views_set_ddel ws v : views_set ws -> views_set (ddel v ws).
Proof. intros H c' a' Hin. apply (H c'), (In_ddel _ _ _ Hin). Qed.
Lemma views_set_cons v w ws : all_set (v_dims w) -> views_set ws -> views_set ((v, w) :: ws).
Proof. intros H1 H2 c' a' [E|Hin]; [injection E as <- <-; exact H1|apply (H2 c'); exact Hin]. Qed.
Lemma views_set_head v w ws : views_set ((v, w) :: ws) -> all_set (v_dims w) /\ views_set ws.
Proof. intros H. split; [apply (H v); left; reflexivity|]. intros c' a' Hin. apply (H c'). right. exact Hin. Qed.

Lemma make_view_set X o seed zr w : view_make X o seed zr = Ok w -> all_set (v_dims w).
Proof.
  unfold view_make. destruct X as [|[? ?] ?]; [discriminate|]. destruct (match zr with None => _ | Some _ => _ end); [|discriminate].
  intros E. injection E as <-. intros ? ? [].
Qed.
Lemma make_views_set X outs zv vs cs order : (forall c, In c outs -> fresh (cs_col (cs c))) ->
  forall ws, make_views X outs zv vs cs order = Ok ws -> views_set ws.
Proof.
  intros Hf. induction order as [|v order IH]; intros ws; cbn [make_views]; [intros E; injection E as <-; intros ? ? []|].
  destruct (view_outputs zv v outs) as [mine|] eqn:Em; [|discriminate]. cbn [rbind].
  destruct (view_make X _ _ _) as [w|] eqn:E1; [|discriminate]. cbn [rbind].
  destruct (view_columns (tab X) w _) as [w1|] eqn:E2; [|discriminate]. cbn [rbind].
  destruct (make_views X outs zv vs cs order) as [ws'|] eqn:E3; [|discriminate]. intros E. injection E as <-.
  apply views_set_cons; [|apply IH; reflexivity].
  eapply columns_set; [eapply make_view_set; exact E1| |exact E2].
  intros c k Hin. apply in_map_iff in Hin. destruct Hin as [c' [E Hin]]. injection E as <- <-. apply Hf.
  clear - Em Hin. revert mine Em Hin. induction outs as [|o outs IH]; intros mine; cbn [view_outputs].
  - intros E. injection E as <-. intros [].
  - destruct (dget o zv) as [v'|]; [|discriminate]. destruct (view_outputs zv v outs) as [l|]; [|discriminate].
    cbn [rbind]. intros E. injection E as <-. destruct (v' =? v)%Z; intros H; [destruct H as [<-|H]; [left; reflexivity|]|];
      right; (eapply IH; [reflexivity|exact H]).
Qed.
Lemma views_loop_set f vs : (forall i v w w' r, all_set (v_dims w) -> f i v w = (w', r) -> all_set (v_dims w')) ->
  forall ws ws' r, views_set ws -> views_loop f vs ws = (ws', r) -> views_set ws'.
Proof.
  intros Hf. induction vs as [|v vs IH]; intros ws ws' r H; cbn [views_loop]; [intros E; injection E as <- <-; exact H|].
  destruct (dget v ws) as [w|] eqn:Ew; [|intros E; injection E as <- <-; exact H].
  destruct (f (length vs) v w) as [w1 r1] eqn:E1. pose proof (Hf _ _ _ _ _ (views_set_get _ _ _ H Ew) E1) as H1.
  destruct r1; [|intros E; injection E as <- <-; apply views_set_dset; assumption].
  apply IH. apply views_set_dset; assumption.
Qed.
Lemma dim_call_set s c o s' : views_set (s_views s) -> dim_call s c o = (s', Ok tt) -> views_set (s_views s').
Proof.
  intros H. unfold dim_call. destruct (dget c (s_zv s)) as [v|]; [|discriminate].
  destruct (dget v (s_views s)) as [w|] eqn:Ew; [|discriminate]. destruct (view_call w c o) as [w1 r] eqn:E1.
  intros E. injection E as <- ->. apply views_set_dset; [exact H|]. eapply call_set; [eapply views_set_get; eassumption|exact E1].
Qed.
Lemma dims_call_set o cols : forall s s', views_set (s_views s) -> dims_call s cols o = (s', Ok tt) -> views_set (s_views s').
Proof.
  induction cols as [|c cols IH]; intros s s' H; cbn [dims_call]; [intros E; injection E as <-; exact H|].
  destruct (dim_call s c _) as [s1 r] eqn:E1. destruct r as [[]|]; [|discriminate]. apply IH. eapply dim_call_set; eassumption.
Qed.

Lemma data_logp_set X w c a w' a' res : all_set (v_dims w) -> settled a -> data_logp X w c a = (w', a', res) ->
  all_set (v_dims w') /\ settled a'.
Proof.
  intros H Ha. unfold data_logp. destruct (view_incorporate_dim X w c a _) as [[w1 a1] r1] eqn:E1.
  destruct (incorporate_dim_set _ _ _ _ _ _ _ _ H Ha E1) as [H1 Ha1]. destruct r1; [|intros E; injection E as <- <- <-; auto].
  destruct (a_score a1); [|intros E; injection E as <- <- <-; auto].
  destruct (view_unincorporate_dim w1 c) as [w2 r2] eqn:E2. intros E. injection E as <- <- <-.
  split; [eapply unincorporate_dim_set; eassumption|exact Ha1].
Qed.
Lemma data_logps_set X c a ws : settled a -> forall sh ws' sh' l, views_set ws -> settled sh ->
  data_logps X c a sh ws = (ws', sh', Ok l) ->
  views_set ws' /\ settled sh' /\ forall b e, In (Some b, e) l -> settled b.
Proof.
  intros Ha. induction ws as [|[v w] ws IH]; intros sh ws' sh' l H Hs; cbn [data_logps].
  { intros E. injection E as <- <- <-. split; [exact H|]. split; [exact Hs|]. intros b e []. }
  apply views_set_head in H. destruct H as [Hw H].
  set (al := m_coll (a_M a) || dmem c (v_dims w)).
  destruct (data_logp X w c (if al then sh else a)) as [[w1 a1] r1] eqn:E1.
  assert (Hx : settled (if al then sh else a)) by (destruct al; assumption).
  destruct (data_logp_set _ _ _ _ _ _ _ Hw Hx E1) as [Hw1 Ha1]. destruct r1 as [lp|]; [|discriminate].
  assert (Hs1 : settled (if al then a1 else sh)) by (destruct al; assumption).
  destruct (data_logps X c a (if al then a1 else sh) ws) as [[ws2 sh2] r2] eqn:E2.
  destruct r2 as [l2|]; [|discriminate]. cbn [rbind]. intros E. injection E as <- <- <-.
  destruct (IH _ _ _ _ H Hs1 E2) as [I1 [I2 I3]]. split; [apply views_set_cons; assumption|]. split; [exact I2|].
  intros b e [E|Hin]; [|apply (I3 b e Hin)]. destruct al; [discriminate|]. injection E as <- <-. exact Ha1.
Qed.
Lemma aux_views_set X seeds ts : forall ws, aux_views X seeds ts = Ok ws -> views_set ws.
Proof.
  induction ts as [|t ts IH]; intros ws; cbn [aux_views]; [intros E; injection E as <-; intros ? ? []|].
  destruct (view_make X _ _ _) as [w|] eqn:E1; [|discriminate]. cbn [rbind].
  destruct (aux_views X seeds ts) as [ws'|]; [|discriminate]. intros E. injection E as <-.
  apply views_set_cons; [eapply make_view_set; exact E1|apply IH; reflexivity].
Qed.
Lemma migrate_dim_set s c va vb a s' : views_set (s_views s) -> settled a -> migrate_dim s c va vb a = (s', Ok tt) ->
  views_set (s_views s').
Proof.
  intros H Ha. unfold migrate_dim, migrate_to. destruct (dget va (c_counts (s_crp s))) as [nva|]; [|discriminate].
  destruct (dget va (s_views s)) as [wa|] eqn:Ewa; [|discriminate].
  destruct (if dmem c (v_dims wa) then view_unincorporate_dim wa c else (wa, Ok tt)) as [wa1 r1] eqn:E1.
  assert (H1 : all_set (v_dims wa1)).
  { pose proof (views_set_get _ _ _ H Ewa). destruct (dmem c (v_dims wa)); [eapply unincorporate_dim_set; eassumption|].
    injection E1 as <- _. assumption. }
  destruct r1; [|discriminate]. cbn [s_views set_views].
  pose proof (views_set_dset _ va _ H H1) as H2. destruct (dget vb (dset va wa1 (s_views s))) as [wb|] eqn:Ewb; [|discriminate].
  destruct (view_incorporate_dim (tab (s_X s)) wb c a _) as [[wb1 a1] r2] eqn:E2.
  destruct (incorporate_dim_set _ _ _ _ _ _ _ _ (views_set_get _ _ _ H2 Ewb) Ha E2) as [H3 _].
  pose proof (views_set_dset _ vb _ H2 H3) as H4.
  destruct (rbind r2 _); [|discriminate]. cbn [s_crp set_views].
  destruct (crp_unincorporate (s_crp s) c) as [k1 r3]. destruct r3; [|discriminate].
  destruct (crp_incorporate k1 c vb) as [k2 r4]. destruct r4; [|discriminate].
  destruct (nva =? 1)%Z; [destruct (dmem va (c_counts k2)); [discriminate|]|]; intros E; injection E as <-; [apply views_set_ddel|]; exact H4.
Qed.
Lemma last_in {A} (l : list A) d x : last l d = x -> x = d \/ In x l.
Proof.
  induction l as [|y l IH]; [intros <-; auto|]. destruct l as [|z l]; [intros <-; right; left; reflexivity|].
  intros E. destruct (IH E); auto. right. right. assumption.
Qed.
Lemma log_pflip_in {A} draw l (array : list A) x : log_pflip draw l array = Ok x -> In x array.
Proof.
  unfold log_pflip. destruct (log_normalize l) as [lp|]; [|discriminate]. cbn [rbind].
  assert (C : choice draw array (normalize (map eexp lp)) = Ok x -> In x array).
  { unfold choice. destruct (_ && _); [|discriminate]. destruct (nth_error array _) as [y|] eqn:E; [|discriminate].
    intros E'. injection E' as <-. eapply nth_error_In; exact E. }
  unfold pflip. destruct (map eexp lp) as [|p1 [|p2 ps]]; [exact C| |exact C].
  destruct array as [|y array]; [discriminate|]. intros E. injection E as <-. left. reflexivity.
Qed.
Lemma column_set d s c m s' : views_set (s_views s) -> transition_dim d s c m = (s', Ok tt) -> views_set (s_views s').
Proof.
  intros H. unfold transition_dim. destruct (all_dims s) as [ds|]; [|discriminate].
  destruct (existsb _ ds); [discriminate|]. destruct (s_Cd s); [|discriminate].
  destruct (dim_for s c) as [a|] eqn:Ea; [|discriminate].
  assert (Ha : settled a).
  { unfold dim_for in Ea. destruct (dget c (s_zv s)) as [v|]; [|discriminate]. destruct (dget v (s_views s)) as [w|] eqn:Ew; [|discriminate].
    destruct (dget c (v_dims w)) as [a'|] eqn:Ec; [|discriminate]. injection Ea as <-.
    eapply all_set_get; [eapply views_set_get; eassumption|exact Ec]. }
  destruct (column_plan (cd_seeds d) s c m a) as [s1 r] eqn:Ep. destruct r as [p|]; [|discriminate].
  assert (P : views_set (s_views s1) /\ settled (cp_shared p) /\ views_set (cp_aux p) /\
              forall b, In (Some b) (cp_props p) -> settled b).
  { unfold column_plan in Ep. destruct (data_logps (tab (s_X s)) c a a (s_views s)) as [[ws sh] r1] eqn:E1.
    destruct r1 as [ex|]; [|discriminate]. destruct (data_logps_set _ _ _ _ Ha _ _ _ _ H Ha E1) as [H1 [Hs H2]].
    injection Ep as <- Ep. split; [exact H1|].
    destruct (crp_gibbs_tables _ _ _) as [tables|]; [|discriminate]. cbn [rbind] in Ep.
    destruct (aux_views _ _ _) as [auxs|] eqn:E2; [|discriminate]. cbn [rbind] in Ep.
    set (src := match last (map fst ex) None with Some b => b | None => sh end) in *.
    assert (Hsrc : settled src).
    { unfold src. destruct (last (map fst ex) None) as [b|] eqn:El; [|exact Hs]. apply last_in in El.
      destruct El as [El|El]; [discriminate|]. apply in_map_iff in El. destruct El as [[b' e] [E Hin]]. simpl in E. subst b'.
      apply (H2 b e Hin). }
    destruct (data_logps (tab (s_X s)) c src sh auxs) as [[auxs1 sh2] r2] eqn:E3.
    destruct r2 as [ax|]; [|discriminate]. cbn [rbind] in Ep.
    destruct (data_logps_set _ _ _ _ Hsrc _ _ _ _ (aux_views_set _ _ _ _ E2) Hs E3) as [H3 [Hs2 H4]].
    destruct (crp_gibbs_logps _ _ _) as [lc|]; [|discriminate]. cbn [rbind] in Ep.
    destruct (length (ex ++ ax) =? length lc)%nat; [|discriminate].
    destruct (mask _ _ _ _) as [wt|]; [|discriminate]. cbn [rbind] in Ep.
    destruct (length tables =? length wt)%nat; [|discriminate]. injection Ep as <-. cbn [cp_shared cp_aux cp_props].
    split; [exact Hs2|]. split; [exact H3|]. intros b Hin. apply in_map_iff in Hin. destruct Hin as [[b' e] [E Hin]].
    simpl in E. subst b'. apply in_app_or in Hin. destruct Hin as [Hin|Hin]; [apply (H2 b e Hin)|apply (H4 b e Hin)]. }
  destruct P as [H1 [Hs [Hx Hp]]]. destruct (log_pflip _ _ _) as [[vb prop]|] eqn:El; [|discriminate].
  set (b := match prop with Some b => b | None => cp_shared p end).
  assert (Hb : settled b).
  { unfold b. destruct prop as [b'|]; [|exact Hs]. apply Hp. apply log_pflip_in in El. eapply in_combine_r; exact El. }
  destruct (dget c (s_zv s1)) as [va|]; [|discriminate]. destruct (va =? vb)%Z.
  - destruct (dget va (s_views s1)) as [wa|] eqn:Ewa; [|discriminate].
    destruct (view_incorporate_dim _ wa c b _) as [[wa1 b1] r1] eqn:E1. intros E. injection E as <- _.
    apply views_set_dset; [exact H1|]. exact (proj1 (incorporate_dim_set _ _ _ _ _ _ _ _ (views_set_get _ _ _ H1 Ewa) Hb E1)).
  - destruct (zmax_list _) as [mx|]; [|discriminate]. destruct (mx <? vb)%Z.
    + destruct (dget vb (cp_aux p)) as [w|] eqn:Ew; [|discriminate]. apply migrate_dim_set; [|exact Hb].
      apply views_set_dset; [exact H1|eapply views_set_get; eassumption].
    + apply migrate_dim_set; assumption.
Qed.
Lemma columns_step_set d m cols : forall s s', views_set (s_views s) -> transition_dims d m s cols = (s', Ok tt) ->
  views_set (s_views s').
Proof.
  induction cols as [|c cols IH]; intros s s' H; cbn [transition_dims]; [intros E; injection E as <-; exact H|].
  destruct (transition_dim _ s c m) as [s1 r] eqn:E1. destruct r as [[]|]; [|discriminate]. apply IH. eapply column_set; eassumption.
Qed.
Lemma kernel_set s k s' : views_set (s_views s) -> run_kernel s k = (s', Ok tt) -> views_set (s_views s').
Proof.
  intros H. destruct k; cbn [run_kernel].
  - destruct (crp_transition_alpha _ _ _ _) as [c r]. intros E. injection E as <- _. exact H.
  - destruct (views_loop _ _ _) as [ws r] eqn:E1. intros E. injection E as <- _. cbn [s_views set_views].
    eapply views_loop_set; [|exact H|exact E1]. cbn beta. intros. eapply alpha_set; eassumption.
  - apply dims_call_set. exact H.
  - apply dims_call_set. exact H.
  - apply dims_call_set. exact H.
  - destruct (n_rows s) as [n|]; [|discriminate]. destruct (n =? 1)%Z; [intros E; injection E as <-; exact H|].
    destruct (views_loop _ _ _) as [ws r] eqn:E1. intros E. injection E as <- _. cbn [s_views set_views].
    eapply views_loop_set; [|exact H|exact E1]. cbn beta. intros. eapply rows_set; eassumption.
  - apply columns_step_set. exact H.
Qed.

(** The new column of [update_cctype] is settled after the last step. *)
Lemma dim_call_at s c v w a o : dget c (s_zv s) = Some v -> dget v (s_views s) = Some w -> dget c (v_dims w) = Some a ->
  dim_call s c o = (set_views s (dset v (set_dims w (dset c (fst (a_call a o)) (v_dims w))) (s_views s)), snd (a_call a o)).
Proof.
  intros E1 E2 E3. unfold dim_call. rewrite E1, E2. unfold view_call. rewrite E3. destruct (a_call a o). reflexivity.
Qed.
Lemma cctype_set s col a g p hd ho s' : views_set (s_views s) -> fresh a ->
  state_update_cctype s col a g p hd ho = (s', Ok tt) -> views_set (s_views s').
Proof.
  intros H [M [h [set [ins [tape [HM ->]]]]]]. pose proof (known_laws M HM) as HL. unfold state_update_cctype.
  destruct (zmem col (s_outs s)); [|discriminate]. cbn [negb].
  destruct (dget col (s_zv s)) as [v|] eqn:Ev; [|discriminate]. destruct (dget v (s_views s)) as [w|] eqn:Ew; [|discriminate].
  pose proof (views_set_get _ _ _ H Ew) as Hw.
  unfold view_update_cctype. destruct (view_unincorporate_dim w col) as [w1 r1] eqn:E1.
  pose proof (unincorporate_dim_set _ _ _ _ Hw E1) as Hw1. destruct r1; [|discriminate].
  unfold view_incorporate_dim. destruct (bulk_incorporate _ w1 col _) as [a2 r2] eqn:E2.
  assert (H2 : settledb set a2).
  { eapply bulk_set; [|exact E2]. split; [exact HL|]. split; [apply (uses_new HL)|reflexivity]. }
  destruct r2 as [[]|]; [|discriminate].
  set (w2 := set_dims w1 (dset col a2 (v_dims w1))).
  rewrite (dim_call_at _ _ v w2 a2); [|exact Ev|apply dget_dset_same|apply dget_dset_same].
  destruct (a_call a2 (CallGrids g p)) as [a3 r3] eqn:E3. cbn [fst snd]. destruct r3 as [[]|]; [|discriminate].
  destruct H2 as [HL2 [U2 S2]].
  assert (H3 : mlaws (a_M a3) (reach (a_M a3)) /\ wellf (a_d a3) /\ d_set (a_d a3) = true).
  { cbn [a_call] in E3. destruct (dim_transition_grids _ _ _ _) as [d3 r3] eqn:E3'. injection E3 as <- ->.
    destruct (wellf_grids HL2 _ _ _ _ _ (wellf_uses _ U2) E3') as [W [S3 _]]. auto. }
  destruct H3 as [HL3 [W3 S3]].
  rewrite (dim_call_at _ _ v (set_dims w2 (dset col a3 (v_dims w2))) a3); [|exact Ev|apply dget_dset_same|apply dget_dset_same].
  cbn [a_call fst snd].
  assert (W4 : wellf (dim_transition_params (a_M a3) (a_d a3))).
  { destruct W3 as [A B]. split; [exact A|]. simpl. intros k c Hin. apply In_params in Hin. destruct Hin as [c0 [q [Hin ->]]].
    apply (ml_par_set _ _ HL3), (B _ _ Hin). }
  set (d4 := dim_transition_params (a_M a3) (a_d a3)) in *.
  set (w3 := set_dims (set_dims w2 (dset col a3 (v_dims w2))) _).
  rewrite (dim_call_at _ _ v w3 (ADim (a_M a3) d4)); [|exact Ev|apply dget_dset_same|apply dget_dset_same].
  cbn [a_call a_M a_d].
  destruct (dim_transition_hypers (a_M a3) hd ho d4) as [d5 r5] eqn:E5. cbn [fst snd]. intros E. injection E as <- ->.
  destruct (uses_hypers HL3 _ _ _ _ W4 E5) as [U5 S5].
  assert (H5 : settled (ADim (a_M a3) d5)) by (split; [exact HL3|split; [exact U5|simpl; rewrite S5; exact S3]]).
  cbn [s_views set_views]. rewrite !dset_dset. apply views_set_dset; [exact H|].
  unfold w3, w2. cbn [v_dims set_dims].
  apply all_set_dset; assumption.
Qed.

Lemma add_set s T col k v seed d hd ho s' : views_set (s_views s) -> fresh (cs_col k) ->
  state_incorporate_dim s T col k v seed d hd ho = (s', Ok tt) -> views_set (s_views s').
Proof.
  intros H Hf. unfold state_incorporate_dim. destruct (n_rows s) as [n|]; [|discriminate].
  destruct (negb _); [discriminate|]. destruct (zmem col (s_outs s)); [discriminate|].
  set (va := match v with Some v => v | None => 0%Z end). set (X := dset col T (s_X s)).
  set (s1 := set_outs (set_X s X) (s_outs s ++ [col])).
  destruct (match dget va (s_views s1) with Some w => Ok w | None => _ end) as [w|] eqn:Ew; [|discriminate].
  assert (Hw : all_set (v_dims w)).
  { destruct (dget va (s_views s1)) as [w0|] eqn:E0; [injection Ew as <-; exact (views_set_get _ _ _ H E0)|].
    eapply make_view_set; exact Ew. }
  destruct (col_make k) as [a r] eqn:Ek. destruct r as [[]|]; [|discriminate].
  pose proof (settled_make k a Hf Ek) as Ha.
  destruct (view_incorporate_dim (tab X) w col a true) as [[w1 a1] r1] eqn:E1.
  destruct (incorporate_dim_set _ _ _ _ _ _ _ _ Hw Ha E1) as [H1 _].
  destruct (rbind r1 _); [|discriminate]. destruct (crp_incorporate _ col va) as [c r2]. destruct r2; [|discriminate].
  set (s4 := set_scrp _ c).
  assert (H4 : views_set (s_views s4)).
  { apply views_set_dset; [|exact H1]. apply views_set_dset; assumption. }
  destruct v as [v|].
  - apply dim_call_set. exact H4.
  - destruct (transition_dims _ 1 s4 [col]) as [s5 r3] eqn:E5. destruct r3 as [[]|]; [|discriminate].
    apply dim_call_set. eapply columns_step_set; eassumption.
Qed.
Lemma remove_set s col s' : views_set (s_views s) -> state_unincorporate_dim s col = (s', Ok tt) -> views_set (s_views s').
Proof.
  intros H. unfold state_unincorporate_dim. destruct (_ =? _)%nat; [discriminate|]. destruct (negb _); [discriminate|].
  destruct (dget col (s_zv s)) as [v|]; [|discriminate]. destruct (dget v (s_views s)) as [w|] eqn:Ew; [|discriminate].
  destruct (dget v (c_counts (s_crp s))) as [nv|]; [|discriminate].
  destruct (view_unincorporate_dim w col) as [w1 r1] eqn:E1.
  pose proof (unincorporate_dim_set _ _ _ _ (views_set_get _ _ _ H Ew) E1) as H1.
  pose proof (views_set_dset _ v _ H H1) as H2.
  destruct r1; [|discriminate]. destruct (crp_unincorporate _ col) as [c r2]. destruct r2; [|discriminate].
  destruct (_ && _); [discriminate|].
  destruct (nv =? 1)%Z; (destruct (dmem col _); [|discriminate]); intros E; injection E as <-; cbn [s_views set_outs set_X set_views set_scrp];
    [apply views_set_ddel|]; exact H2.
Qed.

Lemma op_set s o s' : views_set (s_views s) -> wf_op o -> run_op s o = (s', Ok tt) -> views_set (s_views s').
Proof.
  intros H Hw. destruct o; cbn [run_op wf_op] in *.
  - unfold state_incorporate. destruct (n_rows s) as [n|]; [|discriminate]. destruct (negb _); [discriminate|].
    destruct (negb _); [discriminate|]. destruct (existsb _ _); [discriminate|].
    destruct (append_row _ _ _) as [X r]. destruct r; [|discriminate]. destruct (n_rows _) as [n1|]; [|discriminate].
    destruct (views_loop _ _ _) as [ws r2] eqn:E1. intros E. injection E as <- _. cbn [s_views set_views].
    eapply views_loop_set; [|exact H|exact E1]. cbn beta. intros i v0 w w' r0 Hw0.
    destruct (table_row _ _ _); [apply incorporate_set; exact Hw0|intros E; injection E as <- <-; exact Hw0].
  - unfold state_unincorporate. destruct (n_rows s) as [n|]; [|discriminate]. destruct (negb _); [discriminate|].
    destruct (n =? 1)%Z; [discriminate|]. destruct (pop_row _ _) as [X r]. destruct r; [|discriminate].
    destruct (views_loop _ _ _) as [ws r2] eqn:E1. intros E. injection E as <- _. cbn [s_views set_views].
    eapply views_loop_set; [|exact H|exact E1]. cbn beta. intros. eapply uninc_set; eassumption.
  - unfold state_force_cell. destruct (n_rows s) as [n|]; [|discriminate]. destruct (hypothetical _ _); [discriminate|].
    destruct (all_nan _ _ _) as [[]|]; try discriminate. destruct (partition_list _ _) as [q|]; [|discriminate].
    destruct (views_loop _ _ _) as [ws r2] eqn:E1. intros E. injection E as <- _. cbn [s_views set_views].
    eapply views_loop_set; [|exact H|exact E1]. cbn beta. intros. eapply view_force_set; eassumption.
  - apply add_set; assumption.
  - apply remove_set; assumption.
  - apply cctype_set; assumption.
  - apply kernel_set; assumption.
Qed.

Lemma sreach_set ok s : sreach ok s -> views_set (s_views s).
Proof.
  induction 1 as [X zv alpha grid Cd Ci vspecs cspecs order n s H1 H2 H3 H4 H5 H6 H7 E|s o s' _ IH Hw Hs E].
  - unfold state_init in E. destruct (seat_given _ _) as [c|]; [|discriminate]. cbn [rbind] in E.
    destruct (_ =? _)%nat; [|discriminate]. destruct (make_views _ _ _ _ _ _) as [ws|] eqn:Ews; [|discriminate].
    cbn [rbind] in E. injection E as <-. eapply make_views_set; [|exact Ews]. exact H7.
  - eapply op_set; eassumption.
Qed.

(* ------------------------------------------------------------------ *)
(** ** The order of the columns *)

Definition aligned (s : state) : Prop := s_outs s = dkeys (s_X s).

Lemma dset_keys {A} c (x : A) d : In c (dkeys d) -> dkeys (dset c x d) = dkeys d.
Proof.
  induction d as [|[k v] d IH]; simpl; [intros []|]. destruct (c =? k)%Z eqn:E; simpl.
  - apply Z.eqb_eq in E. subst. reflexivity.
  - intros [->|Hin]; [rewrite Z.eqb_refl in E; discriminate|]. f_equal. apply IH, Hin.
Qed.
Lemma dset_keys_new {A} c (x : A) d : ~ In c (dkeys d) -> dkeys (dset c x d) = dkeys d ++ [c].
Proof.
  induction d as [|[k v] d IH]; simpl; [reflexivity|]. intros H. destruct (c =? k)%Z eqn:E; simpl.
  - apply Z.eqb_eq in E. subst. exfalso. apply H. left. reflexivity.
  - f_equal. apply IH. tauto.
Qed.
Lemma ddel_keys {A} c (d : dict A) : NoDup (dkeys d) -> dkeys (ddel c d) = filter (fun i => negb (i =? c)%Z) (dkeys d).
Proof.
  induction d as [|[k v] d IH]; [reflexivity|]. cbn [dkeys map fst]. intros Hn. apply NoDup_cons_iff in Hn.
  destruct Hn as [H1 H2]. cbn [ddel filter]. rewrite (Z.eqb_sym c k). destruct (k =? c)%Z eqn:E; cbn [negb].
  - apply Z.eqb_eq in E. subst. symmetry. apply filter_all. intros a Hin. destruct (a =? c)%Z eqn:E; [|reflexivity]. apply Z.eqb_eq in E. subst. contradiction.
  - cbn [dkeys map fst]. f_equal. apply IH, H2.
Qed.

Lemma append_keys outs obs : forall X X' r, append_row outs obs X = (X', r) -> dkeys X' = dkeys X.
Proof.
  induction outs as [|c outs IH]; intros X X' r; cbn [append_row]; [intros E; injection E as <- <-; reflexivity|].
  destruct (dget c X) as [l|] eqn:E1; [|intros E; injection E as <- <-; reflexivity].
  intros E. rewrite (IH _ _ _ E). apply dset_keys. eapply dget_Some_in; exact E1.
Qed.
Lemma pop_keys outs : forall X X' r, pop_row outs X = (X', r) -> dkeys X' = dkeys X.
Proof.
  induction outs as [|c outs IH]; intros X X' r; cbn [pop_row]; [intros E; injection E as <- <-; reflexivity|].
  destruct (dget c X) as [[|x l]|] eqn:E1; try (intros E; injection E as <- <-; reflexivity).
  intros E. rewrite (IH _ _ _ E). apply dset_keys. eapply dget_Some_in; exact E1.
Qed.
Lemma cells_keys r obs : forall X, dkeys (set_cells r obs X) = dkeys X.
Proof.
  induction obs as [|[c x] obs IH]; intros X; cbn [set_cells]; [reflexivity|]. rewrite IH.
  destruct (dget c X) as [l|] eqn:E; [|reflexivity]. apply dset_keys. eapply dget_Some_in; exact E.
Qed.
(** Inference changes neither the outputs nor the table. *)
Definition fixes (s s' : state) : Prop := s_outs s' = s_outs s /\ s_X s' = s_X s.
Lemma dim_call_fixes s c o s' r : dim_call s c o = (s', r) -> fixes s s'.
Proof.
  unfold dim_call. destruct (dget c (s_zv s)); [|intros E; injection E as <- <-; split; reflexivity].
  destruct (dget _ (s_views s)); [|intros E; injection E as <- <-; split; reflexivity].
  destruct (view_call _ c o). intros E; injection E as <- <-; split; reflexivity.
Qed.
Lemma migrate_fixes s c va vb a s' r : migrate_dim s c va vb a = (s', r) -> fixes s s'.
Proof.
  unfold migrate_dim, migrate_to. destruct (dget va (c_counts (s_crp s))) as [nva|]; [|intros E; injection E as <- <-; split; reflexivity].
  destruct (dget va (s_views s)) as [wa|]; [|intros E; injection E as <- <-; split; reflexivity].
  destruct (if dmem c (v_dims wa) then _ else _) as [wa1 r1]. destruct r1; [|intros E; injection E as <- <-; split; reflexivity].
  destruct (dget vb _) as [wb|]; [|intros E; injection E as <- <-; split; reflexivity].
  destruct (view_incorporate_dim _ wb c a _) as [[wb1 a1] r2].
  destruct (rbind r2 _); [|intros E; injection E as <- <-; split; reflexivity].
  destruct (crp_unincorporate _ c) as [k1 r3]. destruct r3; [|intros E; injection E as <- <-; split; reflexivity].
  destruct (crp_incorporate k1 c vb) as [k2 r4]. destruct r4; [|intros E; injection E as <- <-; split; reflexivity].
  destruct (nva =? 1)%Z; [destruct (dmem va _)|]; intros E; injection E as <- <-; split; reflexivity.
Qed.
Lemma column_fixes d s c m s' r : transition_dim d s c m = (s', r) -> fixes s s'.
Proof.
  unfold transition_dim. destruct (all_dims s) as [ds|]; [|intros E; injection E as <- <-; split; reflexivity].
  destruct (existsb _ ds); [intros E; injection E as <- <-; split; reflexivity|].
  destruct (s_Cd s); [|intros E; injection E as <- <-; split; reflexivity].
  destruct (dim_for s c) as [a|]; [|intros E; injection E as <- <-; split; reflexivity].
  destruct (column_plan (cd_seeds d) s c m a) as [s1 r1] eqn:Ep.
  assert (F : fixes s s1).
  { unfold column_plan in Ep. destruct (data_logps _ _ _ _ _) as [[ws sh] r0]. destruct r0; injection Ep as <- _; split; reflexivity. }
  destruct r1 as [p|]; [|intros E; injection E as <- <-; exact F].
  destruct (log_pflip _ _ _) as [[vb prop]|]; [|intros E; injection E as <- <-; exact F].
  destruct (dget c (s_zv s1)) as [va|]; [|intros E; injection E as <- <-; exact F].
  destruct (va =? vb)%Z.
  - destruct (dget va (s_views s1)) as [wa|]; [|intros E; injection E as <- <-; exact F].
    destruct (view_incorporate_dim _ wa c _ _) as [[wa1 b1] r2]. intros E. injection E as <- _. exact F.
  - destruct (zmax_list _) as [mx|]; [|intros E; injection E as <- <-; exact F]. destruct (mx <? vb)%Z.
    + destruct (dget vb (cp_aux p)) as [w|]; [|intros E; injection E as <- <-; exact F].
      intros E. apply migrate_fixes in E. exact (conj (eq_trans (proj1 E) (proj1 F)) (eq_trans (proj2 E) (proj2 F))).
    + intros E. apply migrate_fixes in E. exact (conj (eq_trans (proj1 E) (proj1 F)) (eq_trans (proj2 E) (proj2 F))).
Qed.
Lemma fixes_trans a b c : fixes a b -> fixes b c -> fixes a c.
Proof. intros [A B] [C D]. split; congruence. Qed.
Lemma columns_fixes d m cols : forall s s' r, transition_dims d m s cols = (s', r) -> fixes s s'.
Proof.
  induction cols as [|c cols IH]; intros s s' r; cbn [transition_dims]; [intros E; injection E as <- <-; split; reflexivity|].
  destruct (transition_dim _ s c m) as [s1 r1] eqn:E1. apply column_fixes in E1.
  destruct r1; [|intros E; injection E as <- <-; exact E1]. intros E. eapply fixes_trans; [exact E1|eapply IH; exact E].
Qed.
Lemma dims_call_fixes o cols : forall s s' r, dims_call s cols o = (s', r) -> fixes s s'.
Proof.
  induction cols as [|c cols IH]; intros s s' r; cbn [dims_call]; [intros E; injection E as <- <-; split; reflexivity|].
  destruct (dim_call s c _) as [s1 r1] eqn:E1. apply dim_call_fixes in E1.
  destruct r1; [|intros E; injection E as <- <-; exact E1]. intros E. eapply fixes_trans; [exact E1|eapply IH; exact E].
Qed.
Lemma kernel_fixes s k s' r : run_kernel s k = (s', r) -> fixes s s'.
Proof.
  destruct k; cbn [run_kernel].
  - destruct (crp_transition_alpha _ _ _ _). intros E. injection E as <- <-. split; reflexivity.
  - destruct (views_loop _ _ _). intros E. injection E as <- <-. split; reflexivity.
  - apply dims_call_fixes.
  - apply dims_call_fixes.
  - apply dims_call_fixes.
  - destruct (n_rows s) as [n|]; [|intros E; injection E as <- <-; split; reflexivity].
    destruct (n =? 1)%Z; [intros E; injection E as <- <-; split; reflexivity|].
    destruct (views_loop _ _ _). intros E. injection E as <- <-. split; reflexivity.
  - apply columns_fixes.
Qed.

Lemma op_aligned s o s' : NoDup (dkeys (s_X s)) -> aligned s -> run_op s o = (s', Ok tt) -> aligned s'.
Proof.
  intros Hn H. unfold aligned in *. destruct o; cbn [run_op].
  - unfold state_incorporate. destruct (n_rows s) as [n|]; [|discriminate]. destruct (negb _); [discriminate|].
    destruct (negb _); [discriminate|]. destruct (existsb _ _); [discriminate|].
    destruct (append_row _ _ _) as [X r] eqn:Ea. destruct r; [|discriminate]. destruct (n_rows _) as [n1|]; [|discriminate].
    destruct (views_loop _ _ _) as [ws r2]. intros E. injection E as <- _. cbn [s_outs s_X set_views set_X]. rewrite (append_keys _ _ _ _ _ Ea). exact H.
  - unfold state_unincorporate. destruct (n_rows s) as [n|]; [|discriminate]. destruct (negb _); [discriminate|].
    destruct (n =? 1)%Z; [discriminate|]. destruct (pop_row _ _) as [X r] eqn:Ea. destruct r; [|discriminate].
    destruct (views_loop _ _ _) as [ws r2]. intros E. injection E as <- _. cbn [s_outs s_X set_views set_X]. rewrite (pop_keys _ _ _ _ Ea). exact H.
  - unfold state_force_cell. destruct (n_rows s) as [n|]; [|discriminate]. destruct (hypothetical _ _); [discriminate|].
    destruct (all_nan _ _ _) as [[]|]; try discriminate. destruct (partition_list _ _) as [q|]; [|discriminate].
    destruct (views_loop _ _ _) as [ws r2]. intros E. injection E as <- _. cbn [s_outs s_X set_views set_X]. rewrite cells_keys. exact H.
  - unfold state_incorporate_dim. destruct (n_rows s) as [n|]; [|discriminate].
    destruct (negb _); [discriminate|]. destruct (zmem col (s_outs s)) eqn:Ez; [discriminate|].
    set (s1 := set_outs _ _).
    assert (H1 : s_outs s1 = dkeys (s_X s1)).
    { unfold s1. cbn [s_outs s_X set_outs set_X]. rewrite dset_keys_new; [rewrite H; reflexivity|].
      rewrite <- H. apply zmem_false. exact Ez. }
    destruct (match dget _ (s_views s1) with Some w => Ok w | None => _ end) as [w|]; [|discriminate].
    destruct (col_make k) as [a r]. destruct r as [[]|]; [|discriminate].
    destruct (view_incorporate_dim _ w col a true) as [[w1 a1] r1].
    destruct (rbind r1 _); [|discriminate]. destruct (crp_incorporate _ col _) as [c r2]. destruct r2; [|discriminate].
    set (s4 := set_scrp _ c). assert (H4 : s_outs s4 = dkeys (s_X s4)) by exact H1.
    destruct v as [v|].
    + intros E. apply dim_call_fixes in E. destruct E as [-> ->]. exact H4.
    + destruct (transition_dims _ 1 s4 [col]) as [s5 r3] eqn:E5. apply columns_fixes in E5. destruct r3 as [[]|]; [|discriminate].
      intros E. apply dim_call_fixes in E. destruct E as [-> ->]. destruct E5 as [-> ->]. exact H4.
  - unfold state_unincorporate_dim. destruct (_ =? _)%nat; [discriminate|]. destruct (negb _); [discriminate|].
    destruct (dget col (s_zv s)) as [v|]; [|discriminate]. destruct (dget v (s_views s)) as [w|]; [|discriminate].
    destruct (dget v (c_counts (s_crp s))) as [nv|]; [|discriminate].
    destruct (view_unincorporate_dim w col) as [w1 r1].
    destruct r1; [|discriminate]. destruct (crp_unincorporate _ col) as [c r2]. destruct r2; [|discriminate].
    destruct (_ && _); [discriminate|].
    destruct (nv =? 1)%Z; (destruct (dmem col _); [|discriminate]); intros E; injection E as <-;
      cbn [s_outs s_X set_outs set_X set_views set_scrp]; rewrite ddel_keys by exact Hn; rewrite H; reflexivity.
  - unfold state_update_cctype. destruct (negb _); [discriminate|]. destruct (dget col (s_zv s)) as [v|]; [|discriminate].
    destruct (dget v (s_views s)) as [w|]; [|discriminate]. destruct (view_update_cctype _ w col a) as [w1 r]. destruct r; [|discriminate].
    set (s1 := set_views _ _).
    destruct (dim_call s1 col _) as [s2 r2] eqn:E2. apply dim_call_fixes in E2. destruct r2; [|discriminate].
    destruct (dim_call s2 col CallParams) as [s3 r3] eqn:E3. apply dim_call_fixes in E3. destruct r3; [|discriminate].
    intros E. apply dim_call_fixes in E. destruct E as [-> ->]. destruct E3 as [-> ->]. destruct E2 as [-> ->]. exact H.
  - intros E. apply kernel_fixes in E. destruct E as [-> ->]. exact H.
Qed.
Lemma sreach_aligned s : sreach safe s -> aligned s.
Proof.
  induction 1 as [X zv alpha grid Cd Ci vspecs cspecs order n s H1 H2 H3 H4 H5 H6 H7 E|s o s' Hr IH Hw Hs E].
  - unfold state_init in E. destruct (seat_given _ _) as [c|]; [|discriminate]. cbn [rbind] in E.
    destruct (_ =? _)%nat; [|discriminate]. destruct (make_views _ _ _ _ _ _) as [ws|]; [|discriminate].
    cbn [rbind] in E. injection E as <-. reflexivity.
  - destruct (sreach_sinv s Hr) as [n I]. eapply op_aligned; [apply (si_XN _ _ I)|exact IH|exact E].
Qed.
