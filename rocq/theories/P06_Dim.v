(** Properties C22 and C45: columns of a mixture. *)
From Verif Require Import ClassFacts GammaWitness ViewFacts RowFacts.
Local Open Scope R_scope.

(* ------------------------------------------------------------------ *)
(** ** C22: what a column holds after any history of calls *)

(** The rows a history of calls leaves inserted, with the cluster, value and
    inputs they were inserted with: read off the calls and their outcomes. *)
Fixpoint ledger {M} (tr : list (dop M * res unit)) (l : Z -> option (Z * cell * list cell))
  : Z -> option (Z * cell * list cell) :=
  match tr with
  | [] => l
  | (DInc r (Some k) x ins, Ok _) :: tr' =>
      ledger tr' (fun r' => if (r' =? r)%Z then Some (k, x, ins) else l r')
  | (DUninc r, Ok _) :: tr' => ledger tr' (fun r' => if (r' =? r)%Z then None else l r')
  | _ :: tr' => ledger tr' l
  end.

(** Nothing is missing. *)
Definition observed (x : cell) (ins : list cell) (v : R) (l : list R) : Prop :=
  x = Some v /\ ins = map Some l.

Lemma all_some_spec ins l : all_some ins = Some l <-> ins = map Some l.
Proof.
  revert l. induction ins as [|i ins IH]; intros l; simpl.
  - split; [intros E; injection E as <-; reflexivity|]. destruct l; [reflexivity|discriminate].
  - destruct i as [v|].
    2:{ split; [discriminate|]. destruct l; discriminate. }
    destruct (all_some ins) as [l'|].
    + split; [intros E; injection E as <-; simpl; f_equal; apply IH; reflexivity|].
      destruct l as [|w l]; [discriminate|]. simpl. intros E. injection E as -> E.
      apply IH in E. injection E as ->. reflexivity.
    + split; [discriminate|]. destruct l as [|w l]; [discriminate|]. simpl.
      intros E. injection E as _ E. apply IH in E. discriminate.
Qed.

Lemma valid_cell_spec x ins : match valid_cell x ins with
  | Some (v, l) => observed x ins v l
  | None => forall v l, ~ observed x ins v l
  end.
Proof.
  unfold valid_cell, observed. destruct x as [v|]; [|intros v l [? _]; discriminate].
  destruct (all_some ins) as [l|] eqn:E.
  - split; [reflexivity|apply all_some_spec; exact E].
  - intros v' l [_ H]. apply all_some_spec in H. congruence.
Qed.

Lemma ledger_ext {M} (tr : list (dop M * res unit)) : forall l1 l2,
  (forall r, l1 r = l2 r) -> forall r, ledger tr l1 r = ledger tr l2 r.
Proof.
  induction tr as [|[o res] tr IH]; intros l1 l2 H; simpl; [exact H|].
  destruct o as [r0 [k|] x ins|r0|h|dr od|g p|], res as [u|e]; apply IH; auto;
    intros r; rewrite H; reflexivity.
Qed.

(** The content of the column for the entries of the ledger. *)
Definition entry (M : model) (e : option (Z * cell * list cell)) : option (Z * option (R * list R)) :=
  match e with
  | None => None
  | Some (k, x, ins) => Some (k, option_map (keep M) (valid_cell x ins))
  end.

Lemma run_content M ops : mlaws M (reach M) -> forall d d' tr l, dinv M (reach M) d ->
  (forall r, content M d r = entry M (l r)) -> dim_run M d ops = (d', tr) ->
  dinv M (reach M) d' /\ forall r, content M d' r = entry M (ledger tr l r).
Proof.
  intros HL. induction ops as [|o ops IH]; intros d d' tr l Hi Hc; simpl.
  { intros E. injection E as <- <-. auto. }
  destruct (dim_step M d o) as [d1 r1] eqn:E1.
  destruct (dim_run M d1 ops) as [d2 tr2] eqn:E2. intros E. injection E as <- <-.
  pose proof (dim_step_inv _ _ HL _ _ _ _ Hi E1) as Hi1.
  assert (Hsame : (forall r, content M d1 r = content M d r) ->
    dinv M (reach M) d2 /\ (forall r, content M d2 r = entry M (ledger tr2 l r))).
  { intros Hs. eapply IH; [exact Hi1| |exact E2]. intros r. rewrite Hs. apply Hc. }
  destruct o as [r0 k x ins|r0|h|dr od|g p|]; simpl in E1.
  - destruct r1 as [[]|e].
    + destruct (dim_inc_ok _ _ HL _ _ _ _ _ _ Hi E1) as [_ [_ [[k0 [-> [_ S]]] _]]].
      simpl. eapply IH; [exact Hi1| |exact E2].
      intros r. rewrite S. destruct (r =? r0)%Z; [reflexivity|apply Hc].
    + destruct (dim_inc_err _ _ HL _ _ _ _ _ _ _ Hi E1) as [_ [S _]].
      simpl. destruct k; apply Hsame; exact S.
  - destruct (content M d r0) as [[k v]|] eqn:Ec.
    + destruct (dim_uninc_ok _ _ HL _ _ _ _ Hi Ec) as [d3 [E3 [_ [S _]]]].
      rewrite E1 in E3. injection E3 as -> ->. simpl. eapply IH; [exact Hi1| |exact E2].
      intros r. rewrite S. destruct (r =? r0)%Z; [reflexivity|apply Hc].
    + rewrite (dim_uninc_none _ _ _ _ Hi Ec) in E1. injection E1 as <- <-. simpl.
      apply Hsame. reflexivity.
  - destruct (set_hypers_same _ _ HL _ _ _ _ E1) as [S _].
    destruct (same_rows_dinv _ _ _ _ Hi S) as [_ S']. destruct r1; apply Hsame; exact S'.
  - destruct (trans_hypers_same _ _ HL _ _ _ _ _ E1) as [S _].
    destruct (same_rows_dinv _ _ _ _ Hi S) as [_ S']. destruct r1; apply Hsame; exact S'.
  - destruct (trans_grids_same _ _ HL _ _ _ _ _ E1) as [S _].
    destruct (same_rows_dinv _ _ _ _ Hi S) as [_ S']. destruct r1; apply Hsame; exact S'.
  - injection E1 as <- <-.
    destruct (same_rows_dinv _ _ _ _ Hi (trans_params_same _ _ HL d)) as [_ S'].
    apply Hsame; exact S'.
Qed.

Lemma content_new M h set ins tape r : content M (dim_new M h set ins tape) r = None.
Proof. reflexivity. Qed.

Theorem C22_rows_partitioned M h set inputs tape ops d tr : known M ->
  dim_run M (dim_new M h set inputs tape) ops = (d, tr) ->
  forall r, match ledger tr (fun _ => None) r with
  | None =>
      (* not inserted: known to no part of the column *)
      dget r (d_zr d) = None /\ dget r (d_zi d) = None /\
      forall k c, dget k (d_clusters d) = Some c -> dget r (m_rows M c) = None
  | Some (k, x, ins) =>
      (* inserted: in cluster [k] and in no other *)
      (forall v l, observed x ins v l ->
         dget r (d_zr d) = Some k /\ dget r (d_zi d) = None /\
         (exists c, dget k (d_clusters d) = Some c /\
            dget r (m_rows M c) = Some (m_keep M v, l)) /\
         forall k' c', dget k' (d_clusters d) = Some c' -> k' <> k ->
           dget r (m_rows M c') = None) /\
      ((forall v l, ~ observed x ins v l) ->
         dget r (d_zi d) = Some k /\ dget r (d_zr d) = None /\
         In k (dkeys (d_clusters d)) /\
         forall k' c', dget k' (d_clusters d) = Some c' -> dget r (m_rows M c') = None)
  end.
Proof.
  intros HM E r. pose proof (known_laws M HM) as HL.
  destruct (run_content M ops HL _ _ _ (fun _ => None) (dinv_new _ _ HL h set inputs tape)
    (fun r => eq_refl) E) as [Hi Hc].
  specialize (Hc r).
  assert (Hnone : dget r (d_zr d) = None ->
    forall k c, dget k (d_clusters d) = Some c -> dget r (m_rows M c) = None).
  { intros Hz k c Ek. destruct (dget r (m_rows M c)) as [w|] eqn:Ew; [|reflexivity].
    rewrite (di_only _ _ _ Hi r k c w Ek Ew) in Hz. discriminate. }
  destruct (ledger tr (fun _ => None) r) as [[[k x] ins]|]; simpl in Hc.
  - pose proof (valid_cell_spec x ins) as V. unfold content in Hc.
    destruct (dget r (d_zi d)) as [k0|] eqn:Ei.
    + injection Hc as -> Hv. destruct (valid_cell x ins) as [[v l]|]; [discriminate|].
      split; [intros v l Hob; destruct (V v l Hob)|]. intros _.
      assert (Hr : dget r (d_zr d) = None).
      { destruct (dget r (d_zr d)) as [k1|] eqn:Er; [|reflexivity].
        rewrite (di_disj _ _ _ Hi r k1 Er) in Ei. discriminate. }
      split; [reflexivity|]. split; [exact Hr|].
      split; [eapply (di_zi _ _ _ Hi); exact Ei|]. intros k' c' Ek'. eapply Hnone; eassumption.
    + destruct (dget r (d_zr d)) as [k0|] eqn:Er; [|discriminate].
      destruct (dget k0 (d_clusters d)) as [c|] eqn:Ec; [|discriminate].
      injection Hc as -> Hv.
      destruct (di_in _ _ _ Hi r k Er) as [c1 [w [Ec1 Ew]]]. rewrite Ec in Ec1. injection Ec1 as <-.
      rewrite Ew in Hv. destruct (valid_cell x ins) as [[v l]|]; [|discriminate].
      simpl in Hv. injection Hv as ->. split.
      * intros v' l' Hob. destruct V as [-> ->]. destruct Hob as [Hx Hl]. injection Hx as <-.
        assert (l' = l) as ->.
        { clear - Hl. revert l' Hl. induction l as [|y l IH]; intros [|y' l'] Hl; try discriminate;
            [reflexivity|]. simpl in Hl. injection Hl as -> Hl. f_equal. apply IH; exact Hl. }
        split; [reflexivity|]. split; [reflexivity|]. split; [eauto|].
        intros k' c' Ek' Hne. destruct (dget r (m_rows M c')) as [w'|] eqn:Ew'; [|reflexivity].
        pose proof (di_only _ _ _ Hi r k' c' w' Ek' Ew'). congruence.
      * intros Hno. destruct (Hno v l V).
  - apply (content_none _ _ _ _ Hi) in Hc. destruct Hc as [H1 H2].
    split; [exact H1|]. split; [exact H2|]. apply Hnone; exact H1.
Qed.
Print Assumptions C22_rows_partitioned.

(** A row can be removed exactly when it is in the ledger, and an inserted row is
    never inserted twice. *)
Theorem C22_removal_and_reinsertion M h set inputs tape ops d tr r : known M ->
  dim_run M (dim_new M h set inputs tape) ops = (d, tr) ->
  (is_ok (snd (dim_step M d (DUninc r))) = true <-> ledger tr (fun _ => None) r <> None) /\
  (ledger tr (fun _ => None) r <> None ->
   forall k x ins, dim_step M d (DInc r k x ins) = (d, Err ValueError)).
Proof.
  intros HM E. pose proof (known_laws M HM) as HL.
  destruct (run_content M ops HL _ _ _ (fun _ => None) (dinv_new _ _ HL h set inputs tape)
    (fun r => eq_refl) E) as [Hi Hc].
  specialize (Hc r). simpl.
  destruct (ledger tr (fun _ => None) r) as [[[k x] ins]|]; simpl in Hc.
  - destruct (dim_uninc_ok _ _ HL _ _ _ _ Hi Hc) as [d2 [E2 _]]. rewrite E2. simpl.
    split; [split; [discriminate|reflexivity]|].
    intros _ k' x' ins'. unfold dim_incorporate.
    assert (Em : dmem r (d_zr d) || dmem r (d_zi d) = true); [|rewrite Em; reflexivity].
    destruct (dmem r (d_zr d) || dmem r (d_zi d)) eqn:Em; [reflexivity|].
    apply in_neither in Em. apply (content_none _ _ _ _ Hi) in Em. congruence.
  - rewrite (dim_uninc_none _ _ _ _ Hi Hc). simpl.
    split; [split; [discriminate|intros H; destruct (H eq_refl)]|intros H; destruct (H eq_refl)].
Qed.
Print Assumptions C22_removal_and_reinsertion.

(** Inserting rows one after the other into one component. *)
Inductive loads (M : model) : mS M -> list (Z * (R * list R)) -> mS M -> Prop :=
| lo_nil s : loads M s [] s
| lo_cons s r v l s1 rest s2 : m_inc M s r v l = (s1, Ok tt) -> loads M s1 rest s2 ->
    loads M s ((r, (v, l)) :: rest) s2.

Lemma loads_ok M c L : mlaws M (reach M) -> reach M c ->
  forall s, reach M s -> NoDup (dkeys L) -> (forall r, In r (dkeys L) -> dget r (m_rows M s) = None) ->
  (forall r v l, In (r, (v, l)) L -> dget r (m_rows M c) = Some (m_keep M v, l)) ->
  exists s2, loads M s L s2 /\ reach M s2 /\ m_hyp M s2 = m_hyp M s /\ m_par M s2 = m_par M s /\
    forall r, dget r (m_rows M s2) =
      match dget r L with Some (v, l) => Some (m_keep M v, l) | None => dget r (m_rows M s) end.
Proof.
  intros HL Hc. induction L as [|[r [v l]] L IH]; intros s Hs Hn Hf Hin.
  { exists s. split; [constructor|]. split; [exact Hs|]. auto. }
  inversion Hn; subst.
  destruct (ml_again _ _ HL c r v l Hc (Hin r v l (or_introl eq_refl)) s r) as [s1 E1].
  { apply Hf. left; reflexivity. }
  destruct (ml_inc _ _ HL _ _ _ _ _ Hs E1) as [G1 [_ [G3 [G4 G5]]]].
  destruct (IH s1 G1) as [s2 [L2 [R2 [Y2 [P2 D2]]]]]; [assumption| | |].
  - intros r' Hr'. rewrite G3, dget_dset_other; [apply Hf; right; exact Hr'|].
    intros ->. contradiction.
  - intros r' v' l' Hr'. apply Hin. right; exact Hr'.
  - exists s2. split; [econstructor; eassumption|]. split; [exact R2|].
    split; [congruence|]. split; [congruence|].
    intros r'. rewrite D2. simpl. destruct (Z.eqb_spec r' r) as [->|Hne].
    + assert (E : dget r L = None) by (apply dget_None_notin; assumption). rewrite E, G3.
      apply dget_dset_same.
    + destruct (dget r' L) as [[v' l']|]; [reflexivity|]. rewrite G3. apply dget_dset_other; exact Hne.
Qed.

(** The statistics of a cluster are those of its observed rows: loading exactly
    these, in any order, into a fresh component gives the same score and the same
    predictive densities. *)
Theorem C22_cluster_statistics M h set inputs tape ops d tr k c L : known M ->
  dim_run M (dim_new M h set inputs tape) ops = (d, tr) ->
  dget k (d_clusters d) = Some c -> NoDup (dkeys L) ->
  (forall r v l, In (r, (v, l)) L <-> exists x ins,
     ledger tr (fun _ => None) r = Some (k, x, ins) /\ observed x ins v l) ->
  exists s, loads M (m_new M (m_hyp M c) (m_par M c)) L s /\
    m_score M s = m_score M c /\ forall r x l, m_logpdf M s r x l = m_logpdf M c r x l.
Proof.
  intros HM E Ek Hn HL0. pose proof (known_laws M HM) as HL.
  pose proof (C22_rows_partitioned M h set inputs tape ops d tr HM E) as HP.
  destruct (run_content M ops HL _ _ _ (fun _ => None) (dinv_new _ _ HL h set inputs tape)
    (fun r => eq_refl) E) as [Hi _].
  pose proof (di_good _ _ _ Hi k c Ek) as Hc.
  destruct (ml_new _ _ HL (m_hyp M c) (m_par M c)) as [N1 [N2 [N3 N4]]].
  assert (Hin : forall r v l, In (r, (v, l)) L -> dget r (m_rows M c) = Some (m_keep M v, l)).
  { intros r v l Hr. apply HL0 in Hr. destruct Hr as [x [ins [Hl Ho]]].
    specialize (HP r). rewrite Hl in HP. destruct HP as [HP _].
    destruct (HP v l Ho) as [_ [_ [[c' [Ec' Hv]] _]]]. congruence. }
  destruct (loads_ok M c L HL Hc _ N1 Hn) as [s [Ls [Rs [Hs [Ps Ds]]]]].
  - intros r _. rewrite N2. reflexivity.
  - exact Hin.
  - exists s. split; [exact Ls|]. apply (ml_ext _ _ HL); auto; try congruence.
    intros r. rewrite Ds, N2. simpl. destruct (dget r L) as [[v l]|] eqn:El.
    + symmetry. apply Hin. apply dget_In; exact El.
    + symmetry. destruct (dget r (m_rows M c)) as [w|] eqn:Ew; [|reflexivity]. exfalso.
      pose proof (di_only _ _ _ Hi r k c w Ek Ew) as Hz. specialize (HP r).
      destruct (ledger tr (fun _ => None) r) as [[[k0 x] ins]|] eqn:Hl.
      * destruct HP as [H1 H2]. pose proof (valid_cell_spec x ins) as V.
        destruct (valid_cell x ins) as [[v l]|].
        -- destruct (H1 v l V) as [Z1 _]. rewrite Hz in Z1. injection Z1 as ->.
           assert (In (r, (v, l)) L) by (apply HL0; eauto).
           apply (dget_In_NoDup _ _ _ Hn) in H. congruence.
        -- destruct (H2 V) as [_ [Z1 _]]. congruence.
      * destruct HP as [Z1 _]. congruence.
Qed.
Print Assumptions C22_cluster_statistics.

(** Example: a column of the Normal class with four rows, one of them missing, one
    inserted and removed again; and two refused insertions (no cluster given, and
    a row that is there already). *)
Definition ex_ops (M : model) (u v w : R) : list (dop M) :=
  [DInc 0 (Some 5%Z) (Some v) []; DInc 1 (Some 5%Z) None [];
   DInc 2 (Some 7%Z) (Some u) []; DInc 3 (Some 8%Z) (Some w) []; DUninc 2;
   DInc 4 None (Some v) []; DInc 0 (Some 7%Z) (Some v) []].

Example C22_ex : forall lgam h u v w,
  let out := dim_run (M_normal lgam) (dim_new (M_normal lgam) h true [] (fun _ => tt))
    (ex_ops (M_normal lgam) u v w) in
  map (fun p => is_ok (snd p)) (snd out) = [true; true; true; true; true; false; false] /\
  ledger (snd out) (fun _ => None) 0 = Some (5%Z, Some v, []) /\
  ledger (snd out) (fun _ => None) 1 = Some (5%Z, None, []) /\
  ledger (snd out) (fun _ => None) 2 = None /\
  dkeys (d_clusters (fst out)) = [5; 7; 8]%Z /\
  d_zr (fst out) = [(0, 5); (3, 8)]%Z /\ d_zi (fst out) = [(1, 5)]%Z.
Proof. intros. repeat (split; [vm_compute; reflexivity|]). vm_compute; reflexivity. Qed.

(* ------------------------------------------------------------------ *)
(** ** C45: hyperparameters *)

(** Every cluster, and the component that the next new cluster will be, uses the
    hyperparameters of the column. *)
Definition agree {M} (d : dim M) : Prop :=
  m_hyp M (d_aux d) = d_hyp d /\
  forall k c, dget k (d_clusters d) = Some c -> m_hyp M c = d_hyp d.

Lemma agree_inc M d r k x ins d' res : mlaws M (reach M) -> dinv M (reach M) d -> agree d ->
  dim_incorporate M d r k x ins = (d', res) -> agree d' /\ d_hyp d' = d_hyp d.
Proof.
  intros HL Hi [A1 A2]. unfold dim_incorporate.
  destruct (dmem r (d_zr d) || dmem r (d_zi d)); [intros E; injection E as <- _; repeat split; auto|].
  destruct k as [k|]; [|intros E; injection E as <- _; repeat split; auto].
  destruct (dinv_open M _ HL d k Hi) as [Hi1 _].
  assert (HO : agree (open_cluster M d k) /\ d_hyp (open_cluster M d k) = d_hyp d).
  { unfold open_cluster. destruct (dmem k (d_clusters d)); [repeat split; auto|].
    repeat split; simpl.
    - apply (ml_new _ _ HL).
    - intros k' c. rewrite dget_dset. destruct (k' =? k)%Z; [|apply A2].
      intros E. injection E as <-. exact A1. }
  set (d1 := open_cluster M d k) in *. destruct HO as [[B1 B2] B3].
  destruct (valid_cell x ins) as [[v l]|].
  2:{ intros E. injection E as <- <-. repeat split; simpl; auto. }
  destruct (dget k (d_clusters d1)) as [c|] eqn:Ek; [|intros E; injection E as <- _; repeat split; auto].
  destruct (m_inc M c r v l) as [c' rr] eqn:Em.
  assert (Hh : m_hyp M c' = d_hyp d1).
  { destruct rr as [[]|e].
    - destruct (ml_inc _ _ HL _ _ _ _ _ (di_good _ _ _ Hi1 k c Ek) Em) as [_ [_ [_ [H _]]]].
      rewrite H. apply (B2 k c Ek).
    - apply (ml_inc_err _ _ HL) in Em. rewrite Em. apply (B2 k c Ek). }
  assert (HS : agree (set_clusters d1 (dset k c' (d_clusters d1)))).
  { split; [exact B1|]. intros k' c2. simpl. rewrite dget_dset.
    destruct (k' =? k)%Z; [|apply B2]. intros E. injection E as <-. exact Hh. }
  destruct rr as [u|e]; intros E; injection E as <- <-; split; auto.
Qed.

Lemma agree_uninc M d r d' res : mlaws M (reach M) -> dinv M (reach M) d -> agree d ->
  dim_unincorporate M d r = (d', res) -> agree d' /\ d_hyp d' = d_hyp d.
Proof.
  intros HL Hi [A1 A2]. unfold dim_unincorporate.
  destruct (dmem r (d_zi d)); [intros E; injection E as <- _; repeat split; auto|].
  destruct (dget r (d_zr d)) as [k|] eqn:Er; [|intros E; injection E as <- _; repeat split; auto].
  destruct (dget k (d_clusters d)) as [c|] eqn:Ek; [|intros E; injection E as <- _; repeat split; auto].
  destruct (m_uninc M c r) as [c' rr] eqn:Em.
  assert (Hh : m_hyp M c' = d_hyp d).
  { destruct (dget r (m_rows M c)) as [w|] eqn:Ew.
    - destruct (ml_uninc _ _ HL c r w (di_good _ _ _ Hi k c Ek) Ew) as [c2 [E2 [_ [_ [H _]]]]].
      rewrite Em in E2. injection E2 as <- _. rewrite H. apply (A2 k c Ek).
    - destruct (ml_uninc_none _ _ HL c r Ew) as [e E2]. rewrite Em in E2. injection E2 as -> _.
      apply (A2 k _ Ek). }
  assert (HS : agree (set_clusters d (dset k c' (d_clusters d)))).
  { split; [exact A1|]. intros k' c2. simpl. rewrite dget_dset.
    destruct (k' =? k)%Z; [|apply A2]. intros E. injection E as <-. exact Hh. }
  destruct rr as [u|e]; intros E; injection E as <- <-; split; auto.
Qed.

Lemma agree_params M d : mlaws M (reach M) -> agree d ->
  agree (dim_transition_params M d) /\ d_hyp (dim_transition_params M d) = d_hyp d.
Proof.
  intros HL [A1 A2]. split; [|reflexivity]. split; [exact A1|]. simpl.
  destruct (set_params_spec M (d_tape d) (d_pos d) (d_clusters d)) as [K B].
  intros k c Hc.
  assert (Hin : In k (dkeys (d_clusters d))) by (rewrite <- K; eapply dget_Some_in; exact Hc).
  apply in_dkeys_Some in Hin. destruct Hin as [c0 H0]. destruct (B k c0 H0) as [q Hq].
  rewrite Hc in Hq. injection Hq as ->.
  destruct (ml_par_set _ _ HL c0 q) as [_ [_ ->]]. apply (A2 k c0 H0).
Qed.

(** The calls made between two hyperparameter changes: rows come and go, and
    parameters are resampled. *)
Definition row_op {M} (o : dop M) : Prop :=
  match o with DInc _ _ _ _ | DUninc _ | DTransParams => True | _ => False end.

Lemma agree_run M ops : mlaws M (reach M) -> forall d d' tr, dinv M (reach M) d -> agree d ->
  Forall row_op ops -> dim_run M d ops = (d', tr) -> agree d' /\ d_hyp d' = d_hyp d.
Proof.
  intros HL. induction ops as [|o ops IH]; intros d d' tr Hi Ha Hops; simpl.
  { intros E. injection E as <- <-. auto. }
  destruct (dim_step M d o) as [d1 r1] eqn:E1.
  destruct (dim_run M d1 ops) as [d2 tr2] eqn:E2. intros E. injection E as <- <-.
  pose proof (dim_step_inv _ _ HL _ _ _ _ Hi E1) as Hi1. inversion Hops as [|o' l' Ho Hl]; subst.
  assert (H1 : agree d1 /\ d_hyp d1 = d_hyp d).
  { destruct o as [r0 k x ins|r0|h|dr od|g p|]; simpl in E1, Ho; try contradiction.
    - exact (agree_inc M d r0 k x ins d1 r1 HL Hi Ha E1).
    - exact (agree_uninc M d r0 d1 r1 HL Hi Ha E1).
    - injection E1 as <- <-. apply agree_params; assumption. }
  destruct H1 as [H1 H2]. destruct (IH _ _ _ Hi1 H1 Hl E2) as [H3 H4]. split; congruence || auto.
Qed.

Lemma run_inv M ops : mlaws M (reach M) -> forall d d' tr, dinv M (reach M) d ->
  dim_run M d ops = (d', tr) -> dinv M (reach M) d'.
Proof.
  intros HL. induction ops as [|o ops IH]; intros d d' tr Hi; simpl.
  { intros E. injection E as <- <-. exact Hi. }
  destruct (dim_step M d o) as [d1 r1] eqn:E1.
  destruct (dim_run M d1 ops) as [d2 tr2] eqn:E2. intros E. injection E as <- <-.
  eapply IH; [|exact E2]. eapply dim_step_inv; eassumption.
Qed.

(** Whatever happened before, after a hyperparameter transition all clusters use the
    column's hyperparameters, and go on doing so, whatever rows come and go. *)
Theorem C45_transition_agreement M h set inputs tape before d tr draws order d1 after d2 tr2 :
  known M -> dim_run M (dim_new M h set inputs tape) before = (d, tr) ->
  dim_transition_hypers M draws order d = (d1, Ok tt) ->
  Forall row_op after -> dim_run M d1 after = (d2, tr2) ->
  d_hyp d2 = d_hyp d1 /\ m_hyp M (d_aux d2) = d_hyp d2 /\
  forall k c, dget k (d_clusters d2) = Some c -> m_hyp M c = d_hyp d2.
Proof.
  intros HM E0 E1 Ha E2. pose proof (known_laws M HM) as HL.
  pose proof (run_inv M _ HL _ _ _ (dinv_new _ _ HL h set inputs tape) E0) as Hi.
  destruct (trans_hypers_same _ _ HL _ _ _ _ _ E1) as [S [_ [_ Hag]]].
  destruct (same_rows_dinv _ _ _ _ Hi S) as [Hi1 _].
  destruct (agree_run M after HL _ _ _ Hi1 (Hag eq_refl) Ha E2) as [[A B] C]. auto.
Qed.
Print Assumptions C45_transition_agreement.

(** A new column starts out in agreement. *)
Theorem C45_initial_agreement M h set inputs tape ops d tr : known M -> Forall row_op ops ->
  dim_run M (dim_new M h set inputs tape) ops = (d, tr) ->
  d_hyp d = h /\ forall k c, dget k (d_clusters d) = Some c -> m_hyp M c = h.
Proof.
  intros HM Ho E. pose proof (known_laws M HM) as HL.
  assert (Ha : agree (dim_new M h set inputs tape)).
  { split; simpl; [apply (ml_new _ _ HL)|discriminate]. }
  destruct (agree_run M ops HL _ _ _ (dinv_new _ _ HL h set inputs tape) Ha Ho E) as [[A B] C].
  simpl in C. split; [exact C|]. intros k c Hc. rewrite <- C. exact (B k c Hc).
Qed.
Print Assumptions C45_initial_agreement.

(** Setting hyperparameters explicitly reaches the clusters that exist.  The full
    claim also covers the clusters created later; that part is false, see below. *)
Theorem C45_explicit_partial M h set inputs tape before d tr h1 d1 : known M ->
  dim_run M (dim_new M h set inputs tape) before = (d, tr) ->
  dim_set_hypers M d h1 = (d1, Ok tt) ->
  d_hyp d1 = h1 /\ forall k c, dget k (d_clusters d1) = Some c -> m_hyp M c = h1.
Proof.
  intros HM _ E. pose proof (known_laws M HM) as HL.
  destruct (set_hypers_same _ _ HL _ _ _ _ E) as [_ [A [_ [_ [_ B]]]]].
  split; [exact A|exact (B eq_refl)].
Qed.
Print Assumptions C45_explicit_partial.

(** A cluster created after an explicit setting uses the hyperparameters from
    before it, whatever the column. *)
Theorem C45_explicit_stale M h set inputs tape before d tr h1 d1 r k x ins d2 c : known M ->
  dim_run M (dim_new M h set inputs tape) before = (d, tr) -> agree d ->
  dim_set_hypers M d h1 = (d1, Ok tt) ->
  ~ In k (dkeys (d_clusters d1)) ->
  dim_incorporate M d1 r (Some k) x ins = (d2, Ok tt) ->
  dget k (d_clusters d2) = Some c ->
  d_hyp d2 = h1 /\ m_hyp M c = d_hyp d.
Proof.
  intros HM E0 [Ha _] E1 Hk E2 Hc. pose proof (known_laws M HM) as HL.
  pose proof (run_inv M _ HL _ _ _ (dinv_new _ _ HL h set inputs tape) E0) as Hi.
  destruct (set_hypers_same _ _ HL _ _ _ _ E1) as [S [A [_ [B [_ _]]]]].
  destruct (same_rows_dinv _ _ _ _ Hi S) as [Hi1 _].
  destruct (dim_inc_ok _ _ HL _ _ _ _ _ _ Hi1 E2) as [_ [_ [_ [H3 _]]]].
  split; [congruence|]. rewrite <- Ha, <- B.
  unfold dim_incorporate in E2. destruct (dmem r (d_zr d1) || dmem r (d_zi d1)); [discriminate|].
  unfold open_cluster in E2. replace (dmem k (d_clusters d1)) with false in E2
    by (symmetry; apply dmem_false; exact Hk).
  destruct (valid_cell x ins) as [[v l]|]; simpl in E2.
  - rewrite dget_dset_same in E2. destruct (m_inc M (d_aux d1) r v l) as [c' rr] eqn:Em.
    destruct rr as [[]|]; [|discriminate]. injection E2 as <-. simpl in Hc.
    rewrite dget_dset_same in Hc. injection Hc as <-.
    destruct (di_aux _ _ _ Hi1) as [G _].
    destruct (ml_inc _ _ HL _ _ _ _ _ G Em) as [_ [_ [_ [H _]]]]. exact H.
  - injection E2 as <-. simpl in Hc. rewrite dget_dset_same in Hc. injection Hc as <-. reflexivity.
Qed.
Print Assumptions C45_explicit_stale.

(** The witness: a Normal column, new hyperparameters, and then a row in a new
    cluster, which is left with the old ones. *)
Lemma stale_run lgam h h1 x :
  let out := dim_run (M_normal lgam) (dim_new (M_normal lgam) h true [] (fun _ => tt))
    [DSetHypers h1; DInc 0 (Some 5%Z) (Some x) []] in
  map snd (snd out) = [Ok tt; Ok tt] /\ d_hyp (fst out) = h1 /\
  option_map (m_hyp (M_normal lgam)) (dget 5%Z (d_clusters (fst out))) = Some h.
Proof. repeat split; vm_compute; reflexivity. Qed.

Theorem C45_explicit_refuted : exists M h tape h1 ops d tr k c,
  known M /\ Forall row_op ops /\
  dim_run M (dim_new M h true [] tape) (DSetHypers h1 :: ops) = (d, tr) /\
  Forall (fun p => snd p = Ok tt) tr /\
  dget k (d_clusters d) = Some c /\ m_hyp M c <> d_hyp d.
Proof.
  pose proof (stale_run (fun _ => 0) (NHyp 0 1 1 1) (NHyp 1 1 1 1) 0) as H. cbv zeta in H.
  destruct H as [H1 [H2 H3]].
  exists (M_normal (fun _ => 0)), (NHyp 0 1 1 1), (fun _ => tt), (NHyp 1 1 1 1),
    [DInc 0 (Some 5%Z) (Some 0) []].
  set (out := dim_run _ _ _) in *.
  destruct (dget 5%Z (d_clusters (fst out))) as [c|] eqn:Ec; [|discriminate].
  exists (fst out), (snd out), 5%Z, c. split; [constructor|].
  split; [repeat constructor|]. split; [apply surjective_pairing|]. split.
  { clear - H1. set (l := snd out) in *. clearbody l. clear out.
    destruct l as [|[o1 r1] [|[o2 r2] [|]]]; try discriminate. simpl in H1.
    injection H1 as -> ->. repeat constructor. }
  split; [exact Ec|]. simpl in H3. injection H3 as H3. intros E.
  assert (HN : NHyp 0 1 1 1 = NHyp 1 1 1 1).
  { rewrite <- H2. exact (eq_trans (eq_sym H3) E). }
  injection HN as HN. lra.
Qed.
Print Assumptions C45_explicit_refuted.

(** *** The drawn values *)

(** [get i h] is the i-th hyperparameter, in the order of the constructor. *)
Inductive readable : forall M : model, (nat -> mH M -> R) -> Prop :=
| rd_bernoulli lgam : readable (M_bernoulli lgam) (fun i h => nth i [fst h; snd h] 0)
| rd_categorical lgam k : readable (M_categorical lgam k) (fun i h => nth i [h] 0)
| rd_geometric lgam : readable (M_geometric lgam) (fun i h => nth i [fst h; snd h] 0)
| rd_exponential lgam : readable (M_exponential lgam) (fun i h => nth i [fst h; snd h] 0)
| rd_poisson lgam : readable (M_poisson lgam) (fun i h => nth i [fst h; snd h] 0)
| rd_normal lgam : readable (M_normal lgam)
    (fun i h => nth i [n_m h; n_r h; n_s h; n_nu h] 0)
| rd_lognormal lgam : readable (M_lognormal lgam)
    (fun i h => nth i [n_m h; n_r h; n_s h; n_nu h] 0)
| rd_vonmises lbes : readable (M_vonmises lbes) (fun i h => nth i [v_a h; v_b h; v_k h] 0).

Lemma readable_known M get : readable M get -> known M.
Proof. intros H; destruct H; constructor. Qed.

Lemma readable_lens M get : readable M get -> forall i j v h,
  (j < m_nhyp M)%nat -> get i (m_hset M j v h) = if Nat.eqb i j then v else get i h.
Proof.
  intros H i j v h Hj. destruct H; simpl in *.
  all: destruct j as [|[|[|[|j]]]]; try (exfalso; lia);
    destruct i as [|[|[|[|i]]]]; simpl; try reflexivity.
Qed.

Lemma hset_twice M get : readable M get -> forall i v v' h,
  m_hset M i v (m_hset M i v' h) = m_hset M i v h.
Proof.
  intros H i v v' h. destruct H; simpl in *; destruct i as [|[|[|[|i]]]]; reflexivity.
Qed.

Lemma set_hypers_any M : known M -> forall s h s', m_set_hypers M s h = (s', Ok tt) ->
  forall s2, exists s2', m_set_hypers M s2 h = (s2', Ok tt).
Proof.
  intros HM. destruct HM; simpl; intros s h s' E s2; try (eexists; reflexivity);
    unfold prim_set_hypers in *; match type of E with (if ?b then _ else _) = _ => destruct b end;
    try discriminate; eexists; reflexivity.
Qed.

(** Clusters that hold the same rows with the same parameters. *)
Definition alike M (p q : Z * mS M) : Prop :=
  fst p = fst q /\ (reach M (snd p) /\ reach M (snd q)) /\
  m_rows M (snd p) = m_rows M (snd q) /\ m_par M (snd p) = m_par M (snd q).

Lemma set_alike M : known M -> forall h cs cs0, Forall2 (alike M) cs cs0 ->
  forall cs', clusters_set_hypers M cs h = (cs', Ok tt) ->
  exists cs0', clusters_set_hypers M cs0 h = (cs0', Ok tt) /\
    Forall2 (alike M) cs' cs0 /\ Forall2 (alike M) cs' cs0' /\
    Forall (fun p => m_hyp M (snd p) = h) cs' /\ Forall (fun p => m_hyp M (snd p) = h) cs0'.
Proof.
  intros HM h cs cs0 H. pose proof (known_laws M HM) as HL.
  induction H as [|[k c] [k0 c0] cs cs0 [A [[B1 B2] [C D]]] _ IH]; simpl; intros cs' E.
  { injection E as <-. exists []. repeat split; constructor. }
  simpl in *. subst k0. destruct (m_set_hypers M c h) as [c1 [[]|]] eqn:E1; [|discriminate].
  destruct (clusters_set_hypers M cs h) as [cs2 r2] eqn:E2. injection E as <- ->.
  destruct (IH _ eq_refl) as [cs0' [F1 [F2 [F3 [F4 F5]]]]].
  destruct (set_hypers_any M HM _ _ _ E1 c0) as [c0' E0]. rewrite E0, F1.
  destruct (ml_set _ _ HL _ _ _ E1) as [G1 [G2 [G3 G4]]].
  destruct (ml_set _ _ HL _ _ _ E0) as [K1 [K2 [K3 K4]]].
  exists ((k, c0') :: cs0'). split; [reflexivity|].
  split; [constructor; [repeat split; simpl; auto; congruence|exact F2]|].
  split; [constructor; [repeat split; simpl; auto; congruence|exact F3]|].
  split; constructor; simpl; auto.
Qed.

Lemma score_alike M : known M -> forall h cs cs0, Forall2 (alike M) cs cs0 ->
  Forall (fun p => m_hyp M (snd p) = h) cs -> Forall (fun p => m_hyp M (snd p) = h) cs0 ->
  map (m_score M) (dvals cs) = map (m_score M) (dvals cs0).
Proof.
  intros HM h cs cs0 H. pose proof (known_laws M HM) as HL.
  induction H as [|p q cs cs0 [A [[B1 B2] [C D]]] _ IH]; simpl; [reflexivity|].
  intros H1 H2. inversion H1; inversion H2; subst. f_equal; [|apply IH; assumption].
  destruct (ml_ext _ _ HL (snd p) (snd q) B1 B2) as [E _]; [intros r; rewrite C; reflexivity|congruence|exact D|exact E].
Qed.

Lemma grid_scores_exact M get : readable M get -> forall i d0 vs d d' logps,
  Forall2 (alike M) (d_clusters d) (d_clusters d0) ->
  (forall v, m_hset M i v (d_hyp d) = m_hset M i v (d_hyp d0)) ->
  grid_scores M d i vs = (d', Ok logps) ->
  Forall2 (fun v s => exists dv, dim_set_hypers M d0 (m_hset M i v (d_hyp d0)) = (dv, Ok tt) /\
                        dim_score M dv = Ok s) vs logps /\
  (forall v, m_hset M i v (d_hyp d') = m_hset M i v (d_hyp d0)).
Proof.
  intros Hr i d0. pose proof (readable_known _ _ Hr) as HM.
  induction vs as [|v vs IH]; intros d d' logps Ha Hh; simpl.
  { intros E. injection E as <- <-. split; [constructor|exact Hh]. }
  unfold grid_score, dim_set_hypers. simpl. rewrite Hh.
  destruct (clusters_set_hypers M (d_clusters d) (m_hset M i v (d_hyp d0))) as [cs [[]|]] eqn:Ec.
  2:{ discriminate. }
  destruct (set_alike M HM _ _ _ Ha _ Ec) as [cs0 [E0 [F1 [F2 [F3 F4]]]]].
  destruct (dim_score M (set_clusters (set_hyp d (m_hset M i v (d_hyp d0))) cs)) as [s|] eqn:Es;
    [|discriminate].
  destruct (grid_scores M _ i vs) as [d2 r2] eqn:E2.
  destruct r2 as [l|]; [|discriminate]. intros E. injection E as <- <-.
  destruct (IH (set_clusters (set_hyp d (m_hset M i v (d_hyp d0))) cs) _ _ F1 (fun w => hset_twice _ _ Hr i w v (d_hyp d0)) E2) as [G1 G2].
  split; [|exact G2]. constructor; [|exact G1]. unfold dim_set_hypers. simpl. rewrite E0.
  eexists. split; [reflexivity|]. rewrite <- Es. unfold dim_score. simpl.
  f_equal. symmetry. eapply score_alike; eassumption.
Qed.

Lemma alike_refl M (d : dim M) : dinv M (reach M) d -> Forall2 (alike M) (d_clusters d) (d_clusters d).
Proof.
  intros Hi. assert (H : forall k c, In (k, c) (d_clusters d) -> reach M c).
  { intros k c Hin. apply (di_good _ _ _ Hi k c). apply dget_In_NoDup; [|exact Hin].
    apply (di_nc _ _ _ Hi). }
  revert H. generalize (d_clusters d). intros l. induction l as [|[k c] l IH]; intros H; constructor.
  - repeat split; simpl; apply (H k c); left; reflexivity.
  - apply IH. intros k' c' Hin. apply (H k' c'). right; exact Hin.
Qed.

(** One step: the weights are the scores of the column under each of the grid
    values, and the new value is the one drawn with those weights. *)
Theorem C45_grid_weights M get h set inputs tape ops d tr draw i d' : readable M get ->
  dim_run M (dim_new M h set inputs tape) ops = (d, tr) ->
  transition_hyper M draw d i = (d', Ok tt) ->
  exists grid logps v,
    nth_error (d_grids d) i = Some grid /\
    Forall2 (fun v s => exists dv,
      dim_set_hypers M d (m_hset M i v (d_hyp d)) = (dv, Ok tt) /\ dim_score M dv = Ok s)
      grid logps /\
    log_pflip draw logps grid = Ok v /\ d_hyp d' = m_hset M i v (d_hyp d).
Proof.
  intros Hr E0 E. pose proof (readable_known _ _ Hr) as HM. pose proof (known_laws M HM) as HL.
  pose proof (run_inv M _ HL _ _ _ (dinv_new _ _ HL h set inputs tape) E0) as Hi.
  unfold transition_hyper in E. destruct (nth_error (d_grids d) i) as [grid|]; [|discriminate].
  destruct (grid_scores M d i grid) as [d1 r] eqn:Eg.
  destruct r as [logps|]; simpl in E; [|discriminate].
  destruct (log_pflip draw logps grid) as [v|] eqn:Ev; [|discriminate]. injection E as <-.
  destruct (grid_scores_exact M get Hr i d grid d d1 logps (alike_refl M d Hi)
    (fun v => eq_refl) Eg) as [G1 G2].
  exists grid, logps, v. split; [reflexivity|]. split; [exact G1|]. split; [exact Ev|].
  simpl. apply G2.
Qed.
Print Assumptions C45_grid_weights.

Lemma grid_scores_hyp M i vs : forall d d' r, grid_scores M d i vs = (d', r) ->
  forall get, readable M get -> (i < m_nhyp M)%nat ->
  forall j, j <> i -> get j (d_hyp d') = get j (d_hyp d).
Proof.
  induction vs as [|v vs IH]; intros d d' r; simpl.
  { intros E. injection E as <- <-. reflexivity. }
  unfold grid_score. destruct (dim_set_hypers M d (m_hset M i v (d_hyp d))) as [d1 r1] eqn:E1.
  assert (H1 : d_hyp d1 = m_hset M i v (d_hyp d)).
  { unfold dim_set_hypers in E1. simpl in E1.
    destruct (clusters_set_hypers M (d_clusters d) _). injection E1 as <- _. reflexivity. }
  intros E get Hr Hi j Hj.
  assert (H2 : get j (d_hyp d1) = get j (d_hyp d)).
  { rewrite H1, (readable_lens _ _ Hr) by exact Hi.
    apply Nat.eqb_neq in Hj. rewrite Hj. reflexivity. }
  destruct r1 as [u|e]; [|injection E as <- _; exact H2].
  destruct (dim_score M d1); [|injection E as <- _; exact H2].
  destruct (grid_scores M d1 i vs) as [d2 r2] eqn:E2. injection E as <- _.
  rewrite <- H2. eapply IH; eassumption.
Qed.

Lemma each_from_grid M get : readable M get -> forall draws order d d',
  (forall i, In i order -> (i < m_nhyp M)%nat) ->
  transition_each M draws d order = (d', Ok tt) ->
  d_grids d' = d_grids d /\
  (forall i, In i order -> exists g, nth_error (d_grids d) i = Some g /\ In (get i (d_hyp d')) g) /\
  (forall i, ~ In i order -> get i (d_hyp d') = get i (d_hyp d)).
Proof.
  intros Hr draws. pose proof (known_laws M (readable_known _ _ Hr)) as HL.
  induction order as [|i order IH]; intros d d' Hlt; simpl.
  { intros E. injection E as <-. repeat split. contradiction. }
  destruct (transition_hyper M (draws (length order)) d i) as [d1 r1] eqn:E1.
  destruct r1 as [[]|]; [|discriminate]. intros E.
  destruct (IH d1 d') as [I0 [I1 I2]]; [intros j Hj; apply Hlt; right; exact Hj|exact E|].
  unfold transition_hyper in E1. destruct (nth_error (d_grids d) i) as [grid|] eqn:Eg; [|discriminate].
  destruct (grid_scores M d i grid) as [d2 r2] eqn:E2.
  destruct (grid_scores_same _ _ HL _ _ _ _ _ E2) as [_ [_ [Hg _]]].
  destruct r2 as [logps|]; simpl in E1; [|discriminate].
  destruct (log_pflip (draws (length order)) logps grid) as [v|] eqn:Ev; [|discriminate].
  injection E1 as <-. simpl in *. apply log_pflip_in in Ev.
  assert (Hi : (i < m_nhyp M)%nat) by (apply Hlt; left; reflexivity).
  assert (Hlens : forall j, get j (m_hset M i v (d_hyp d2)) =
    if Nat.eqb j i then v else get j (d_hyp d)).
  { intros j. rewrite (readable_lens _ _ Hr) by exact Hi. destruct (Nat.eqb j i) eqn:Ej; [reflexivity|].
    apply Nat.eqb_neq in Ej. eapply grid_scores_hyp; eassumption. }
  split; [congruence|]. split.
  - intros j [<-|Hj]; [|rewrite <- Hg; apply I1; exact Hj].
    destruct (in_dec Nat.eq_dec i order) as [Hin|Hout].
    + rewrite <- Hg. apply I1. exact Hin.
    + exists grid. split; [exact Eg|]. rewrite (I2 i Hout), Hlens, Nat.eqb_refl. exact Ev.
  - intros j Hj. rewrite I2 by (intros Hin; apply Hj; right; exact Hin).
    rewrite Hlens. destruct (Nat.eqb j i) eqn:Ej; [|reflexivity].
    apply Nat.eqb_eq in Ej. subst j. exfalso. apply Hj. left; reflexivity.
Qed.

(** After a transition each hyperparameter has a value of its grid, whatever the
    order in which they were visited and whatever was drawn. *)
Theorem C45_drawn_from_grid M get d draws order d' : readable M get ->
  Permutation order (seq 0 (m_nhyp M)) ->
  dim_transition_hypers M draws order d = (d', Ok tt) ->
  d_grids d' = d_grids d /\
  forall i, (i < m_nhyp M)%nat ->
    exists g, nth_error (d_grids d) i = Some g /\ In (get i (d_hyp d')) g.
Proof.
  intros Hr Hp. unfold dim_transition_hypers.
  destruct (transition_each M draws d order) as [d1 r1] eqn:E1.
  destruct r1 as [[]|]; [|discriminate].
  pose proof (known_laws M (readable_known _ _ Hr)) as HL.
  destruct (each_from_grid M get Hr draws order d d1) as [A [B _]]; [|exact E1|].
  { intros i Hi. apply (Permutation_in _ Hp) in Hi. apply in_seq in Hi. lia. }
  destruct (dim_set_hypers M d1 (d_hyp d1)) as [d2 r2] eqn:E2.
  destruct (set_hypers_same _ _ HL _ _ _ _ E2) as [_ [H1 [_ [_ [H2 _]]]]].
  destruct r2 as [[]|]; [|discriminate]. intros E. injection E as <-. simpl.
  split; [congruence|]. intros i Hi. rewrite H1. apply B.
  apply (Permutation_in _ (Permutation_sym Hp)). apply in_seq. lia.
Qed.
Print Assumptions C45_drawn_from_grid.

(** *** Transitions succeed

    The theorems above speak of transitions that return.  They do, for the
    collapsed classes other than the von Mises, as long as the grids are
    non-empty and offer only values that the class accepts. *)
Lemma collapsed_set M h : collapsed M h -> forall s, exists s', m_set_hypers M s h = (s', Ok tt).
Proof.
  intros H s. destruct H; simpl in *; unfold prim_set_hypers; simpl;
    rewrite ?pair_hok by assumption; rewrite ?nhyp_hok by assumption;
    try (eexists; reflexivity).
  - rewrite (proj2 (Rltb_true 0 h)) by assumption. eexists; reflexivity.
  - rewrite (proj2 (Rltb_true 0 (v_a h))) by assumption.
    rewrite (proj2 (Rltb_true 0 (v_b h))) by lra.
    rewrite (proj2 (Rleb_true 0 (v_b h))) by lra.
    rewrite (proj2 (Rleb_true (v_b h) (2 * PI))) by lra. eexists; reflexivity.
Qed.

Lemma clusters_set_total M h : (forall s, exists s', m_set_hypers M s h = (s', Ok tt)) ->
  forall cs, exists cs', clusters_set_hypers M cs h = (cs', Ok tt).
Proof.
  intros H. induction cs as [|[k c] cs [cs' IH]]; simpl; [eauto|].
  destruct (H c) as [c' ->]. rewrite IH. eauto.
Qed.

Lemma fin_sum l : Forall (fun x => exists a, x = Ok (Fin a)) l -> exists t, rsum_ext l = Ok (Fin t).
Proof.
  induction 1 as [|x l [a ->] _ [b Eb]]; [exists 0; apply rsum_ext_nil|].
  exists (a + b). apply rsum_ext_cons. eauto.
Qed.

Section Total.
  Context (M : model) (V : mH M -> Prop).
  Hypothesis HM : known M.
  Hypothesis HV : forall h, V h -> collapsed M h.
  Hypothesis HN : forall lbes, M <> M_vonmises lbes.

  Lemma set_score_total d h : dinv M (reach M) d -> V h ->
    exists d1 s, dim_set_hypers M d h = (d1, Ok tt) /\ dim_score M d1 = Ok (Fin s) /\
      dinv M (reach M) d1 /\ d_hyp d1 = h /\ d_grids d1 = d_grids d.
  Proof.
    intros Hi Hh. pose proof (known_laws M HM) as HL.
    destruct (dim_set_hypers M d h) as [d1 r] eqn:E1.
    assert (r = Ok tt) as ->.
    { unfold dim_set_hypers in E1. simpl in E1.
      destruct (clusters_set_total M h (collapsed_set M h (HV h Hh)) (d_clusters d)) as [cs Ec].
      rewrite Ec in E1. congruence. }
    destruct (set_hypers_same _ _ HL _ _ _ _ E1) as [S [A1 [_ [_ [A2 A3]]]]].
    destruct (same_rows_dinv _ _ _ _ Hi S) as [Hi1 _].
    destruct (fin_sum (map (m_score M) (dvals (d_clusters d1)))) as [t Et].
    { apply Forall_map, Forall_forall. intros c Hc. unfold dvals in Hc.
      apply in_map_iff in Hc. destruct Hc as [[k c'] [<- Hin]]. simpl.
      apply dget_In_NoDup in Hin; [|apply (di_nc _ _ _ Hi1)].
      apply (collapsed_total M h (HV h Hh) HN).
      - apply (di_good _ _ _ Hi1 _ _ Hin).
      - apply (A3 eq_refl _ _ Hin). }
    exists d1, t. auto 6.
  Qed.

  Lemma grid_scores_total i vs : forall d, dinv M (reach M) d -> V (d_hyp d) ->
    (forall h v, V h -> In v vs -> V (m_hset M i v h)) ->
    exists d1 ws, grid_scores M d i vs = (d1, Ok (map Fin ws)) /\ length ws = length vs /\
      dinv M (reach M) d1 /\ V (d_hyp d1) /\ d_grids d1 = d_grids d.
  Proof.
    induction vs as [|v vs IH]; intros d Hi Hh Hv; simpl.
    { exists d, []. auto. }
    unfold grid_score.
    destruct (set_score_total d (m_hset M i v (d_hyp d)) Hi) as [d1 [s [-> [-> [Hi1 [A B]]]]]].
    { apply Hv; [exact Hh|left; reflexivity]. }
    destruct (IH d1 Hi1) as [d2 [ws [-> [L [Hi2 [V2 B2]]]]]].
    { rewrite A. apply Hv; [exact Hh|left; reflexivity]. }
    { intros h w H1 H2. apply Hv; [exact H1|right; exact H2]. }
    exists d2, (s :: ws). simpl. rewrite L. split; [reflexivity|]. split; [reflexivity|].
    split; [exact Hi2|]. split; [exact V2|]. congruence.
  Qed.

  Lemma each_total draws : (forall j, draw_ok (draws j)) -> forall order d,
    dinv M (reach M) d -> V (d_hyp d) ->
    (forall i, In i order -> exists g, nth_error (d_grids d) i = Some g /\ g <> [] /\
       forall h v, V h -> In v g -> V (m_hset M i v h)) ->
    exists d', transition_each M draws d order = (d', Ok tt) /\ dinv M (reach M) d' /\ V (d_hyp d').
  Proof.
    intros Hd. induction order as [|i order IH]; intros d Hi Hh Hg; simpl; [eauto|].
    destruct (Hg i (or_introl eq_refl)) as [g [Eg [Ne Hv]]].
    unfold transition_hyper. rewrite Eg.
    destruct (grid_scores_total i g d Hi Hh Hv) as [d1 [ws [-> [L [Hi1 [V1 G1]]]]]]. simpl.
    destruct (log_pflip_spec (draws (length order)) (map Fin ws) g (Hd _)) as [j [v [y [Ev [Hj _]]]]].
    { apply Forall_map, Forall_forall. intros; exact I. }
    { rewrite map_map. destruct ws as [|w ws]; [exfalso; apply Ne; destruct g; [reflexivity|discriminate L]|]. simpl.
      pose proof (exp_pos w). assert (0 <= Rsum (map (fun x => lexp (Fin x)) ws)).
      { clear. induction ws as [|x ws IH]; simpl in *; [lra|]. pose proof (exp_pos x). lra. }
      simpl in *. lra. }
    { rewrite map_length. symmetry; exact L. }
    rewrite Ev. apply IH.
    - destruct Hi1. split; auto.
    - simpl. apply Hv; [exact V1|]. eapply nth_error_In; exact Hj.
    - intros i' Hin. simpl. rewrite G1. apply Hg. right; exact Hin.
  Qed.
End Total.

Theorem C45_transition_returns M (V : mH M -> Prop) h set inputs tape ops d tr draws order :
  known M -> (forall lbes, M <> M_vonmises lbes) -> (forall h, V h -> collapsed M h) ->
  dim_run M (dim_new M h set inputs tape) ops = (d, tr) -> V (d_hyp d) ->
  (forall i, In i order -> exists g, nth_error (d_grids d) i = Some g /\ g <> [] /\
       forall h v, V h -> In v g -> V (m_hset M i v h)) ->
  (forall j, draw_ok (draws j)) ->
  exists d', dim_transition_hypers M draws order d = (d', Ok tt).
Proof.
  intros HM HN HV E0 Hh Hg Hd. pose proof (known_laws M HM) as HL.
  pose proof (run_inv M _ HL _ _ _ (dinv_new _ _ HL h set inputs tape) E0) as Hi.
  destruct (each_total M V HM HV HN draws Hd order d Hi Hh Hg) as [d1 [E1 [Hi1 V1]]].
  unfold dim_transition_hypers. rewrite E1.
  destruct (set_score_total M V HM HV HN d1 (d_hyp d1) Hi1 V1) as [d2 [s [-> _]]]. eauto.
Qed.
Print Assumptions C45_transition_returns.

(** Example: a Normal column (grids as construct_hyper_grids would choose them) with two
    clusters; its transition in either order returns. *)
Example C45_ex : forall lgam draws,
  (forall j, draw_ok (draws j)) ->
  exists d tr d', dim_run (M_normal lgam)
    (dim_new (M_normal lgam) (NHyp 0 1 1 1) true [] (fun _ => tt))
    [DTransGrids [[0; 1]; [1; 2; 3]; [1; 2]; [5]] (fun _ => 0%nat);
     DInc 0 (Some 0%Z) (Some 4) []; DInc 1 (Some 1%Z) (Some 2) []] = (d, tr) /\
    length (d_clusters d) = 2%nat /\
    dim_transition_hypers (M_normal lgam) draws [2; 0; 3; 1]%nat d = (d', Ok tt).
Proof.
  intros lgam draws Hd.
  destruct (dim_run (M_normal lgam)
    (dim_new (M_normal lgam) (NHyp 0 1 1 1) true [] (fun _ => tt))
    [DTransGrids [[0; 1]; [1; 2; 3]; [1; 2]; [5]] (fun _ => 0%nat);
     DInc 0 (Some 0%Z) (Some 4) []; DInc 1 (Some 1%Z) (Some 2) []]) as [d tr] eqn:E.
  assert (Hl : length (d_clusters d) = 2%nat /\ d_hyp d = NHyp 0 1 1 1 /\
    d_grids d = [[0; 1]; [1; 2; 3]; [1; 2]; [5]]).
  { replace d with (fst (d, tr)) by reflexivity. rewrite <- E.
    repeat split; vm_compute; reflexivity. }
  destruct Hl as [L1 [L2 L3]].
  assert (HR : exists d', dim_transition_hypers (M_normal lgam) draws [2; 0; 3; 1]%nat d = (d', Ok tt)).
  { eapply (C45_transition_returns (M_normal lgam)
      (fun h => 0 < n_r h /\ 0 < n_s h /\ 0 < n_nu h)); [constructor| | |exact E| | |exact Hd].
  - intros lbes H. assert (m_nhyp (M_normal lgam) = m_nhyp (M_vonmises lbes)) by (rewrite H; reflexivity).
    discriminate.
  - intros h [A [B C]]. constructor; assumption.
  - rewrite L2. simpl. lra.
  - rewrite L3. intros i Hi. simpl in Hi.
    destruct Hi as [<-|[<-|[<-|[<-|[]]]]]; (eexists; split; [reflexivity|]; split; [discriminate|]);
      intros h v [A [B C]] Hv; simpl in Hv; simpl; intuition lra.
  }
  destruct HR as [d' Ed']. exists d, tr, d'. split; [reflexivity|]. auto.
Qed.
