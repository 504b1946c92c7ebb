(** Properties C28 (example), C42 and C51 for views: rejected insertions and forced
    cells. *)
From Verif Require Import ViewFacts RowGibbs ViewUndo P06_Dim P07_View.
Local Open Scope R_scope.

(* ------------------------------------------------------------------ *)
(** ** C28: an example that meets the hypotheses *)

Lemma one_col_insert X v r k obs v' M d : v_dims v = [(0%Z, ADim M d)] -> ainv (ADim M d) ->
  agree d -> view_insert X v r k obs = (v', Ok tt) ->
  exists d', v_dims v' = [(0%Z, ADim M d')] /\ ainv (ADim M d') /\ agree d' /\ d_hyp d' = d_hyp d.
Proof.
  intros Hv Ha Hg. unfold view_insert. rewrite Hv. simpl.
  destruct (crp_incorporate (v_crp v) r k) as [c [[]|e]]; [|discriminate].
  destruct (dget 0%Z obs) as [x|]; [|discriminate].
  destruct (input_values X r (ADim M d)) as [ins|]; [|discriminate].
  destruct (dim_incorporate M d r (Some k) x ins) as [d2 rr] eqn:E2.
  assert (Ei : a_incorporate (ADim M d) r k x ins = (ADim M d2, rr)).
  { unfold a_incorporate. cbn [a_M a_d]. rewrite E2. reflexivity. }
  rewrite Ei. destruct rr as [[]|e]; [|discriminate].
  intros E. injection E as <-. cbn [v_dims].
  exists d2. split; [reflexivity|].
  split; [exact (proj1 (proj2 (a_inc_ok _ _ _ _ _ _ Ha Ei)))|].
  exact (agree_inc M d r (Some k) x ins d2 (Ok tt) (proj1 Ha) (proj2 Ha) Hg E2).
Qed.

(** The Normal column of the previous file alone, with three rows in two clusters. *)
Definition ex_n lgam (x : R) : view := ex_v1 lgam (NHyp 0 1 1 1) x.
Definition ex_n1 lgam (x : R) : view := fst (ex_row (ex_X x) (ex_n lgam x) 0 0).
Definition ex_n2 lgam (x : R) : view := fst (ex_row (ex_X x) (ex_n1 lgam x) 1 0).
Definition ex_n3 lgam (x : R) : view := fst (ex_row (ex_X x) (ex_n2 lgam x) 2 7).

Lemma ex_n_ok lgam x :
  (exists d, v_dims (ex_n3 lgam x) = [(0%Z, ADim (M_normal lgam) d)] /\ agree d /\
     d_hyp d = NHyp 0 1 1 1) /\
  vreach (ex_X x) (ex_n3 lgam x).
Proof.
  assert (R1 : vreach (ex_X x) (ex_n lgam x)).
  { eapply (vr_new_dim _ (view_new 100 1 [1]) 0 (M_normal lgam)); [constructor|constructor|].
    unfold ex_n, ex_v1. rewrite <- surjective_pairing.
    replace (Ok tt) with (snd (view_incorporate_dim (ex_X x) (view_new 100 1 [1]) 0
      (ex_col0 lgam (NHyp 0 1 1 1)) true)) by (vm_compute; reflexivity).
    apply surjective_pairing. }
  assert (D1 : exists d, v_dims (ex_n lgam x) = [(0%Z, ADim (M_normal lgam) d)] /\
    ainv (ADim (M_normal lgam) d) /\ agree d /\ d_hyp d = NHyp 0 1 1 1).
  { eexists. split; [unfold ex_n, ex_v1, view_incorporate_dim, bulk_incorporate; simpl; reflexivity|].
    match goal with |- ainv (ADim ?M ?d) /\ _ => set (dd := d) end.
    assert (Hd : vinv (ex_X x) (ex_n lgam x)) by (apply vreach_vinv; exact R1).
    split; [|split; [split; simpl; [reflexivity|discriminate]|reflexivity]].
    destruct (proj2 (proj2 Hd) 0%Z (ADim (M_normal lgam) dd)) as [A _]; [reflexivity|exact A]. }
  assert (Step : forall v r k, vreach (ex_X x) v -> (0 <= r <= 2)%Z ->
    (exists d, v_dims v = [(0%Z, ADim (M_normal lgam) d)] /\
      ainv (ADim (M_normal lgam) d) /\ agree d /\ d_hyp d = NHyp 0 1 1 1) ->
    snd (ex_row (ex_X x) v r k) = Ok tt ->
    vreach (ex_X x) (fst (ex_row (ex_X x) v r k)) /\
    exists d, v_dims (fst (ex_row (ex_X x) v r k)) = [(0%Z, ADim (M_normal lgam) d)] /\
      ainv (ADim (M_normal lgam) d) /\ agree d /\ d_hyp d = NHyp 0 1 1 1).
  { intros v r k Hv Hr [d [Ed [Ad [Gd Hh]]]] He. split.
    - eapply vr_incorporate; [exact Hv| |].
      2:{ rewrite <- He. unfold ex_row. apply surjective_pairing. }
      rewrite Ed. intros c a. simpl. destruct (Z.eqb_spec c 0) as [->|]; [|discriminate].
      intros _. assert (r = 0 \/ r = 1 \/ r = 2)%Z as Hr' by lia.
      destruct Hr' as [-> | [-> | ->]]; simpl; eauto.
    - destruct (ex_row (ex_X x) v r k) as [v' rr] eqn:E. simpl in He. subst rr. simpl.
      unfold ex_row, view_incorporate in E.
      destruct (view_insert (ex_X x) v r k _) as [v2 [[]|]] eqn:E2; [|discriminate].
      injection E as <-.
      destruct (one_col_insert _ _ _ _ _ _ _ _ Ed Ad Gd E2) as [d' [A [B [C D]]]].
      exists d'. split; [exact A|]. split; [exact B|]. split; [exact C|]. congruence. }
  destruct (Step (ex_n lgam x) 0%Z 0%Z R1 ltac:(lia) D1) as [R2 D2]; [vm_compute; reflexivity|].
  destruct (Step (ex_n1 lgam x) 1%Z 0%Z R2 ltac:(lia) D2) as [R3 D3]; [vm_compute; reflexivity|].
  destruct (Step (ex_n2 lgam x) 2%Z 7%Z R3 ltac:(lia) D3) as [R4 D4]; [vm_compute; reflexivity|].
  split; [|exact R4]. destruct D4 as [d [A [_ [B C]]]]. exists d. auto.
Qed.

(** All hypotheses of the three C28 theorems, for row 2, alone in its cluster 7. *)
Example C28_ex lgam x : gamma_rec lgam -> lgam 1 = 0 ->
  let v := ex_n3 lgam x in
  vreach (ex_X x) v /\
  (forall c a, dget c (v_dims v) = Some a ->
     collapsed_column a /\ forall lbes, a_M a <> M_vonmises lbes) /\
  0 < c_alpha (v_crp v) /\ v_rows v = [(0, 0); (1, 0); (2, 7)]%Z /\
  exists S v1 K w, view_score lgam v = Ok (Fin S) /\
    row_weights (ex_X x) v 2 = (v1, Ok (K, w)).
Proof.
  intros Hg H1. cbv zeta. destruct (ex_n_ok lgam x) as [[d [Ed [Gd Hd]]] HR].
  split; [exact HR|].
  assert (HC : forall c a, dget c (v_dims (ex_n3 lgam x)) = Some a ->
     collapsed_column a /\ forall lbes, a_M a <> M_vonmises lbes).
  { intros c a. rewrite Ed. simpl. destruct (c =? 0)%Z; [|discriminate]. intros E.
    injection E as <-. destruct Gd as [G1 G2]. split.
    - split; simpl.
      + simpl in G1. rewrite G1, Hd. constructor; simpl; lra.
      + intros k c0 Hc. simpl in G2. rewrite (G2 k c0 Hc), Hd. constructor; simpl; lra.
    - intros lbes E. assert (E2 : m_nhyp (M_normal lgam) = m_nhyp (M_vonmises lbes)) by (simpl in E; rewrite E; reflexivity).
      discriminate E2. }
  split; [exact HC|].
  assert (Ha : c_alpha (v_crp (ex_n3 lgam x)) = 1) by (vm_compute; reflexivity).
  split; [rewrite Ha; lra|].
  assert (Hr : v_rows (ex_n3 lgam x) = [(0, 0); (1, 0); (2, 7)]%Z) by (vm_compute; reflexivity).
  split; [exact Hr|].
  destruct (C28_weights_exist (ex_X x) lgam (ex_n3 lgam x) 2 7 HR HC) as [[S ES] [v1 [K [w EW]]]].
  - rewrite Ha; lra.
  - rewrite Hr. reflexivity.
  - exists S, v1, K, w. split; [exact ES|]. exact EW.
Qed.

(* ------------------------------------------------------------------ *)
(** ** C42: rejected insertions *)

(** Nothing about any other row changes: neither its cluster nor what the columns
    hold for it. *)
Definition others_kept (v v' : view) (r : Z) : Prop :=
  (forall r', r' <> r -> dget r' (v_rows v') = dget r' (v_rows v)) /\
  dkeys (v_dims v') = dkeys (v_dims v) /\
  forall c a a' r', r' <> r -> dget c (v_dims v) = Some a -> dget c (v_dims v') = Some a' ->
    acontent a' r' = acontent a r'.

Lemma dims_inc_any X r k obs ds ds' res : NoDup (dkeys ds) ->
  (forall c a, dget c ds = Some a -> ainv a) ->
  dims_incorporate X r k obs ds = (ds', res) ->
  dkeys ds' = dkeys ds /\
  forall c a a' r', r' <> r -> dget c ds = Some a -> dget c ds' = Some a' ->
    acontent a' r' = acontent a r'.
Proof.
  revert ds'. induction ds as [|[c0 a0] ds IH]; intros ds' Hn Hi; simpl.
  { intros E. injection E as <- _. split; [reflexivity|discriminate]. }
  assert (Hsame : forall c a a' r', r' <> r -> dget c ((c0, a0) :: ds) = Some a ->
    dget c ((c0, a0) :: ds) = Some a' -> acontent a' r' = acontent a r').
  { intros c a a' r' _ H1 H2. congruence. }
  destruct (dget c0 obs) as [x|]; [|intros E; injection E as <- _; auto].
  destruct (input_values X r a0) as [ins|]; [|intros E; injection E as <- _; auto].
  assert (H0 : ainv a0) by (apply (Hi c0); simpl; rewrite Z.eqb_refl; reflexivity).
  destruct (a_incorporate a0 r k x ins) as [a1 rr] eqn:Ea.
  assert (Hkeep : forall r', r' <> r -> acontent a1 r' = acontent a0 r').
  { intros r' Hr'. destruct rr as [[]|e1].
    - destruct (a_inc_ok _ _ _ _ _ _ H0 Ea) as [_ [_ [_ [B _]]]]. rewrite B.
      destruct (Z.eqb_spec r' r); [contradiction|reflexivity].
    - unfold a_incorporate in Ea.
      destruct (dim_incorporate (a_M a0) (a_d a0) r (Some k) x ins) as [d1 r1] eqn:Ed.
      injection Ea as <- ->.
      exact (proj1 (proj2 (dim_inc_err _ _ (proj1 H0) _ _ _ _ _ _ _ (proj2 H0) Ed)) r'). }
  destruct rr as [[]|e1].
  - destruct (dims_incorporate X r k obs ds) as [ds2 r2] eqn:E2. intros E. injection E as <- ->.
    inversion Hn as [|? ? Hn1 Hn2]; subst.
    destruct (IH ds2 Hn2) as [K S]; [|reflexivity|].
    { intros c a Ha. apply (Hi c). simpl. destruct (Z.eqb_spec c c0) as [->|]; [|exact Ha].
      apply dget_Some_in in Ha. contradiction. }
    split; [simpl; f_equal; exact K|]. intros c a a' r' Hr'. simpl.
    destruct (c =? c0)%Z; [|apply S; exact Hr'].
    intros E1 E3. injection E1 as <-. injection E3 as <-. apply Hkeep; exact Hr'.
  - intros E. injection E as <- _. split; [reflexivity|]. intros c a a' r' Hr'. simpl.
    destruct (c =? c0)%Z; [|congruence].
    intros E1 E3. injection E1 as <-. injection E3 as <-. apply Hkeep; exact Hr'.
Qed.

Lemma insert_kept X0 X v r k obs v' res : vinv X0 v -> view_insert X v r k obs = (v', res) ->
  others_kept v v' r.
Proof.
  intros [Hc [Hn Hd]] E1. unfold view_insert in E1.
  destruct (crp_incorporate (v_crp v) r k) as [c rr] eqn:Ec.
  destruct rr as [[]|e2].
  - destruct (crp_inc_spec _ _ _ _ Hc Ec) as [_ [Cn [Cd _]]].
    destruct (dims_incorporate X r k obs (v_dims v)) as [ds r2] eqn:Ed.
    injection E1 as <- ->.
    destruct (dims_inc_any _ _ _ _ _ _ _ Hn (fun c0 a0 H => proj1 (Hd c0 a0 H)) Ed) as [K S].
    split; [|split; [exact K|exact S]].
    intros r' Hr'. unfold v_rows. simpl. rewrite Cd. apply dget_dset_other. exact Hr'.
  - unfold crp_incorporate in Ec. destruct (dmem r (c_data (v_crp v))); [|discriminate].
    injection Ec as <- _. injection E1 as <- _.
    assert (Hv : set_crp v (v_crp v) = v) by (destruct v; reflexivity). rewrite Hv.
    split; [reflexivity|]. split; [reflexivity|]. congruence.
Qed.

(** What holds when an insertion is rejected: rows already present are rejected
    without any change, and no rejection disturbs another row.  The full claim is that
    nothing at all changes; that is false, see below. *)
Theorem C42_view_partial X0 X draws v r k obs v' e : vreach X0 v ->
  view_incorporate X draws v r (Some k) obs = (v', Err e) ->
  (In r (dkeys (v_rows v)) -> v' = v) /\ others_kept v v' r.
Proof.
  intros HR E. apply vreach_vinv in HR.
  unfold view_incorporate in E.
  destruct (view_insert X v r k obs) as [v1 [[]|e1]] eqn:E1; [discriminate|].
  injection E as -> ->. split; [|eapply insert_kept; eassumption].
  intros Hin. apply in_dkeys_Some in Hin. destruct Hin as [z Hz]. unfold v_rows in Hz.
  unfold view_insert, crp_incorporate, dmem in E1. rewrite Hz in E1. injection E1 as <- _. destruct v; reflexivity.
Qed.
Print Assumptions C42_view_partial.

(** A Normal column and a Bernoulli column; the row's second value is 2. *)
Definition rej_X (x : R) (c r : Z) : res cell :=
  match c with 0%Z => Ok (Some x) | 1%Z => Ok (Some 2) | _ => Err KeyError end.
Definition rej_v (P Q : prim) n m hs hs2 h h2 u u2 X : view :=
  fst (fst (view_incorporate_dim X
    (fst (fst (view_incorporate_dim X (view_new 100 1 [1]) 0
       (ADim (of_prim P n hs) (dim_new (of_prim P n hs) h true [] u)) true))) 1
    (ADim (of_prim Q m hs2) (dim_new (of_prim Q m hs2) h2 true [] u2)) true)).

Lemma rej_fail P Q n m hs hs2 h h2 u u2 X (x y : R) e : p_check P x = Ok x -> p_check Q y = Err e ->
  let v := rej_v P Q n m hs hs2 h h2 u u2 X in
  let out := view_incorporate X (fun _ _ => 0%nat) v 0 (Some 0%Z) [(0%Z, Some x); (1%Z, Some y)] in
  let again := view_unincorporate (fst out) 0 in
  v_rows v = [] /\ snd out = Err e /\ v_rows (fst out) = [(0, 0)]%Z /\
  option_map (fun a => d_zr (a_d a)) (dget 0%Z (v_dims v)) = Some [] /\
  option_map (fun a => d_zr (a_d a)) (dget 0%Z (v_dims (fst out))) = Some [(0, 0)]%Z /\
  option_map (fun a => d_zr (a_d a)) (dget 1%Z (v_dims (fst out))) = Some [] /\
  option_map (fun a => dkeys (d_clusters (a_d a))) (dget 1%Z (v_dims v)) = Some [] /\
  option_map (fun a => dkeys (d_clusters (a_d a))) (dget 1%Z (v_dims (fst out))) = Some [0%Z] /\
  is_ok (snd again) = false.
Proof.
  intros H1 H2. cbv zeta. unfold rej_v.
  unfold view_incorporate, view_insert. simpl crp_incorporate. cbv iota beta.
  unfold dims_incorporate, a_incorporate, dim_incorporate, open_cluster. simpl.
  unfold prim_incorporate. simpl. rewrite H1, H2. simpl.
  unfold view_unincorporate, dims_unincorporate, a_unincorporate, dim_unincorporate. simpl.
  auto 10.
Qed.

(** Finding: the claim fails.  A row whose second value is rejected stays in the row
    partition and in the first column, a cluster without rows is left in the second
    column, and the row can then not be removed either. *)
Theorem C42_view_refuted : exists X v r k obs v' e,
  vreach X v /\
  (forall c a, dget c (v_dims v) = Some a -> exists x, dget c obs = Some x /\ X c r = Ok x) /\
  view_incorporate X (fun _ _ => 0%nat) v r (Some k) obs = (v', Err e) /\
  ~ In r (dkeys (v_rows v)) /\ dget r (v_rows v') = Some k /\
  option_map (fun a => d_zr (a_d a)) (dget 0%Z (v_dims v)) = Some [] /\
  option_map (fun a => d_zr (a_d a)) (dget 0%Z (v_dims v')) = Some [(r, k)] /\
  option_map (fun a => d_zr (a_d a)) (dget 1%Z (v_dims v')) = Some [] /\
  option_map (fun a => dkeys (d_clusters (a_d a))) (dget 1%Z (v_dims v)) = Some [] /\
  option_map (fun a => dkeys (d_clusters (a_d a))) (dget 1%Z (v_dims v')) = Some [k] /\
  is_ok (snd (view_unincorporate v' r)) = false.
Proof.
  set (lg := fun _ : R => 0). set (X := rej_X 0).
  set (v := rej_v (Normal lg) (Bernoulli lg) 4 2 hset_normal hset_pair (NHyp 0 1 1 1) (1, 1)
             (fun _ => tt) (fun _ => tt) X).
  assert (HQ : exists e, p_check (Bernoulli lg) 2 = Err e).
  { simpl. exists ValueError. unfold bern_inb, Reqb.
    destruct (Req_EM_T 2 0); [lra|]. destruct (Req_EM_T 2 1); [lra|]. reflexivity. }
  destruct HQ as [e He].
  pose proof (rej_fail (Normal lg) (Bernoulli lg) 4 2 hset_normal hset_pair (NHyp 0 1 1 1) (1, 1)
             (fun _ => tt) (fun _ => tt) X 0 2 e eq_refl He) as H. cbv zeta in H. fold v in H.
  destruct H as [H1 [H2 [H3 [H4 [H5 [H6 [H7 [H8 H9]]]]]]]].
  destruct (view_incorporate X (fun _ _ => 0%nat) v 0 (Some 0%Z) [(0%Z, Some 0); (1%Z, Some 2)])
    as [v' rr] eqn:E. simpl fst in *. simpl snd in H2. subst rr.
  exists X, v, 0%Z, 0%Z, [(0%Z, Some 0); (1%Z, Some 2)], v', e.
  assert (K : dkeys (v_dims v) = [0; 1]%Z) by reflexivity.
  split.
  { unfold v, rej_v. eapply (vr_new_dim X _ 1 (M_bernoulli lg)); [|constructor|].
    - eapply (vr_new_dim X (view_new 100 1 [1]) 0 (M_normal lg)); [constructor|constructor|].
      rewrite <- surjective_pairing.
      match goal with |- ?a = _ => replace (Ok tt) with (snd a) by reflexivity end.
      apply surjective_pairing.
    - rewrite <- surjective_pairing.
      match goal with |- ?a = _ => replace (Ok tt) with (snd a) by reflexivity end.
      apply surjective_pairing. }
  split.
  { intros c a Ha. apply dget_Some_in in Ha. rewrite K in Ha.
    destruct Ha as [<-|[<-|[]]]; simpl; eauto. }
  split; [exact E|]. split; [rewrite H1; simpl; tauto|].
  split; [rewrite H3; reflexivity|]. auto 10.
Qed.
Print Assumptions C42_view_refuted.

(* ------------------------------------------------------------------ *)
(** ** C51: forcing a cell *)

(** The value goes into the row's current cluster of that column, if the column's
    inputs are observed; in every other respect the view stays as it was.  [X] and
    [X'] are the table before and after the owner stored the value. *)
Theorem C51_view X X' v r c x v' : vreach X v -> X c r = Ok None ->
  (forall c' r', r' <> r \/ c' <> c -> X' c' r' = X c' r') -> X' c r = Ok (Some x) ->
  view_force_cell X' v r [(c, Some x)] = (v', Ok tt) ->
  v_crp v' = v_crp v /\ dkeys (v_dims v') = dkeys (v_dims v) /\
  (forall c', c' <> c -> dget c' (v_dims v') = dget c' (v_dims v)) /\
  exists k M d d', dget r (v_rows v) = Some k /\ dget c (v_dims v) = Some (ADim M d) /\
    dget c (v_dims v') = Some (ADim M d') /\
    d_hyp d' = d_hyp d /\ d_aux d' = d_aux d /\
    dkeys (d_clusters d') = dkeys (d_clusters d) /\
    (forall k', k' <> k -> dget k' (d_clusters d') = dget k' (d_clusters d)) /\
    (forall r', r' <> r -> dget r' (d_zr d') = dget r' (d_zr d) /\
                           dget r' (d_zi d') = dget r' (d_zi d)) /\
    ((forall l, Forall2 (fun i y => X' i r = Ok (Some y)) (d_ins d) l ->
        exists s s', dget k (d_clusters d) = Some s /\ dget k (d_clusters d') = Some s' /\
          dget r (m_rows M s) = None /\ m_rows M s' = dset r (m_keep M x, l) (m_rows M s) /\
          m_hyp M s' = m_hyp M s /\ m_par M s' = m_par M s /\
          dget r (d_zr d') = Some k /\ dget r (d_zi d') = None) /\
     ((exists i, In i (d_ins d) /\ X' i r = Ok None) ->
        d_clusters d' = d_clusters d /\ dget r (d_zr d') = None /\ dget r (d_zi d') = Some k)).
Proof.
  intros HR Hm HX Hx. apply vreach_vinv in HR. destruct HR as [Hc [Hn Hd]].
  unfold view_force_cell. destruct (dget r (v_rows v)) as [k|] eqn:Hr; [|discriminate].
  destruct (force_cells X' r k [(c, Some x)] (v_dims v)) as [ds rr] eqn:Ef.
  intros E. injection E as <- ->.
  assert (Ho : NoDup (dkeys [(c, Some x)])) by (repeat constructor; simpl; tauto).
  destruct (force_cells_spec _ _ _ _ _ _ Ho Ef) as [K [S1 S2]].
  split; [reflexivity|]. split; [exact K|].
  split; [intros c' Hc'; apply S1; simpl; intuition congruence|].
  destruct (S2 c (Some x)) as [a [a1 [ins [a2 [Ga [Gu [Gi [Gc Gd]]]]]]]]; [simpl; rewrite Z.eqb_refl; reflexivity|].
  destruct (Hd c a Ga) as [Hi [Hk Hrr]]. specialize (Hrr r). rewrite Hr in Hrr.
  destruct Hrr as [e0 [He0 Hcont]].
  assert (He : e0 = None).
  { unfold expected in He0. rewrite Hm in He0. destruct (input_values X r a); [|discriminate].
    simpl in He0. injection He0 as <-. reflexivity. }
  subst e0. pose proof (uninc_shape a r k None Hi Hcont) as [Uz Us]. rewrite Gu in Us.
  injection Us as ->. destruct (a_uninc_inv _ _ _ Hi Gu) as [_ [Hi1 _]].
  pose proof (inc_shape _ _ _ _ _ _ Hi1 Gc) as [Ik Is].
  destruct a as [M d]. cbn [a_M a_d] in *. destruct Hi as [HL Hdi]. cbn [a_M a_d] in HL, Hdi.
  set (d0 := set_zi d (ddel r (d_zi d))) in *.
  assert (Hkin : In k (dkeys (d_clusters d))).
  { apply Hk. apply (crp_rows_counts _ _ _ Hc Hr). }
  assert (Hop : open_cluster M d0 k = d0).
  { unfold open_cluster. replace (dmem k (d_clusters d0)) with true; [reflexivity|].
    symmetry. apply dmem_in. exact Hkin. }
  rewrite Hop in *. change (d_clusters d0) with (d_clusters d) in *.
  assert (Hzr : dget r (d_zr d) = None).
  { destruct (dget r (d_zr d)) as [kk|] eqn:Ez; [|reflexivity].
    rewrite (di_disj _ _ _ Hdi _ _ Ez) in Uz. discriminate. }
  unfold input_values in Gi. cbn [a_d d_ins] in Gi. change (d_ins d0) with (d_ins d) in Gi.
  unfold valid_cell in Is. destruct (all_some ins) as [l|] eqn:El.
  - destruct Is as [s' [Em ->]]. set (s := cluster_of M d0 k) in *.
    assert (Hs : dget k (d_clusters d) = Some s) by exact Ik.
    destruct (ml_inc _ _ HL s r x l s' (di_good _ _ _ Hdi k s Hs) Em) as [_ [I1 [I2 [I3 I4]]]].
    eexists k, M, d, _. split; [reflexivity|]. split; [exact Ga|]. split; [exact Gd|].
    cbn [d_hyp d_aux d_clusters d_zr d_zi set_zr set_clusters d0 set_zi].
    split; [reflexivity|]. split; [reflexivity|].
    split; [apply dkeys_dset_in; exact Hkin|].
    split; [intros k' Hk'; apply dget_dset_other; exact Hk'|].
    split.
    { intros r' Hr'. rewrite dget_dset_other by exact Hr'.
      rewrite dget_ddel_other; [auto|exact Hr']. }
    split.
    + intros l' Hl'. assert (l' = l).
      { assert (Hmap : map (fun i => X' i r) (d_ins d) = map (fun y => Ok (Some y)) l').
        { apply map_ok_forall2. exact Hl'. }
        rewrite Hmap in Gi. rewrite <- (map_map (fun y => Some y) (fun z => Ok z)) in Gi.
        rewrite rsequence_map_ok in Gi. injection Gi as <-.
        assert (A : all_some (map Some l') = Some l') by (apply all_some_map; reflexivity).
        assert (Some l' = Some l) by (rewrite <- A; exact El). congruence. }
      subst l'. exists s, s'. split; [exact Hs|]. rewrite !dget_dset_same.
      rewrite dget_ddel_same by apply (di_ni _ _ _ Hdi). auto 10.
    + intros [i [Hin HN]]. exfalso. apply all_some_map in El. subst ins.
      apply rsequence_inv in Gi.
      apply (in_map (fun i => X' i r)) in Hin. rewrite <- Gi, HN in Hin.
      rewrite map_map in Hin. apply in_map_iff in Hin. destruct Hin as [y [Hy _]]. discriminate.
  - subst a2. eexists k, M, d, _. split; [reflexivity|]. split; [exact Ga|]. split; [exact Gd|].
    cbn [d_hyp d_aux d_clusters d_zr d_zi set_zr set_clusters d0 set_zi].
    split; [reflexivity|]. split; [reflexivity|]. split; [reflexivity|]. split; [reflexivity|].
    split.
    { intros r' Hr'. rewrite dget_dset_other by exact Hr'.
      rewrite dget_ddel_other; [auto|exact Hr']. }
    split.
    + intros l' Hl'. exfalso.
      assert (Hmap : map (fun i => X' i r) (d_ins d) = map (fun y => Ok (Some y)) l').
      { apply map_ok_forall2. exact Hl'. }
      rewrite Hmap in Gi. rewrite <- (map_map (fun y => Some y) (fun z => Ok z)) in Gi.
      rewrite rsequence_map_ok in Gi. injection Gi as <-.
      assert (A : all_some (map Some l') = Some l') by (apply all_some_map; reflexivity).
      assert (Some l' = None) by (rewrite <- A; exact El). discriminate.
    + intros _. split; [reflexivity|]. split; [exact Hzr|]. apply dget_dset_same.
Qed.
Print Assumptions C51_view.

(** C51: on the view of the previous file, row 2 misses column 0. *)
Definition ex_X2 (x : R) (c r : Z) : res cell :=
  if (c =? 0)%Z && (r =? 2)%Z then Ok (Some x) else ex_X x c r.
Example C51_view_ex lgam h x :
  let v := ex_v5 lgam h x in
  vreach (ex_X x) v /\ ex_X x 0 2 = Ok None /\ ex_X2 x 0 2 = Ok (Some x) /\
  (forall c' r', r' <> 2%Z \/ c' <> 0%Z -> ex_X2 x c' r' = ex_X x c' r') /\
  snd (view_force_cell (ex_X2 x) v 2 [(0%Z, Some x)]) = Ok tt.
Proof.
  cbv zeta. split; [exact (proj2 (ex_reach lgam h x))|]. split; [reflexivity|].
  split; [reflexivity|]. split.
  - intros c' r' H. unfold ex_X2. destruct (Z.eqb_spec c' 0), (Z.eqb_spec r' 2); simpl; auto.
    intuition congruence.
  - vm_compute; reflexivity.
Qed.

(** Finding: a column that takes the forced column as input is not told.  Here the
    regression column 1 keeps row 2 among the rows with a missing value although its
    value and its input are now both observed, so C23 fails after the call. *)
Theorem C51_inputs_refuted : exists X X' v r x v' a,
  vreach X v /\ X 0%Z r = Ok None /\ X' 0%Z r = Ok (Some x) /\
  (forall c' r', r' <> r \/ c' <> 0%Z -> X' c' r' = X c' r') /\
  view_force_cell X' v r [(0%Z, Some x)] = (v', Ok tt) /\
  dget 1%Z (v_dims v') = Some a /\ d_ins (a_d a) = [0%Z] /\
  (exists y l, cell_observed X' 1 a r y l) /\
  dget r (d_zr (a_d a)) = None /\ dget r (d_zi (a_d a)) <> None.
Proof.
  set (lg := fun _ : R => 0). set (h := NHyp 0 1 1 1).
  destruct (C51_view_ex lg h 5) as [A [B [C [D E]]]].
  set (v := ex_v5 lg h 5) in *.
  destruct (view_force_cell (ex_X2 5) v 2 [(0%Z, Some 5)]) as [v' rr] eqn:Ef.
  simpl in E. subst rr.
  assert (Ev : v' = fst (view_force_cell (ex_X2 5) v 2 [(0%Z, Some 5)])) by (rewrite Ef; reflexivity).
  assert (P : option_map (fun a => (d_ins (a_d a), d_zr (a_d a), d_zi (a_d a)))
    (dget 1%Z (v_dims v')) = Some ([0%Z], [(0, 0); (1, 0)]%Z, [(2, 7)]%Z)).
  { rewrite Ev. vm_compute. reflexivity. }
  destruct (dget 1%Z (v_dims v')) as [a|] eqn:Ha; [|discriminate].
  simpl in P. injection P as P1 P2 P3.
  exists (ex_X 5), (ex_X2 5), v, 2%Z, 5, v', a.
  do 5 (split; [assumption|]). split; [exact Ha|]. split; [exact P1|].
  split.
  - eexists _, [5]. split; [reflexivity|]. rewrite P1. repeat constructor.
  - rewrite P2, P3. split; [reflexivity|discriminate].
Qed.
Print Assumptions C51_inputs_refuted.
