(** Facts about the model of View. *)
From Verif Require Export View DimFacts CrpFacts.
Local Open Scope R_scope.

(** A column in a reachable condition, over a lawful class. *)
Definition ainv (a : adim) : Prop :=
  mlaws (a_M a) (reach (a_M a)) /\ dinv (a_M a) (reach (a_M a)) (a_d a).
Definition acontent (a : adim) (r : Z) : option (Z * option (R * list R)) :=
  content (a_M a) (a_d a) r.
Definition akeys (a : adim) : list Z := dkeys (d_clusters (a_d a)).

(** What the table says the column should hold for row [r]. *)
Definition expected (X : table) (c : Z) (a : adim) (r : Z) : option (option (R * list R)) :=
  match X c r, input_values X r a with
  | Ok x, Ok ins => Some (option_map (keep (a_M a)) (valid_cell x ins))
  | _, _ => None
  end.

Definition column_ok (X : table) (v : view) (c : Z) (a : adim) : Prop :=
  ainv a /\
  (forall k, In k (akeys a) <-> In k (dkeys (c_counts (v_crp v)))) /\
  forall r, match dget r (v_rows v) with
            | None => acontent a r = None
            | Some k => exists e, expected X c a r = Some e /\ acontent a r = Some (k, e)
            end.

Definition vinv (X : table) (v : view) : Prop :=
  crp_inv (v_crp v) /\ NoDup (dkeys (v_dims v)) /\
  forall c a, dget c (v_dims v) = Some a -> column_ok X v c a.

(* ------------------------------------------------------------------ *)
(** ** One column *)

(** [a'] is [a] after a step that keeps the class and the inputs. *)
Definition akin (a a' : adim) : Prop :=
  exists d', a' = ADim (a_M a) d' /\ d_ins d' = d_ins (a_d a).

Lemma akin_refl a : akin a a.
Proof. exists (a_d a). destruct a; auto. Qed.
Lemma akin_trans a b c : akin a b -> akin b c -> akin a c.
Proof. intros [d [-> H]] [d' [-> H']]. exists d'. simpl in *. split; [reflexivity|congruence]. Qed.
Lemma akin_input X r a a' : akin a a' -> input_values X r a' = input_values X r a.
Proof. intros [d [-> H]]. unfold input_values. simpl. rewrite H. reflexivity. Qed.
Lemma akin_expected X c a a' r : akin a a' -> expected X c a' r = expected X c a r.
Proof.
  intros H. unfold expected. rewrite (akin_input X r a a' H). destruct H as [d [-> _]].
  reflexivity.
Qed.

Lemma a_inc_ok a r k x ins a' : ainv a -> a_incorporate a r k x ins = (a', Ok tt) ->
  akin a a' /\ ainv a' /\ acontent a r = None /\
  (forall r', acontent a' r' =
     if (r' =? r)%Z then Some (k, option_map (keep (a_M a)) (valid_cell x ins))
     else acontent a r') /\
  (forall k', In k' (akeys a') <-> k' = k \/ In k' (akeys a)).
Proof.
  intros [HL Hi]. unfold a_incorporate.
  destruct (dim_incorporate (a_M a) (a_d a) r (Some k) x ins) as [d' r0] eqn:E.
  intros H. injection H as <- ->.
  destruct (dim_inc_ok _ _ HL _ _ _ _ _ _ Hi E) as [A [B [[k0 [Ek [_ C]]] [_ D]]]].
  injection Ek as <-.
  split; [exists d'; auto|]. split; [split; auto|]. split; [exact B|].
  split; [exact C|]. intros k'. eapply dim_inc_keys; exact E.
Qed.

Lemma a_uninc_ok a r kv : ainv a -> acontent a r = Some kv ->
  exists a', a_unincorporate a r = (a', Ok tt) /\ akin a a' /\ ainv a' /\
  (forall r', acontent a' r' = if (r' =? r)%Z then None else acontent a r') /\
  akeys a' = akeys a.
Proof.
  intros [HL Hi] Hc. destruct kv as [k v].
  destruct (dim_uninc_ok _ _ HL _ _ _ _ Hi Hc) as [d' [E [A [B [_ [C [_ D]]]]]]].
  exists (ADim (a_M a) d'). unfold a_unincorporate. rewrite E.
  split; [reflexivity|]. split; [exists d'; auto|]. split; [split; auto|].
  split; [exact B|exact D].
Qed.

Lemma a_uninc_none a r : ainv a -> acontent a r = None ->
  a_unincorporate a r = (a, Err ValueError).
Proof.
  intros [HL Hi] Hc. unfold a_unincorporate.
  rewrite (dim_uninc_none _ _ _ _ Hi Hc). destruct a; reflexivity.
Qed.

Lemma a_uninc_inv a r a' : ainv a -> a_unincorporate a r = (a', Ok tt) ->
  akin a a' /\ ainv a' /\ (exists kv, acontent a r = Some kv) /\
  (forall r', acontent a' r' = if (r' =? r)%Z then None else acontent a r') /\
  akeys a' = akeys a.
Proof.
  intros Hi E. destruct (acontent a r) as [kv|] eqn:Ec.
  - destruct (a_uninc_ok a r kv Hi Ec) as [a2 [E2 [A [B [C D]]]]].
    rewrite E in E2. injection E2 as <-. eauto 7.
  - rewrite (a_uninc_none a r Hi Ec) in E. discriminate.
Qed.

(** A step that leaves rows and clusters alone. *)
Definition asame (a a' : adim) : Prop :=
  akin a a' /\ ainv a' /\ (forall r, acontent a' r = acontent a r) /\
  (forall k, In k (akeys a') <-> In k (akeys a)).

Lemma asame_refl a : ainv a -> asame a a.
Proof. intros H. split; [apply akin_refl|]. split; [exact H|]. split; [reflexivity|tauto]. Qed.
Lemma asame_trans a b c : asame a b -> asame b c -> asame a c.
Proof.
  intros [A1 [A2 [A3 A4]]] [B1 [B2 [B3 B4]]]. split; [eapply akin_trans; eassumption|].
  split; [exact B2|]. split; [intros r; rewrite B3; apply A3|].
  intros k. rewrite B4. apply A4.
Qed.

Lemma column_ok_same X v v' c a a' : column_ok X v c a -> asame a a' ->
  v_rows v' = v_rows v -> c_counts (v_crp v') = c_counts (v_crp v) ->
  column_ok X v' c a'.
Proof.
  intros [H1 [H2 H3]] [S1 [S2 [S3 S4]]] Er Ec. split; [exact S2|].
  split; [intros k; rewrite S4, Ec; apply H2|].
  intros r. rewrite Er, S3, (akin_expected X c a a' r S1). apply H3.
Qed.

Lemma a_call_same a o a' r : ainv a -> a_call a o = (a', r) -> asame a a'.
Proof.
  intros [HL Hi]. destruct o as [draws order|g p|]; simpl.
  - destruct (dim_transition_hypers (a_M a) draws order (a_d a)) as [d' r'] eqn:E.
    destruct (trans_hypers_same _ _ HL _ _ _ _ _ E) as [S1 [S2 _]].
    destruct (same_rows_dinv _ _ _ _ Hi S1) as [I C].
    intros H. injection H as <- <-. split; [exists d'; auto|].
    split; [split; auto|]. split; [exact C|].
    intros k. unfold akeys; simpl. destruct S1 as [-> _]. tauto.
  - destruct (dim_transition_grids (a_M a) (a_d a) g p) as [d' r'] eqn:E.
    destruct (trans_grids_same _ _ HL _ _ _ _ _ E) as [S1 S2].
    destruct (same_rows_dinv _ _ _ _ Hi S1) as [I C].
    intros H. injection H as <- <-. split; [exists d'; auto|].
    split; [split; auto|]. split; [exact C|].
    intros k. unfold akeys; simpl. destruct S1 as [-> _]. tauto.
  - intros H. injection H as <- <-.
    pose proof (trans_params_same _ _ HL (a_d a)) as S1.
    destruct (same_rows_dinv _ _ _ _ Hi S1) as [I C].
    split; [eexists; split; reflexivity|].
    split; [split; auto|]. split; [exact C|].
    intros k. unfold akeys; simpl. destruct S1 as [S1 _]. simpl in S1. rewrite S1. tauto.
Qed.

(* ------------------------------------------------------------------ *)
(** ** Loops over the columns *)

Lemma dget_same_keys {A B} c (d1 : dict A) (d2 : dict B) a : dkeys d1 = dkeys d2 ->
  dget c d1 = Some a -> exists b, dget c d2 = Some b.
Proof.
  intros E H. apply in_dkeys_Some. rewrite <- E. eapply dget_Some_in; exact H.
Qed.

Lemma dims_inc_spec X r k obs ds ds' : dims_incorporate X r k obs ds = (ds', Ok tt) ->
  dkeys ds' = dkeys ds /\
  forall c a', dget c ds' = Some a' -> exists a x ins,
    dget c ds = Some a /\ dget c obs = Some x /\ input_values X r a = Ok ins /\
    a_incorporate a r k x ins = (a', Ok tt).
Proof.
  revert ds'. induction ds as [|[c0 a0] ds IH]; intros ds'; simpl.
  { intros E. injection E as <-. split; [reflexivity|discriminate]. }
  destruct (dget c0 obs) as [x|] eqn:Ex; [|discriminate].
  destruct (input_values X r a0) as [ins|] eqn:Ei; [|discriminate].
  destruct (a_incorporate a0 r k x ins) as [a1 [[]|e]] eqn:Ea; [|discriminate].
  destruct (dims_incorporate X r k obs ds) as [ds2 r2] eqn:Ed.
  intros E. injection E as <- ->. destruct (IH ds2 eq_refl) as [K S].
  split; [simpl; f_equal; exact K|].
  intros c a'. simpl. destruct (c =? c0)%Z eqn:Ec.
  - apply Z.eqb_eq in Ec; subst c0. intros H. injection H as <-. exists a0, x, ins. auto.
  - apply S.
Qed.

Lemma dims_uninc_spec r ds ds' : dims_unincorporate r ds = (ds', Ok tt) ->
  dkeys ds' = dkeys ds /\
  forall c a', dget c ds' = Some a' -> exists a,
    dget c ds = Some a /\ a_unincorporate a r = (a', Ok tt).
Proof.
  revert ds'. induction ds as [|[c0 a0] ds IH]; intros ds'; simpl.
  { intros E. injection E as <-. split; [reflexivity|discriminate]. }
  destruct (a_unincorporate a0 r) as [a1 [[]|e]] eqn:Ea; [|discriminate].
  destruct (dims_unincorporate r ds) as [ds2 r2] eqn:Ed.
  intros E. injection E as <- ->. destruct (IH ds2 eq_refl) as [K S].
  split; [simpl; f_equal; exact K|].
  intros c a'. simpl. destruct (c =? c0)%Z eqn:Ec.
  - intros H. injection H as <-. exists a0. auto.
  - apply S.
Qed.

Lemma dims_uninc_progress r ds : NoDup (dkeys ds) ->
  (forall c a, dget c ds = Some a -> ainv a /\ exists kv, acontent a r = Some kv) ->
  exists ds', dims_unincorporate r ds = (ds', Ok tt).
Proof.
  induction ds as [|[c0 a0] ds IH]; intros Hn H; simpl; [eauto|].
  inversion Hn; subst.
  destruct (H c0 a0) as [Hi [kv Hc]]; [simpl; rewrite Z.eqb_refl; reflexivity|].
  destruct (a_uninc_ok a0 r kv Hi Hc) as [a1 [E _]]. rewrite E.
  destruct IH as [ds' E']; [assumption| |].
  - intros c a Hca. apply (H c a). simpl. destruct (c =? c0)%Z eqn:Ec; [|exact Hca].
    apply Z.eqb_eq in Ec; subst c0. apply dget_Some_in in Hca. contradiction.
  - rewrite E'. eauto.
Qed.

Definition a_drop (k : Z) (a : adim) : adim :=
  ADim (a_M a) (set_clusters (a_d a) (ddel k (d_clusters (a_d a)))).

Lemma dims_drop_spec k ds ds' : dims_drop_cluster k ds = (ds', Ok tt) ->
  dkeys ds' = dkeys ds /\
  forall c a', dget c ds' = Some a' -> exists a,
    dget c ds = Some a /\ In k (akeys a) /\ a' = a_drop k a.
Proof.
  revert ds'. induction ds as [|[c0 a0] ds IH]; intros ds'; simpl.
  { intros E. injection E as <-. split; [reflexivity|discriminate]. }
  destruct (dmem k (d_clusters (a_d a0))) eqn:Em; [|discriminate].
  destruct (dims_drop_cluster k ds) as [ds2 r2] eqn:Ed.
  intros E. injection E as <- ->. destruct (IH ds2 eq_refl) as [K S].
  split; [simpl; f_equal; exact K|].
  intros c a'. simpl. destruct (c =? c0)%Z eqn:Ec.
  - intros H. injection H as <-. exists a0. split; [reflexivity|].
    split; [apply dmem_in; exact Em|reflexivity].
  - apply S.
Qed.

Lemma dims_drop_progress k ds : NoDup (dkeys ds) ->
  (forall c a, dget c ds = Some a -> In k (akeys a)) ->
  exists ds', dims_drop_cluster k ds = (ds', Ok tt).
Proof.
  induction ds as [|[c0 a0] ds IH]; intros Hn H; simpl; [eauto|].
  inversion Hn; subst.
  assert (E : dmem k (d_clusters (a_d a0)) = true).
  { apply dmem_in. apply (H c0). simpl. rewrite Z.eqb_refl. reflexivity. }
  rewrite E. destruct IH as [ds' E']; [assumption| |].
  - intros c a Hca. apply (H c a). simpl. destruct (c =? c0)%Z eqn:Ec; [|exact Hca].
    apply Z.eqb_eq in Ec; subst c0. apply dget_Some_in in Hca. contradiction.
  - rewrite E'. eauto.
Qed.

Lemma a_drop_ok k a : ainv a -> (forall r v, acontent a r <> Some (k, v)) ->
  akin a (a_drop k a) /\ ainv (a_drop k a) /\
  (forall r, acontent (a_drop k a) r = acontent a r) /\
  (forall k', In k' (akeys (a_drop k a)) <-> k' <> k /\ In k' (akeys a)).
Proof.
  intros [HL Hi] Hk. destruct (dinv_drop _ _ _ _ Hi Hk) as [A B].
  split; [eexists; split; reflexivity|]. split; [split; auto|]. split; [exact B|].
  intros k'. unfold akeys, a_drop; simpl. apply in_dkeys_ddel. apply (di_nc _ _ _ Hi).
Qed.

(* ------------------------------------------------------------------ *)
(** ** The Crp of the view *)

Lemma crp_inc_spec s r k s' : crp_inv s -> crp_incorporate s r k = (s', Ok tt) ->
  crp_inv s' /\ dget r (c_data s) = None /\ c_data s' = dset r k (c_data s) /\
  (forall t, In t (dkeys (c_counts s')) <-> t = k \/ In t (dkeys (c_counts s))) /\
  c_alpha s' = c_alpha s.
Proof.
  intros Hi E. pose proof (crp_inv_inc s r k Hi) as Hi'. rewrite E in Hi'. simpl in Hi'.
  unfold crp_incorporate in E. destruct (dmem r (c_data s)) eqn:Em; [discriminate|].
  injection E as <-. split; [exact Hi'|]. split; [apply dmem_false_None; exact Em|].
  split; [reflexivity|]. split; [|reflexivity].
  intros t. simpl. rewrite in_dkeys_dset. destruct (dmem k (c_counts s)); [tauto|].
  rewrite in_dkeys_dset. tauto.
Qed.

Lemma crp_uninc_spec s r k : crp_inv s -> dget r (c_data s) = Some k ->
  exists s', crp_unincorporate s r = (s', Ok tt) /\ crp_inv s' /\
    c_data s' = ddel r (c_data s) /\ c_alpha s' = c_alpha s /\
    (forall t, t <> k -> (In t (dkeys (c_counts s')) <-> In t (dkeys (c_counts s)))).
Proof.
  intros Hi Hr. destruct (crp_inv_uninc s r Hi) as [Hi' Hok].
  specialize (Hok k Hr). destruct (crp_unincorporate s r) as [s' r'] eqn:E. simpl in *.
  subst r'. exists s'. split; [reflexivity|]. split; [exact Hi'|].
  unfold crp_unincorporate in E. rewrite Hr in E.
  destruct (dget k (c_counts s)) as [n|] eqn:En; [|discriminate].
  destruct Hi as [_ [[Hnd _] _]].
  injection E as <-. simpl. split; [reflexivity|]. split; [reflexivity|].
  intros t Ht. destruct (n - 1 =? 0)%Z.
  - rewrite in_dkeys_ddel by (apply NoDup_dset; exact Hnd). rewrite in_dkeys_dset. tauto.
  - rewrite in_dkeys_dset. tauto.
Qed.

Lemma crp_rows_counts s r k : crp_inv s -> dget r (c_data s) = Some k ->
  In k (dkeys (c_counts s)).
Proof.
  intros [_ [Hc _]] H. apply (counts_of_keys _ _ k Hc). apply dget_In in H.
  unfold dvals. change k with (snd (r, k)). apply in_map. exact H.
Qed.

Lemma crp_counts_rows s k : crp_inv s -> In k (dkeys (c_counts s)) ->
  exists r, dget r (c_data s) = Some k.
Proof.
  intros [Hn [Hc _]] H. apply (counts_of_keys _ _ k Hc) in H.
  unfold dvals in H. apply in_map_iff in H. destruct H as [[r k'] [E Hin]]. simpl in E. subst k'.
  exists r. apply dget_In_NoDup; assumption.
Qed.

(* ------------------------------------------------------------------ *)
(** ** Insertion and removal of rows *)

Lemma view_insert_ok X0 X v r k obs v' : vinv X0 v ->
  (forall c r', r' <> r -> X c r' = X0 c r') ->
  (forall c a, dget c (v_dims v) = Some a -> exists x, dget c obs = Some x /\ X c r = Ok x) ->
  view_insert X v r k obs = (v', Ok tt) ->
  vinv X v' /\ dget r (v_rows v) = None /\ v_rows v' = dset r k (v_rows v) /\
  dkeys (v_dims v') = dkeys (v_dims v) /\ v_out v' = v_out v /\ v_grid v' = v_grid v /\
  c_alpha (v_crp v') = c_alpha (v_crp v) /\
  (forall c a', dget c (v_dims v') = Some a' -> exists a,
     dget c (v_dims v) = Some a /\ akin a a').
Proof.
  intros [Hc [Hn Hd]] Hoff Hobs. unfold view_insert.
  destruct (crp_incorporate (v_crp v) r k) as [c1 [[]|e]] eqn:Ec; [|discriminate].
  destruct (dims_incorporate X r k obs (v_dims v)) as [ds r2] eqn:Ed.
  intros E. injection E as <- ->.
  destruct (crp_inc_spec _ _ _ _ Hc Ec) as [C1 [C2 [C3 [C4 C5]]]].
  destruct (dims_inc_spec _ _ _ _ _ _ Ed) as [K S].
  assert (Hkin : forall c a', dget c ds = Some a' -> exists a,
    dget c (v_dims v) = Some a /\ akin a a').
  { intros c a' Ha'. destruct (S c a' Ha') as [a [x [ins [Sa [_ [_ Si]]]]]].
    exists a. split; [exact Sa|]. destruct (Hd c a Sa) as [Hi _].
    destruct (a_inc_ok _ _ _ _ _ _ Hi Si) as [A _]. exact A. }
  split; [|split; [exact C2|split; [exact C3|split; [exact K|split; [reflexivity|
    split; [reflexivity|split; [exact C5|exact Hkin]]]]]]].
  split; [exact C1|]. split; [simpl; rewrite K; exact Hn|].
  intros c a' Ha'. simpl in Ha'. destruct (S c a' Ha') as [a [x [ins [Sa [Sx [Sin Si]]]]]].
  destruct (Hd c a Sa) as [Hi [Hk Hr]].
  destruct (a_inc_ok _ _ _ _ _ _ Hi Si) as [A1 [A2 [A3 [A4 A5]]]].
  split; [exact A2|]. split.
  - intros k'. rewrite A5, Hk. simpl. symmetry. apply C4.
  - intros r'. unfold v_rows; simpl. rewrite C3, dget_dset, A4.
    destruct (r' =? r)%Z eqn:Er.
    + apply Z.eqb_eq in Er; subst r'.
      destruct (Hobs c a Sa) as [x' [Hx' HX]]. rewrite Sx in Hx'. injection Hx' as <-.
      rewrite (akin_expected X c a a' r A1). unfold expected. rewrite HX, Sin. eauto.
    + specialize (Hr r'). unfold v_rows in Hr.
      assert (Hex : expected X c a r' = expected X0 c a r').
      { apply Z.eqb_neq in Er. unfold expected, input_values.
        rewrite (Hoff c r' Er). erewrite map_ext; [reflexivity|].
        intros i. apply Hoff; exact Er. }
      destruct (dget r' (c_data (v_crp v))) as [k'|]; [|exact Hr].
      rewrite (akin_expected X c a a' r' A1), Hex. exact Hr.
Qed.

Lemma view_uninc_ok X v r k : vinv X v -> dget r (v_rows v) = Some k ->
  exists v', view_unincorporate v r = (v', Ok tt) /\ vinv X v' /\
    v_rows v' = ddel r (v_rows v) /\ dkeys (v_dims v') = dkeys (v_dims v) /\
    v_out v' = v_out v /\ v_grid v' = v_grid v /\
    c_alpha (v_crp v') = c_alpha (v_crp v) /\
    (forall c a', dget c (v_dims v') = Some a' -> exists a,
       dget c (v_dims v) = Some a /\ akin a a').
Proof.
  intros [Hc [Hn Hd]] Hr. unfold view_unincorporate.
  destruct (dims_uninc_progress r (v_dims v) Hn) as [ds Ed].
  { intros c a Ha. destruct (Hd c a Ha) as [Hi [_ H]]. split; [exact Hi|].
    specialize (H r). rewrite Hr in H. destruct H as [e [_ H]]. eauto. }
  rewrite Ed, Hr.
  destruct (crp_uninc_spec _ _ _ Hc Hr) as [c1 [Ec [C1 [C2 [C3 C4]]]]]. rewrite Ec.
  destruct (dims_uninc_spec _ _ _ Ed) as [K S].
  assert (Hnr : NoDup (dkeys (c_data (v_crp v)))) by apply Hc.
  (* the columns after the first loop *)
  assert (Hcol : forall c a', dget c ds = Some a' -> exists a,
    dget c (v_dims v) = Some a /\ akin a a' /\ ainv a' /\
    (forall k', In k' (akeys a') <-> In k' (dkeys (c_counts (v_crp v)))) /\
    forall r', match dget r' (c_data c1) with
               | None => acontent a' r' = None
               | Some k' => exists e, expected X c a' r' = Some e /\
                                      acontent a' r' = Some (k', e)
               end).
  { intros c a' Ha'. destruct (S c a' Ha') as [a [Sa Su]]. exists a. split; [exact Sa|].
    destruct (Hd c a Sa) as [Hi [Hk Hrr]].
    destruct (a_uninc_inv _ _ _ Hi Su) as [A1 [A2 [_ [A4 A5]]]].
    split; [exact A1|]. split; [exact A2|]. split.
    - intros k'. rewrite A5. apply Hk.
    - intros r'. rewrite C2, dget_ddel, A4 by exact Hnr.
      destruct (r' =? r)%Z eqn:Er; [reflexivity|].
      specialize (Hrr r'). unfold v_rows in Hrr.
      destruct (dget r' (c_data (v_crp v))); [|exact Hrr].
      rewrite (akin_expected X c a a' r' A1). exact Hrr. }
  destruct (dmem k (c_counts c1)) eqn:Ek.
  - eexists. split; [reflexivity|].
    split; [|split; [exact C2|split; [exact K|split; [reflexivity|split; [reflexivity|
      split; [exact C3|]]]]]].
    + split; [exact C1|]. split; [simpl; rewrite K; exact Hn|].
      intros c a' Ha'. destruct (Hcol c a' Ha') as [a [_ [_ [A2 [A3 A4]]]]].
      split; [exact A2|]. split; [|exact A4].
      intros k'. rewrite A3. simpl. destruct (Z.eq_dec k' k) as [->|Hne].
      * apply dmem_in in Ek. split; [auto|]. intros _. eapply crp_rows_counts; eassumption.
      * symmetry. apply C4; exact Hne.
    + intros c a' Ha'. destruct (Hcol c a' Ha') as [a [A0 [A1 _]]]. eauto.
  - apply dmem_false in Ek.
    assert (Hnk : forall c a', dget c ds = Some a' -> In k (akeys a') /\
              forall r' v', acontent a' r' <> Some (k, v')).
    { intros c a' Ha'. destruct (Hcol c a' Ha') as [a [_ [_ [A2 [A3 A4]]]]].
      split; [apply A3; eapply crp_rows_counts; eassumption|].
      intros r' v' Hr'. specialize (A4 r'). destruct (dget r' (c_data c1)) as [k'|] eqn:Er'.
      - destruct A4 as [e [_ A4]]. rewrite A4 in Hr'. injection Hr' as -> _.
        apply Ek. eapply crp_rows_counts; eassumption.
      - congruence. }
    destruct (dims_drop_progress k ds) as [ds2 Ed2].
    { rewrite K. exact Hn. }
    { intros c a' Ha'. apply (Hnk c a' Ha'). }
    rewrite Ed2. destruct (dims_drop_spec _ _ _ Ed2) as [K2 S2].
    eexists. split; [reflexivity|].
    split; [|split; [exact C2|split; [simpl; congruence|split; [reflexivity|split; [reflexivity|
      split; [exact C3|]]]]]].
    + split; [exact C1|]. split; [simpl; rewrite K2, K; exact Hn|].
      intros c a2 Ha2. simpl in Ha2. destruct (S2 c a2 Ha2) as [a' [Ha' [_ ->]]].
      destruct (Hcol c a' Ha') as [a [_ [A1 [A2 [A3 A4]]]]].
      destruct (Hnk c a' Ha') as [_ Hno].
      destruct (a_drop_ok k a' A2 Hno) as [B1 [B2 [B3 B4]]].
      split; [exact B2|]. split.
      * intros k'. rewrite B4, A3. simpl. destruct (Z.eq_dec k' k) as [->|Hne]; [tauto|].
        rewrite C4 by exact Hne. tauto.
      * intros r'. unfold v_rows; simpl. rewrite B3, (akin_expected X c _ _ r' B1). apply A4.
    + intros c a2 Ha2. simpl in Ha2. destruct (S2 c a2 Ha2) as [a' [Ha' [_ ->]]].
      destruct (Hcol c a' Ha') as [a [A0 [A1 [A2 _]]]].
      destruct (Hnk c a' Ha') as [_ Hno].
      destruct (a_drop_ok k a' A2 Hno) as [B1 _].
      exists a. split; [exact A0|]. eapply akin_trans; eassumption.
Qed.

Lemma view_uninc_none X v r : vinv X v -> dget r (v_rows v) = None ->
  exists e, view_unincorporate v r = (v, Err e).
Proof.
  intros [Hc [Hn Hd]] Hr. unfold view_unincorporate.
  destruct (v_dims v) as [|[c a] ds] eqn:Ev.
  - simpl. rewrite Hr. unfold set_dims. rewrite <- Ev. destruct v; simpl in *; eauto.
  - simpl. destruct (Hd c a) as [Hi [_ H]]; [simpl; rewrite Z.eqb_refl; reflexivity|].
    specialize (H r). rewrite Hr in H. rewrite (a_uninc_none a r Hi H).
    unfold set_dims. rewrite <- Ev. destruct v; simpl in *; eauto.
Qed.

Lemma rsequence_inv {A} (l : list (res A)) ys : rsequence l = Ok ys -> map Ok ys = l.
Proof.
  revert ys. induction l as [|x l IH]; intros ys; simpl.
  { intros E. injection E as <-. reflexivity. }
  destruct x as [x|]; simpl; [|discriminate].
  destruct (rsequence l) as [zs|]; simpl; [|discriminate].
  intros E. injection E as <-. simpl. f_equal. apply IH. reflexivity.
Qed.

Lemma table_row_spec X v r obs : table_row X v r = Ok obs ->
  forall c a, dget c (v_dims v) = Some a -> exists x, dget c obs = Some x /\ X c r = Ok x.
Proof.
  unfold table_row. intros E. apply rsequence_inv in E. revert obs E.
  induction (v_dims v) as [|[c0 a0] ds IH]; intros obs E c a; simpl; [discriminate|].
  simpl in E. destruct obs as [|[c1 x1] obs]; [discriminate|]. simpl in E.
  destruct (X c0 r) as [x|] eqn:EX; simpl in E; [|discriminate].
  injection E as -> -> E. destruct (c =? c0)%Z eqn:Ec; simpl; rewrite Ec.
  - apply Z.eqb_eq in Ec; subst c0. intros _. eauto.
  - apply IH; exact E.
Qed.

Lemma table_row_ok X v r k : vinv X v -> dget r (v_rows v) = Some k ->
  exists obs, table_row X v r = Ok obs.
Proof.
  intros [_ [Hn Hd]] Hr. unfold table_row.
  assert (H : forall c a, dget c (v_dims v) = Some a -> exists x, X c r = Ok x).
  { intros c a Ha. destruct (Hd c a Ha) as [_ [_ H]]. specialize (H r). rewrite Hr in H.
    destruct H as [e [H _]]. unfold expected in H. destruct (X c r); [eauto|discriminate]. }
  clear Hd Hr. induction (v_dims v) as [|[c a] ds IH]; simpl; [eauto|].
  inversion Hn; subst. destruct (H c a) as [x Hx]; [simpl; rewrite Z.eqb_refl; reflexivity|].
  rewrite Hx. simpl. destruct IH as [obs Eo]; [assumption| |rewrite Eo; simpl; eauto].
  intros c' a' Hc'. apply (H c' a'). simpl. destruct (c' =? c)%Z eqn:E; [|exact Hc'].
  apply Z.eqb_eq in E; subst c'. apply dget_Some_in in Hc'. contradiction.
Qed.

Lemma view_migrate_ok X v r k v' : vinv X v -> view_migrate X v r k = (v', Ok tt) ->
  vinv X v' /\ v_rows v' = dset r k (ddel r (v_rows v)) /\
  dkeys (v_dims v') = dkeys (v_dims v) /\ v_out v' = v_out v /\ v_grid v' = v_grid v.
Proof.
  intros Hv. unfold view_migrate. destruct (dget r (v_rows v)) as [z|] eqn:Hr.
  2:{ destruct (view_uninc_none X v r Hv Hr) as [e E]. rewrite E. discriminate. }
  destruct (view_uninc_ok X v r z Hv Hr) as [v1 [E1 [H1 [R1 [K1 [O1 [G1 [A1 D1]]]]]]]].
  rewrite E1. destruct (table_row X v1 r) as [obs|] eqn:Et; [|discriminate].
  intros E. destruct (view_insert_ok X X v1 r k obs v' H1) as [H2 [_ [R2 [K2 [O2 [G2 _]]]]]]; auto.
  { apply table_row_spec; exact Et. }
  split; [exact H2|]. split; [rewrite R2, R1; reflexivity|]. repeat split; congruence.
Qed.

(* ------------------------------------------------------------------ *)
(** ** Row transitions *)

Lemma cell_gibbs_same X r z k c a a' lp : ainv a ->
  (exists e, expected X c a r = Some e /\ acontent a r = Some (z, e)) ->
  (In z (akeys a)) ->
  cell_gibbs X r z k c a = (a', Ok lp) -> asame a a'.
Proof.
  intros Hi [e [He Hce]] Hz. unfold cell_gibbs. unfold expected in He.
  destruct (X c r) as [x|]; [|discriminate].
  destruct (input_values X r a) as [ins|] eqn:Ein; [|discriminate].
  injection He as <-.
  destruct (z =? k)%Z eqn:Ez.
  2:{ intros E. injection E as <- _. apply asame_refl; exact Hi. }
  apply Z.eqb_eq in Ez; subst k.
  destruct (a_unincorporate a r) as [a1 [[]|e]] eqn:Eu; [|discriminate].
  destruct (a_uninc_inv _ _ _ Hi Eu) as [A1 [A2 [_ [A4 A5]]]].
  destruct (a_logpdf a1 r z x ins) as [lp'|]; [|discriminate].
  destruct (a_incorporate a1 r z x ins) as [a2 [[]|e]] eqn:Ei; simpl; [|discriminate].
  intros E. injection E as <- _.
  destruct (a_inc_ok _ _ _ _ _ _ A2 Ei) as [B1 [B2 [B3 [B4 B5]]]].
  split; [eapply akin_trans; eassumption|]. split; [exact B2|]. split.
  - intros r'. rewrite B4, A4. destruct (r' =? r)%Z eqn:E; [|reflexivity].
    apply Z.eqb_eq in E; subst r'. rewrite Hce.
    destruct A1 as [d1 [-> _]]. reflexivity.
  - intros k'. rewrite B5, A5. split; [intros [->|H]; auto|auto].
Qed.

Lemma row_gibbs_dims_same X r z k ds ds' lps :
  (forall c a, In (c, a) ds -> ainv a /\ In z (akeys a) /\
     exists e, expected X c a r = Some e /\ acontent a r = Some (z, e)) ->
  row_gibbs_dims X r z k ds = (ds', Ok lps) ->
  Forall2 (fun ca ca' => fst ca = fst ca' /\ asame (snd ca) (snd ca')) ds ds'.
Proof.
  revert ds' lps. induction ds as [|[c a] ds IH]; intros ds' lps H; simpl.
  { intros E. injection E as <- <-. constructor. }
  destruct (cell_gibbs X r z k c a) as [a' [lp|e]] eqn:Ec; [|discriminate].
  destruct (row_gibbs_dims X r z k ds) as [ds2 r2] eqn:Ed.
  destruct r2 as [l2|e]; simpl; [|discriminate].
  intros E. injection E as <- _. constructor.
  - simpl. split; [reflexivity|]. destruct (H c a (or_introl eq_refl)) as [Hi [Hz He]].
    eapply cell_gibbs_same; eassumption.
  - eapply IH; [|reflexivity]. intros c2 a2 Hin. apply H. right; exact Hin.
Qed.

Lemma Forall2_dims ds ds' :
  Forall2 (fun ca ca' : Z * adim => fst ca = fst ca' /\ asame (snd ca) (snd ca')) ds ds' ->
  dkeys ds' = dkeys ds /\
  forall c a', dget c ds' = Some a' -> exists a, dget c ds = Some a /\ asame a a'.
Proof.
  induction 1 as [|[c a] [c' a'] ds ds' [E H] _ [K S]]; simpl in *.
  { split; [reflexivity|discriminate]. }
  subst c'. split; [f_equal; exact K|].
  intros c0 a0. destruct (c0 =? c)%Z; [|apply S].
  intros E. injection E as <-. eauto.
Qed.

Lemma Forall2_asame_trans ds1 ds2 ds3 :
  Forall2 (fun ca ca' : Z * adim => fst ca = fst ca' /\ asame (snd ca) (snd ca')) ds1 ds2 ->
  Forall2 (fun ca ca' : Z * adim => fst ca = fst ca' /\ asame (snd ca) (snd ca')) ds2 ds3 ->
  Forall2 (fun ca ca' : Z * adim => fst ca = fst ca' /\ asame (snd ca) (snd ca')) ds1 ds3.
Proof.
  intros H. revert ds3. induction H as [|x y l l' [E S] _ IH]; intros ds3 H3; inversion H3; subst.
  - constructor.
  - constructor; [|apply IH; assumption].
    match goal with HH : _ /\ _ |- _ => destruct HH as [E' S'] end.
    split; [congruence|]. eapply asame_trans; eassumption.
Qed.

Lemma row_gibbs_same X r z K ds ds' lps :
  (forall c a, In (c, a) ds -> ainv a /\ In z (akeys a) /\
     exists e, expected X c a r = Some e /\ acontent a r = Some (z, e)) ->
  row_gibbs X r z K ds = (ds', Ok lps) ->
  Forall2 (fun ca ca' => fst ca = fst ca' /\ asame (snd ca) (snd ca')) ds ds'.
Proof.
  revert ds ds' lps. induction K as [|k K IH]; intros ds ds' lps H; simpl.
  { intros E. injection E as <- <-. induction ds as [|[c a] ds IHd]; constructor.
    - simpl. split; [reflexivity|]. apply asame_refl. apply (H c a). left; reflexivity.
    - apply IHd. intros c' a' Hin. apply H. right; exact Hin. }
  destruct (row_gibbs_dims X r z k ds) as [ds1 [l|e]] eqn:Ed; [|discriminate].
  pose proof (row_gibbs_dims_same _ _ _ _ _ _ _ H Ed) as S1.
  destruct (row_gibbs X r z K ds1) as [ds2 r2] eqn:Er.
  destruct r2 as [ls|e]; simpl; [|discriminate]. intros E. injection E as <- _.
  eapply Forall2_asame_trans; [exact S1|]. eapply IH; [|exact Er].
  intros c a' Hin. clear -H S1 Hin.
  induction S1 as [|[c0 a0] [c1 a1] l l' [E S] _ IH]; simpl in *; [contradiction|].
  destruct Hin as [Hin|Hin].
  - injection Hin as -> ->. subst c0. destruct (H c a0 (or_introl eq_refl)) as [Hi [Hz [e [He Hc]]]].
    destruct S as [S1 [S2 [S3 S4]]]. split; [exact S2|]. split; [apply S4; exact Hz|].
    exists e. rewrite S3, (akin_expected X c a0 a' r S1). auto.
  - apply IH; [|exact Hin]. intros c2 a2 H2. apply H. right; exact H2.
Qed.

Lemma In_dget {A} c (a : A) ds : NoDup (dkeys ds) -> In (c, a) ds -> dget c ds = Some a.
Proof. apply dget_In_NoDup. Qed.

Lemma set_dims_vinv X v ds : vinv X v ->
  Forall2 (fun ca ca' => fst ca = fst ca' /\ asame (snd ca) (snd ca')) (v_dims v) ds ->
  vinv X (set_dims v ds).
Proof.
  intros [Hc [Hn Hd]] S. destruct (Forall2_dims _ _ S) as [K S'].
  split; [exact Hc|]. split; [simpl; rewrite K; exact Hn|].
  intros c a' Ha'. destruct (S' c a' Ha') as [a [Ha Hs]].
  eapply column_ok_same; [apply Hd; exact Ha|exact Hs|reflexivity|reflexivity].
Qed.

Lemma row_weights_ok X v r v1 K w : vinv X v -> row_weights X v r = (v1, Ok (K, w)) ->
  vinv X v1 /\ v_crp v1 = v_crp v /\ dkeys (v_dims v1) = dkeys (v_dims v) /\
  v_out v1 = v_out v /\ v_grid v1 = v_grid v /\
  crp_gibbs_tables (v_crp v) r 1 = Ok K.
Proof.
  intros Hv. unfold row_weights.
  destruct (crp_gibbs_tables (v_crp v) r 1) as [K0|]; [|discriminate].
  destruct (crp_gibbs_logps (v_crp v) r 1) as [lc|]; [|discriminate].
  destruct (dget r (v_rows v)) as [z|] eqn:Hr; [|discriminate].
  destruct (row_gibbs X r z K0 (v_dims v)) as [ds rr] eqn:Eg.
  destruct rr as [ld|e]; simpl; [|discriminate].
  destruct (length ld =? length lc)%nat; [|discriminate].
  intros E. injection E as <- <- _.
  assert (S : Forall2 (fun ca ca' => fst ca = fst ca' /\ asame (snd ca) (snd ca'))
                (v_dims v) ds).
  { eapply row_gibbs_same; [|exact Eg]. destruct Hv as [Hc [Hn Hd]].
    intros c a Hin. apply In_dget in Hin; [|exact Hn].
    destruct (Hd c a Hin) as [Hi [Hk H]]. split; [exact Hi|]. split.
    - apply Hk. eapply crp_rows_counts; eassumption.
    - specialize (H r). rewrite Hr in H. exact H. }
  split; [apply set_dims_vinv; assumption|]. split; [reflexivity|].
  split; [apply Forall2_dims; exact S|]. auto.
Qed.

Lemma transition_row_ok X draw v r v' : vinv X v -> transition_row X draw v r = (v', Ok tt) ->
  vinv X v' /\ dkeys (v_dims v') = dkeys (v_dims v) /\ v_out v' = v_out v /\
  v_grid v' = v_grid v /\
  (forall r', In r' (dkeys (v_rows v')) <-> In r' (dkeys (v_rows v))) /\
  (forall r', r' <> r -> dget r' (v_rows v') = dget r' (v_rows v)).
Proof.
  intros Hv. unfold transition_row.
  destruct (row_weights X v r) as [v1 [[K w]|e]] eqn:Ew; [|discriminate].
  destruct (row_weights_ok _ _ _ _ _ _ Hv Ew) as [H1 [C1 [K1 [O1 [G1 _]]]]].
  destruct (log_pflip draw w K) as [zb|]; [|discriminate].
  destruct (dget r (v_rows v1)) as [z|] eqn:Er; [|discriminate].
  assert (R1 : v_rows v1 = v_rows v) by (unfold v_rows; rewrite C1; reflexivity).
  destruct (z =? zb)%Z.
  - intros E. injection E as <-. rewrite R1. do 4 (split; [assumption|]). split; [tauto|reflexivity].
  - intros E. destruct (view_migrate_ok _ _ _ _ _ H1 E) as [H2 [R2 [K2 [O2 G2]]]].
    rewrite R1 in *. split; [exact H2|]. split; [congruence|]. split; [congruence|].
    split; [congruence|].
    assert (Hnr : NoDup (dkeys (v_rows v))) by apply Hv.
    split; [intros r'; rewrite R2, in_dkeys_dset, in_dkeys_ddel by exact Hnr|].
    + split.
      * intros [->|[_ H]]; [eapply dget_Some_in; exact Er|exact H].
      * intros H. destruct (Z.eq_dec r' r); [auto|right; auto].
    + intros r' Hne. rewrite R2, dget_dset_other, dget_ddel_other by congruence. reflexivity.
Qed.

Lemma transition_rows_ok X draws v rows v' : vinv X v ->
  transition_rows X draws v rows = (v', Ok tt) ->
  vinv X v' /\ dkeys (v_dims v') = dkeys (v_dims v) /\ v_out v' = v_out v /\
  v_grid v' = v_grid v /\
  (forall r', In r' (dkeys (v_rows v')) <-> In r' (dkeys (v_rows v))) /\
  (forall r', ~ In r' rows -> dget r' (v_rows v') = dget r' (v_rows v)).
Proof.
  revert v. induction rows as [|r rows IH]; intros v Hv; simpl.
  { intros E. injection E as <-. do 4 (split; [assumption || reflexivity|]). split; [tauto|reflexivity]. }
  destruct (transition_row X (draws (length rows)) v r) as [v1 [[]|e]] eqn:E1; [|discriminate].
  destruct (transition_row_ok _ _ _ _ _ Hv E1) as [H1 [K1 [O1 [G1 [R1 S1]]]]].
  intros E. destruct (IH v1 H1 E) as [H2 [K2 [O2 [G2 [R2 S2]]]]].
  split; [exact H2|]. repeat split; try congruence.
  - intros H. apply R1, R2, H.
  - intros H. apply R2, R1, H.
  - intros r' Hn. rewrite S2 by tauto. apply S1. intros ->. tauto.
Qed.

Lemma view_inc_ok X0 X draws v r k obs v' : vinv X0 v ->
  (forall c r', r' <> r -> X c r' = X0 c r') ->
  (forall c a, dget c (v_dims v) = Some a -> exists x, dget c obs = Some x /\ X c r = Ok x) ->
  view_incorporate X draws v r k obs = (v', Ok tt) ->
  vinv X v' /\ dget r (v_rows v) = None /\
  dkeys (v_dims v') = dkeys (v_dims v) /\ v_out v' = v_out v /\ v_grid v' = v_grid v /\
  (exists k', dget r (v_rows v') = Some k' /\ (forall k0, k = Some k0 -> k' = k0)) /\
  (forall r', r' <> r -> dget r' (v_rows v') = dget r' (v_rows v)).
Proof.
  intros Hv Hoff Hobs. unfold view_incorporate.
  destruct (view_insert X v r (match k with Some k0 => k0 | None => 0%Z end) obs)
    as [v1 [[]|e]] eqn:E1; [|discriminate].
  destruct (view_insert_ok _ _ _ _ _ _ _ Hv Hoff Hobs E1)
    as [H1 [N1 [R1 [K1 [O1 [G1 _]]]]]].
  destruct k as [k|].
  - intros E. injection E as <-. split; [exact H1|]. split; [exact N1|].
    split; [exact K1|]. split; [exact O1|]. split; [exact G1|]. rewrite R1. split.
    + exists k. rewrite dget_dset_same. split; [reflexivity|]. intros k0 Hk. congruence.
    + intros r' Hne. apply dget_dset_other; exact Hne.
  - intros E. destruct (transition_rows_ok _ _ _ _ _ H1 E) as [H2 [K2 [O2 [G2 [R2 S2]]]]].
    split; [exact H2|]. split; [exact N1|]. split; [congruence|]. split; [congruence|].
    split; [congruence|]. split.
    + assert (Hin : In r (dkeys (v_rows v'))).
      { apply R2. rewrite R1. apply in_dkeys_dset. auto. }
      apply in_dkeys_Some in Hin. destruct Hin as [k' Hk']. exists k'. split; [exact Hk'|].
      discriminate.
    + intros r' Hne. rewrite S2, R1 by (simpl; intuition congruence).
      apply dget_dset_other; exact Hne.
Qed.

(* ------------------------------------------------------------------ *)
(** ** Columns *)

Lemma bulk_rows_spec X c rows a a' : ainv a -> NoDup (dkeys rows) ->
  bulk_rows X c rows a = (a', Ok tt) ->
  akin a a' /\ ainv a' /\
  (forall r, match dget r rows with
             | Some k => acontent a r = None /\
                 exists e, expected X c a r = Some e /\ acontent a' r = Some (k, e)
             | None => acontent a' r = acontent a r
             end) /\
  (forall k, In k (akeys a') <-> In k (dvals rows) \/ In k (akeys a)).
Proof.
  revert a. induction rows as [|[r0 k0] rows IH]; intros a Hi Hn; simpl.
  { intros E. injection E as <-. split; [apply akin_refl|]. split; [exact Hi|].
    split; [reflexivity|]. tauto. }
  inversion Hn; subst.
  destruct (X c r0) as [x|] eqn:EX; [|discriminate].
  destruct (input_values X r0 a) as [ins|] eqn:Ei; [|discriminate].
  destruct (a_incorporate a r0 k0 x ins) as [a1 [[]|e]] eqn:Ea; [|discriminate].
  destruct (a_inc_ok _ _ _ _ _ _ Hi Ea) as [A1 [A2 [A3 [A4 A5]]]].
  intros E. destruct (IH a1 A2 H2 E) as [B1 [B2 [B3 B4]]].
  split; [eapply akin_trans; eassumption|]. split; [exact B2|]. split.
  - intros r. specialize (B3 r). destruct (r =? r0)%Z eqn:Er.
    + apply Z.eqb_eq in Er; subst r. apply dget_None_notin in H1. rewrite H1 in B3.
      split; [exact A3|]. rewrite B3, A4, Z.eqb_refl. unfold expected. rewrite EX, Ei. eauto.
    + specialize (A4 r). rewrite Er in A4. rewrite A4 in B3.
      destruct (dget r rows); [|exact B3]. rewrite (akin_expected X c a a1 r A1) in B3. exact B3.
  - intros k. rewrite B4, A5. unfold dvals. simpl. intuition.
Qed.

Lemma a_reset_ok a : ainv a ->
  akin a (a_reset a) /\ ainv (a_reset a) /\ (forall r, acontent (a_reset a) r = None) /\
  akeys (a_reset a) = [].
Proof.
  intros [HL Hi]. split; [eexists; split; reflexivity|]. split.
  - split; [exact HL|]. apply dinv_fresh_aux; [exact HL|].
    constructor; simpl; try (constructor; fail); try contradiction; try discriminate; auto.
    + apply (di_aux _ _ _ Hi).
  - split; [|reflexivity]. intros r. reflexivity.
Qed.

Lemma bulk_ok X v c a a' : crp_inv (v_crp v) -> ainv a ->
  bulk_incorporate X v c a = (a', Ok tt) -> akin a a' /\ column_ok X v c a'.
Proof.
  intros Hc Hi. unfold bulk_incorporate.
  destruct (bulk_rows X c (v_rows v) (a_reset a)) as [a1 [[]|e]] eqn:Eb; [|discriminate].
  destruct (zdict_eq _ _); [|discriminate]. intros E.
  destruct (a_reset_ok a Hi) as [R1 [R2 [R3 R4]]].
  assert (Hnr : NoDup (dkeys (v_rows v))) by apply Hc.
  destruct (bulk_rows_spec _ _ _ _ _ R2 Hnr Eb) as [B1 [B2 [B3 B4]]].
  destruct (a_call_same a1 CallParams a' (Ok tt) B2) as [S1 [S2 [S3 S4]]]; [exact E|].
  split; [eapply akin_trans; [exact R1|eapply akin_trans; eassumption]|].
  split; [exact S2|]. split.
  - intros k. rewrite S4, B4, R4. simpl. destruct Hc as [_ [Hct _]].
    rewrite (counts_of_keys _ _ k Hct). unfold v_rows. tauto.
  - intros r. rewrite S3, (akin_expected X c a1 a' r S1).
    specialize (B3 r). destruct (dget r (v_rows v)) as [k|].
    + destruct B3 as [_ B3]. rewrite (akin_expected X c _ a1 r B1). exact B3.
    + rewrite B3. apply R3.
Qed.

Lemma incorporate_dim_ok X v c a (b : bool) v' a' : vinv X v ->
  (if b then ainv a else column_ok X v c a) ->
  view_incorporate_dim X v c a b = (v', a', Ok tt) ->
  vinv X v' /\ akin a a' /\ column_ok X v c a' /\ v_rows v' = v_rows v /\
  v_crp v' = v_crp v /\ v_dims v' = dset c a' (v_dims v).
Proof.
  intros [Hc [Hn Hd]] Ha. unfold view_incorporate_dim.
  assert (Hcol : forall a1 r, (if b then bulk_incorporate X v c a else (a, Ok tt)) = (a1, Ok r) ->
            akin a a1 /\ column_ok X v c a1).
  { intros a1 [] E. destruct b.
    - eapply bulk_ok; eassumption.
    - injection E as <-. split; [apply akin_refl|exact Ha]. }
  destruct (if b then bulk_incorporate X v c a else (a, Ok tt)) as [a1 [u|e]] eqn:E1; [|discriminate].
  destruct (Hcol a1 u eq_refl) as [K Hco].
  intros E. injection E as <- <-. split; [|auto].
  split; [exact Hc|]. split; [simpl; apply NoDup_dset; exact Hn|].
  intros c' a2. simpl. rewrite dget_dset. destruct (c' =? c)%Z eqn:Ec.
  - apply Z.eqb_eq in Ec; subst c'. intros H. injection H as <-. exact Hco.
  - apply Hd.
Qed.

Lemma unincorporate_dim_ok X v c v' : vinv X v -> view_unincorporate_dim v c = (v', Ok tt) ->
  vinv X v' /\ v_rows v' = v_rows v /\ v_crp v' = v_crp v /\ v_dims v' = ddel c (v_dims v) /\
  In c (dkeys (v_dims v)).
Proof.
  intros [Hc [Hn Hd]]. unfold view_unincorporate_dim.
  destruct (dmem c (v_dims v)) eqn:Em; [|discriminate].
  intros E. injection E as <-. split; [|apply dmem_in in Em; auto].
  split; [exact Hc|]. split; [simpl; apply NoDup_ddel; exact Hn|].
  intros c' a. simpl. rewrite dget_ddel by exact Hn. destruct (c' =? c)%Z; [discriminate|].
  apply Hd.
Qed.

Lemma update_cctype_ok X v c a v' : vinv X v -> ainv a ->
  view_update_cctype X v c a = (v', Ok tt) ->
  vinv X v' /\ v_rows v' = v_rows v /\ v_crp v' = v_crp v /\
  (forall c', In c' (dkeys (v_dims v')) <-> In c' (dkeys (v_dims v))) /\
  (forall c', c' <> c -> dget c' (v_dims v') = dget c' (v_dims v)) /\
  (exists a', dget c (v_dims v') = Some a' /\ akin a a').
Proof.
  intros Hv Ha. unfold view_update_cctype.
  destruct (view_unincorporate_dim v c) as [v1 [[]|e]] eqn:E1; [|discriminate].
  destruct (unincorporate_dim_ok _ _ _ _ Hv E1) as [H1 [R1 [C1 [D1 I1]]]].
  destruct (view_incorporate_dim X v1 c a true) as [[v2 a2] r2] eqn:E2.
  intros E. injection E as <- ->.
  destruct (incorporate_dim_ok X v1 c a true v2 a2 H1 Ha E2) as [H2 [K2 [_ [R2 [C2 D2]]]]].
  assert (Hn : NoDup (dkeys (v_dims v))) by apply Hv.
  split; [exact H2|]. split; [congruence|]. split; [congruence|]. rewrite D2, D1.
  split; [|split].
  - intros c'. rewrite in_dkeys_dset, in_dkeys_ddel by exact Hn.
    split; [intros [->|[_ H]]; auto|]. intros H. destruct (Z.eq_dec c' c); auto.
  - intros c' Hne. rewrite dget_dset_other, dget_ddel_other by congruence. reflexivity.
  - exists a2. rewrite dget_dset_same. auto.
Qed.

Lemma view_call_ok X v c o v' r : vinv X v -> view_call v c o = (v', r) ->
  vinv X v' /\ v_crp v' = v_crp v /\ dkeys (v_dims v') = dkeys (v_dims v) /\
  (forall c' a', dget c' (v_dims v') = Some a' -> exists a,
     dget c' (v_dims v) = Some a /\ asame a a').
Proof.
  intros Hv. pose proof Hv as [Hc [Hn Hd]]. unfold view_call.
  destruct (dget c (v_dims v)) as [a|] eqn:Ea.
  2:{ intros E. injection E as <- _. split; [exact Hv|]. split; [reflexivity|].
      split; [reflexivity|]. intros c' a' Ha'. exists a'. split; [exact Ha'|].
      apply asame_refl. apply (Hd c' a' Ha'). }
  destruct (a_call a o) as [a1 r1] eqn:Ec. intros E. injection E as <- _.
  destruct (Hd c a Ea) as [Hi _].
  pose proof (a_call_same a o a1 r1 Hi Ec) as S.
  assert (Hk : dkeys (dset c a1 (v_dims v)) = dkeys (v_dims v)).
  { apply dkeys_dset_in. eapply dget_Some_in; exact Ea. }
  assert (Hg : forall c' a', dget c' (dset c a1 (v_dims v)) = Some a' -> exists a0,
     dget c' (v_dims v) = Some a0 /\ asame a0 a').
  { intros c' a'. rewrite dget_dset. destruct (c' =? c)%Z eqn:E.
    - apply Z.eqb_eq in E; subst c'. intros H. injection H as <-. eauto.
    - intros H. exists a'. split; [exact H|]. apply asame_refl. apply (Hd c' a' H). }
  split; [|auto]. split; [exact Hc|]. split; [simpl; rewrite Hk; exact Hn|].
  intros c' a' Ha'. destruct (Hg c' a' Ha') as [a0 [H0 S0]].
  eapply column_ok_same; [apply Hd; exact H0|exact S0|reflexivity|reflexivity].
Qed.

Lemma alpha_scores_same lgam c grid c' r : alpha_scores lgam c grid = (c', r) ->
  c_data c' = c_data c /\ c_counts c' = c_counts c /\ c_N c' = c_N c /\
  (c_alpha c' = c_alpha c \/ In (c_alpha c') grid).
Proof.
  revert c c' r. induction grid as [|a grid IH]; intros c c' r; simpl.
  { intros E. injection E as <- _. auto. }
  unfold crp_set_hypers. destruct (Rltb 0 a) eqn:Ea; simpl.
  2:{ intros E. injection E as <- _. auto. }
  destruct (crp_score lgam _) as [s|e]; simpl.
  2:{ intros E. injection E as <- _. simpl. intuition. }
  destruct (alpha_scores lgam _ grid) as [c2 r2] eqn:E2. intros E. injection E as <- _.
  destruct (IH _ _ _ E2) as [A [B [C D]]]. simpl in *.
  split; [exact A|]. split; [exact B|]. split; [exact C|]. right. destruct D; auto.
Qed.

Lemma crp_inv_alpha c c' : crp_inv c -> c_data c' = c_data c -> c_counts c' = c_counts c ->
  c_N c' = c_N c -> crp_inv c'.
Proof. intros H E1 E2 E3. unfold crp_inv in *. rewrite E1, E2, E3. exact H. Qed.

Lemma choice_in {A} draw (l : list A) p x : choice draw l p = Ok x -> In x l.
Proof.
  unfold choice. destruct (_ && _); [|discriminate].
  destruct (nth_error l (draw p)) eqn:E; [|discriminate].
  intros H. injection H as <-. eapply nth_error_In; exact E.
Qed.

Lemma log_pflip_in {A} draw w (l : list A) x : log_pflip draw w l = Ok x -> In x l.
Proof.
  unfold log_pflip. destruct (log_normalize w) as [p|]; simpl; [|discriminate].
  unfold pflip. destruct (map eexp p) as [|y [|z q]]; try apply choice_in.
  destruct l as [|b l]; [discriminate|]. intros E. injection E as <-. left; reflexivity.
Qed.

Lemma crp_transition_alpha_same lgam draw grid c c' r :
  crp_transition_alpha lgam draw grid c = (c', r) ->
  c_data c' = c_data c /\ c_counts c' = c_counts c /\ c_N c' = c_N c /\
  (r = Ok tt -> In (c_alpha c') grid).
Proof.
  unfold crp_transition_alpha.
  destruct (alpha_scores lgam c grid) as [c1 r1] eqn:E1.
  destruct (alpha_scores_same _ _ _ _ _ E1) as [A [B [C D]]].
  destruct (rbind r1 (fun logps => log_pflip draw logps grid)) as [a|e] eqn:Er.
  - unfold crp_set_hypers. destruct (Rltb 0 a).
    + intros E. injection E as <- <-. simpl. do 3 (split; [assumption|]).
      intros _. destruct r1; simpl in Er; [|discriminate]. eapply log_pflip_in; exact Er.
    + intros E. injection E as <- <-. do 3 (split; [assumption|]). discriminate.
  - intros E. injection E as <- <-. do 3 (split; [assumption|]). discriminate.
Qed.

Lemma set_crp_vinv X v c : vinv X v -> c_data c = c_data (v_crp v) ->
  c_counts c = c_counts (v_crp v) -> c_N c = c_N (v_crp v) -> vinv X (set_crp v c).
Proof.
  intros [Hc [Hn Hd]] E1 E2 E3. split; [eapply crp_inv_alpha; eassumption|].
  split; [exact Hn|]. intros c' a Ha. destruct (Hd c' a Ha) as [A [B C]].
  split; [exact A|]. split; [intros k; simpl; rewrite E2; apply B|].
  intros r. unfold v_rows; simpl. rewrite E1. apply C.
Qed.

Lemma view_alpha_ok X lgam draws v v' r : vinv X v ->
  view_transition_alpha lgam draws v = (v', r) ->
  vinv X v' /\ v_rows v' = v_rows v /\ v_dims v' = v_dims v /\
  v_grid v' = v_grid v /\ v_out v' = v_out v /\
  (r = Ok tt -> In (c_alpha (v_crp v')) (v_grid v)).
Proof.
  intros Hv. unfold view_transition_alpha.
  destruct (crp_transition_alpha lgam (draws 0%nat) (v_grid v) (v_crp v)) as [c1 r1] eqn:E1.
  destruct (crp_transition_alpha_same _ _ _ _ _ _ E1) as [A [B [C D]]].
  destruct r1 as [u|e].
  - destruct (crp_transition_alpha lgam (draws 1%nat) (v_grid v) c1) as [c2 r2] eqn:E2.
    destruct (crp_transition_alpha_same _ _ _ _ _ _ E2) as [A2 [B2 [C2 D2]]].
    intros E. injection E as <- <-. split; [apply set_crp_vinv; congruence|].
    unfold v_rows; simpl. split; [congruence|]. auto.
  - intros E. injection E as <- <-. split; [apply set_crp_vinv; congruence|].
    unfold v_rows; simpl. split; [congruence|]. do 3 (split; [reflexivity|]). discriminate.
Qed.

(* ------------------------------------------------------------------ *)
(** ** Forced cells *)

Lemma force_cells_spec X r k obs ds ds' : NoDup (dkeys obs) ->
  force_cells X r k obs ds = (ds', Ok tt) ->
  dkeys ds' = dkeys ds /\
  (forall c, ~ In c (dkeys obs) -> dget c ds' = dget c ds) /\
  (forall c x, dget c obs = Some x -> exists a a1 ins a2,
     dget c ds = Some a /\ a_unincorporate a r = (a1, Ok tt) /\
     input_values X r a1 = Ok ins /\ a_incorporate a1 r k x ins = (a2, Ok tt) /\
     dget c ds' = Some a2).
Proof.
  revert ds. induction obs as [|[c0 x0] obs IH]; intros ds Hn; simpl.
  { intros E. injection E as <-. split; [reflexivity|]. split; [reflexivity|discriminate]. }
  inversion Hn; subst.
  destruct (dget c0 ds) as [a|] eqn:Ea; [|discriminate].
  destruct (a_unincorporate a r) as [a1 [[]|e]] eqn:Eu; [|discriminate].
  destruct (input_values X r a1) as [ins|] eqn:Ei; [|discriminate].
  destruct (a_incorporate a1 r k x0 ins) as [a2 [[]|e]] eqn:E2; [|discriminate].
  intros E. destruct (IH _ H2 E) as [K [S1 S2]].
  split; [rewrite K; apply dkeys_dset_in; eapply dget_Some_in; exact Ea|]. split.
  - intros c Hc. rewrite S1 by tauto. apply dget_dset_other. intuition.
  - intros c x. destruct (c =? c0)%Z eqn:Ec.
    + apply Z.eqb_eq in Ec; subst c0. intros H. injection H as <-.
      exists a, a1, ins, a2. rewrite S1 by assumption. rewrite dget_dset_same. auto.
    + intros Hx. destruct (S2 c x Hx) as [b [b1 [ins' [b2 [Hb Hrest]]]]].
      apply Z.eqb_neq in Ec. rewrite dget_dset_other in Hb by congruence.
      exists b, b1, ins', b2. auto.
Qed.

(** Columns whose inputs are forced must be forced too. *)
Definition inputs_forced (v : view) (obs : dict cell) : Prop :=
  forall c a i, dget c (v_dims v) = Some a -> In i (d_ins (a_d a)) ->
    In i (dkeys obs) -> In c (dkeys obs).

Lemma force_ok_gen X0 X v r obs v' : vinv X0 v -> NoDup (dkeys obs) ->
  (forall c r', r' <> r -> X c r' = X0 c r') ->
  (forall c a i, dget c (v_dims v) = Some a -> ~ In c (dkeys obs) ->
     i = c \/ In i (d_ins (a_d a)) -> X i r = X0 i r) ->
  (forall c x, dget c obs = Some x -> X c r = Ok x) ->
  view_force_cell X v r obs = (v', Ok tt) ->
  vinv X v' /\ v_crp v' = v_crp v /\ dkeys (v_dims v') = dkeys (v_dims v) /\
  (forall c, ~ In c (dkeys obs) -> dget c (v_dims v') = dget c (v_dims v)) /\
  (forall c a', dget c (v_dims v') = Some a' -> exists a,
     dget c (v_dims v) = Some a /\ akin a a' /\
     forall r', r' <> r -> acontent a' r' = acontent a r').
Proof.
  intros [Hc [Hn Hd]] Ho HX0 Hin HX. unfold view_force_cell.
  destruct (dget r (v_rows v)) as [k|] eqn:Hr; [|discriminate].
  destruct (force_cells X r k obs (v_dims v)) as [ds rr] eqn:Ef.
  intros E. injection E as <- ->.
  destruct (force_cells_spec _ _ _ _ _ _ Ho Ef) as [K [S1 S2]].
  assert (Hcols : forall c a', dget c ds = Some a' -> column_ok X v c a' /\ exists a,
     dget c (v_dims v) = Some a /\ akin a a' /\
     forall r', r' <> r -> acontent a' r' = acontent a r').
  { intros c a' Ha'. destruct (dget c obs) as [x|] eqn:Ex.
    - destruct (S2 c x Ex) as [a [a1 [ins [a2 [Ga [Gu [Gi [Gc Gd]]]]]]]].
      rewrite Ha' in Gd. injection Gd as <-.
      destruct (Hd c a Ga) as [Hi [Hk Hrr]].
      destruct (a_uninc_inv _ _ _ Hi Gu) as [A1 [A2 [_ [A4 A5]]]].
      destruct (a_inc_ok _ _ _ _ _ _ A2 Gc) as [B1 [B2 [_ [B4 B5]]]].
      assert (AK : akin a a') by (eapply akin_trans; eassumption).
      assert (Hsame : forall r', r' <> r -> acontent a' r' = acontent a r').
      { intros r' Hne. rewrite B4, A4. apply Z.eqb_neq in Hne. rewrite Hne. reflexivity. }
      split; [|exists a; auto]. split; [exact B2|]. split.
      + intros k'. rewrite B5, A5, Hk. split; [intros [->|H]; auto|auto].
        eapply crp_rows_counts; eassumption.
      + intros r'. destruct (Z.eq_dec r' r) as [->|Hne].
        * rewrite Hr, B4, Z.eqb_refl. rewrite (akin_expected X c a1 a' r B1).
          unfold expected. rewrite (HX c x Ex), Gi. eauto.
        * rewrite (Hsame r' Hne), (akin_expected X c a a' r' AK).
          replace (expected X c a r') with (expected X0 c a r'); [apply Hrr|].
          unfold expected, input_values. rewrite HX0 by auto.
          erewrite map_ext; [reflexivity|]. intros i. symmetry. apply HX0. auto.
    - assert (Hnin : ~ In c (dkeys obs)) by (apply dget_None_notin; exact Ex).
      rewrite S1 in Ha' by exact Hnin.
      destruct (Hd c a' Ha') as [Hi [Hk Hrr]]. split; [|exists a'; split; [exact Ha'|split;
        [apply akin_refl|reflexivity]]].
      split; [exact Hi|]. split; [exact Hk|]. intros r'.
      replace (expected X c a' r') with (expected X0 c a' r'); [apply Hrr|].
      assert (Hx : forall i, i = c \/ In i (d_ins (a_d a')) -> X i r' = X0 i r').
      { intros i Hi'. destruct (Z.eq_dec r' r) as [->|Hne]; [|apply HX0; exact Hne].
        eapply Hin; eassumption. }
      unfold expected, input_values. rewrite Hx by auto.
      erewrite map_ext_in; [reflexivity|]. intros i Hi'. symmetry. apply Hx. right. exact Hi'. }
  split; [|split; [reflexivity|split; [exact K|split; [exact S1|]]]].
  - split; [exact Hc|]. split; [simpl; rewrite K; exact Hn|].
    intros c a' Ha'. apply (Hcols c a' Ha').
  - intros c a' Ha'. apply (Hcols c a' Ha').
Qed.

Lemma force_ok X0 X v r obs v' : vinv X0 v -> NoDup (dkeys obs) ->
  (forall c r', r' <> r \/ ~ In c (dkeys obs) -> X c r' = X0 c r') ->
  (forall c x, dget c obs = Some x -> X c r = Ok x) ->
  inputs_forced v obs ->
  view_force_cell X v r obs = (v', Ok tt) ->
  vinv X v' /\ v_crp v' = v_crp v /\ dkeys (v_dims v') = dkeys (v_dims v) /\
  (forall c, ~ In c (dkeys obs) -> dget c (v_dims v') = dget c (v_dims v)) /\
  (forall c a', dget c (v_dims v') = Some a' -> exists a,
     dget c (v_dims v) = Some a /\ akin a a' /\
     forall r', r' <> r -> acontent a' r' = acontent a r').
Proof.
  intros Hv Ho HX0 HX Hin. apply (force_ok_gen X0); auto.
  intros c a i Ha Hc Hi. apply HX0. right. destruct Hi as [->|Hi]; [exact Hc|].
  intros H. apply Hc. eapply Hin; eassumption.
Qed.

(* ------------------------------------------------------------------ *)
(** ** Change of table *)

Lemma input_values_ext X X' r a : (forall i, In i (d_ins (a_d a)) -> X' i r = X i r) ->
  input_values X' r a = input_values X r a.
Proof.
  intros H. unfold input_values. f_equal. apply map_ext_in. exact H.
Qed.

Lemma vinv_table_ins X X' v : vinv X v ->
  (forall c a r i, dget c (v_dims v) = Some a -> In r (dkeys (v_rows v)) ->
     i = c \/ In i (d_ins (a_d a)) -> X' i r = X i r) -> vinv X' v.
Proof.
  intros [A [B C]] H. split; [exact A|]. split; [exact B|]. intros c a Ha.
  destruct (C c a Ha) as [D [E F]]. split; [exact D|]. split; [exact E|]. intros r.
  specialize (F r). destruct (dget r (v_rows v)) as [k|] eqn:Er; [|exact F].
  destruct F as [e [F1 F2]]. exists e. split; [|exact F2].
  assert (Hin : In r (dkeys (v_rows v))) by (eapply dget_Some_in; exact Er).
  unfold expected. rewrite (H c a r c Ha Hin) by (left; reflexivity).
  rewrite (input_values_ext X X'); [exact F1|].
  intros i Hi. apply (H c a r i Ha Hin). right. exact Hi.
Qed.

Lemma vinv_table X X' v : vinv X v ->
  (forall c r, In r (dkeys (v_rows v)) -> X' c r = X c r) -> vinv X' v.
Proof. intros Hv H. apply (vinv_table_ins X); [exact Hv|]. intros c a r i _ Hr _. apply H. exact Hr. Qed.
