(** C41: composites written down and built again, and where the claim fails. *)
From Verif Require Import BaseFacts ListFacts NetworkFacts ImportanceFacts LogSpaceFacts PrimFacts StateFacts ClassFacts.
From Verif Require Import RelevanceFacts MetadataFacts Metadata Query Compose ComposeFacts P06_Dim P07_View P09_State SettledFacts.
From Verif Require Import P02_LogSpace P05_Network P10_Columns P14_Compose P15_Pairwise P16_Schedule P27_Metadata GammaWitness.
From Coq Require Import Lia Relations Permutation.
Local Open Scope R_scope.

(* ------------------------------------------------------------------ *)
(** ** Composing the components again *)

(** Components under consecutive tokens. *)
Fixpoint numbered (t : Z) (fs : list foreign) : dict foreign :=
  match fs with [] => [] | g :: fs' => (t, g) :: numbered (t + 1) fs' end.

Lemma numbered_snd fs : forall t, map snd (numbered t fs) = fs.
Proof. induction fs as [|g fs IH]; intros t; [reflexivity|]. cbn. rewrite IH. reflexivity. Qed.
Lemma numbered_sigs fs t : hooked_sigs (numbered t fs) = map f_sig fs.
Proof. unfold hooked_sigs. rewrite <- (map_map snd f_sig), numbered_snd. reflexivity. Qed.
Lemma numbered_nth fs : forall t i, (i < length fs)%nat -> nth_error (dkeys (numbered t fs)) i = Some (t + Z.of_nat i)%Z.
Proof.
  induction fs as [|g fs IH]; intros t i Hi; [cbn in Hi; lia|]. destruct i as [|i]; cbn [numbered dkeys map nth_error fst].
  - f_equal. lia.
  - cbn in Hi. etransitivity; [apply IH; lia|]. f_equal. lia.
Qed.

Lemma hook_all_ok s fs : forall h next flag, (forall t, In t (dkeys h) -> (t < next)%Z) ->
  (exists topo, network_init (build_cgpms s (h ++ numbered next fs)) = Ok topo) ->
  hook_all fs (CState s h next flag) =
    Ok (CState s (h ++ numbered next fs) (next + Z.of_nat (length fs)) (if is_nil fs then flag else true)).
Proof.
  induction fs as [|g fs IH]; intros h next flag Hh Hn.
  - cbn. rewrite app_nil_r, Z.add_0_r. reflexivity.
  - assert (Hf : ~ In next (dkeys h)) by (intros Hi; apply Hh in Hi; lia).
    assert (Eh : h ++ numbered next (g :: fs) = (h ++ [(next, g)]) ++ numbered (next + 1) fs).
    { rewrite <- app_assoc. reflexivity. }
    rewrite Eh in *.
    assert (H1 : exists topo, network_init (build_cgpms s (h ++ [(next, g)])) = Ok topo).
    { unfold build_cgpms in *. rewrite map_app in Hn. rewrite <- (app_nil_r (_ ++ map _ (h ++ _))).
      apply (accepted_drop _ (map (fun tf => f_sig (snd tf)) (numbered (next + 1) fs))). rewrite app_nil_r, <- app_assoc. exact Hn. }
    destruct H1 as [topo H1]. cbn [hook_all]. unfold compose, build_network. cbn [cs_state cs_hooked cs_next cs_composite].
    rewrite (dset_fresh _ _ _ Hf), H1. cbn [rbind]. unfold update_is_composite. cbn [cs_state cs_hooked cs_next cs_composite].
    rewrite IH.
    + f_equal. cbn [length is_nil]. f_equal; [lia|]. destruct fs; [|reflexivity]. cbn [is_nil]. destruct h; reflexivity.
    + intros t Ht. unfold dkeys in Ht. rewrite map_app in Ht. apply in_app_or in Ht. cbn in Ht.
      destruct Ht as [Ht|[<-|[]]]; [apply Hh in Ht|]; lia.
    + exact Hn.
Qed.

Section SameParts.
  Variables (n : nat) (s s' : state).
  Hypothesis H : sinv n s.
  Hypothesis H' : sinv n s'.
  Hypothesis S : same_state s s'.

  Lemma same_keys v : In v (dkeys (s_views s')) <-> In v (dkeys (s_views s)).
  Proof.
    pose proof (ss_views _ _ S v) as A. destruct (dget v (s_views s)) eqn:E2, (dget v (s_views s')) eqn:E3; try contradiction.
    - apply dget_Some_in in E2. apply dget_Some_in in E3. tauto.
    - apply dget_None_notin in E2. apply dget_None_notin in E3. tauto.
  Qed.
  Lemma same_own x : own s' x <-> own s x.
  Proof. unfold own. rewrite (ss_outs _ _ S). split; (intros [A|[v [A B]]]; [left; exact A|right; exists v; split; [apply same_keys; exact A|exact B]]). Qed.

  Lemma same_cond : conditional s' = conditional s.
  Proof.
    assert (G : forall x y, sinv n x -> (forall v, match dget v (s_views x), dget v (s_views y) with
        | Some w, Some w' => forall c, match dget c (v_dims w), dget c (v_dims w') with
             | Some a, Some b => m_cond (a_M b) = m_cond (a_M a) | None, None => True | _, _ => False end
        | None, None => True | _, _ => False end) -> conditional x = true -> conditional y = true).
    { intros x y Hx G E. unfold conditional in *. apply existsb_exists in E. destruct E as [[v w] [E1 E2]].
      apply existsb_exists in E2. destruct E2 as [[c a] [E2 E3]]. cbn [snd] in *.
      apply (dget_In_NoDup _ _ _ (si_nv _ _ Hx)) in E1. destruct (si_view _ _ Hx v w E1) as [V _].
      apply dget_In_NoDup in E2; [|apply V]. specialize (G v). rewrite E1 in G.
      destruct (dget v (s_views y)) as [w'|] eqn:E4; [|contradiction]. specialize (G c). rewrite E2 in G.
      destruct (dget c (v_dims w')) as [b|] eqn:E5; [|contradiction]. apply dget_In in E4. apply dget_In in E5.
      apply existsb_exists. exists (v, w'). split; [exact E4|]. apply existsb_exists. exists (c, b). split; [exact E5|].
      cbn [snd]. rewrite G. exact E3. }
    apply Bool.eq_iff_eq_true. split.
    - apply (G s' s H'). intros v. pose proof (ss_views _ _ S v) as A.
      destruct (dget v (s_views s)), (dget v (s_views s')); try contradiction; [|exact I]. intros c.
      pose proof (al_cols _ _ A c) as C. destruct (dget c (v_dims v0)), (dget c (v_dims v1)); try contradiction; [|exact I].
      destruct C as [[[d' [-> _]] _] _]. reflexivity.
    - apply (G s s' H). intros v. pose proof (ss_views _ _ S v) as A.
      destruct (dget v (s_views s)), (dget v (s_views s')); try contradiction; [|exact I]. intros c.
      pose proof (al_cols _ _ A c) as C. destruct (dget c (v_dims v0)), (dget c (v_dims v1)); try contradiction; [|exact I].
      destruct C as [[[d' [-> _]] _] _]. reflexivity.
  Qed.

  Lemma same_accepted h h' : (forall v, In v (dkeys (s_views s)) -> ~ In (crp_id_view + v)%Z (s_outs s)) ->
    hooked_sigs h' = hooked_sigs h ->
    (exists topo, network_init (build_cgpms s h) = Ok topo) -> exists topo, network_init (build_cgpms s' h') = Ok topo.
  Proof.
    intros Hout Eh A. apply (composite_accepted n s H Hout) in A.
    apply (composite_accepted n s' H'). { intros v Hv. rewrite (ss_outs _ _ S). apply Hout, same_keys, Hv. }
    rewrite Eh. destruct A as [A [B C]]. split; [|auto]. intros g Hg. destruct (A g Hg) as [A1 A2]. split; [exact A1|].
    intros x Hx. rewrite same_own. exact (A2 x Hx).
  Qed.
End SameParts.

(** What the dependence reads of a state. *)
Definition shape_eq (n : nat) (cs cs' : cstate) : Prop :=
  sinv n (cs_state cs) /\ sinv n (cs_state cs') /\
  s_outs (cs_state cs') = s_outs (cs_state cs) /\ s_zv (cs_state cs') = s_zv (cs_state cs) /\
  (forall v, In v (dkeys (s_views (cs_state cs'))) <-> In v (dkeys (s_views (cs_state cs)))) /\
  hooked_sigs (cs_hooked cs') = hooked_sigs (cs_hooked cs).

Lemma shape_sym n cs cs' : shape_eq n cs cs' -> shape_eq n cs' cs.
Proof.
  intros [A [B [C [D [E F]]]]]. split; [exact B|]. split; [exact A|]. split; [congruence|]. split; [congruence|].
  split; [|congruence]. intros v. symmetry. apply E.
Qed.

Lemma shape_length n cs cs' : shape_eq n cs cs' -> length (parts cs') = length (parts cs).
Proof.
  intros [A [B [C [D [E F]]]]]. unfold parts, build_cgpms. fold (hooked_sigs (cs_hooked cs)) (hooked_sigs (cs_hooked cs')).
  rewrite F, !app_length, !map_length. f_equal. rewrite <- !(map_length fst).
  apply Permutation_length, NoDup_Permutation; [apply (si_nv _ _ B)|apply (si_nv _ _ A)|exact E].
Qed.
Lemma shape_part n cs cs' g : shape_eq n cs cs' -> In g (parts cs) ->
  exists g', In g' (parts cs') /\ forall y, In y (g_outputs g) <-> In y (g_outputs g').
Proof.
  intros [A [B [C [D [E F]]]]] Hg. apply (part_cases cs) in Hg. destruct Hg as [[v [w [Hw ->]]]|[t [f [Ht ->]]]].
  - assert (Hk : In v (dkeys (s_views (cs_state cs')))) by (apply E; apply in_map_iff; exists (v, w); auto).
    apply in_dkeys_Some in Hk. destruct Hk as [w' Hk]. apply dget_In in Hk. exists (view_sig w').
    split; [exact (part_view cs' v w' Hk)|]. intros y. rewrite (view_own n _ A v w y Hw), (view_own n _ B v w' y Hk), D. tauto.
  - exists (f_sig f). split; [|tauto]. apply in_or_app. right. change (In (f_sig f) (hooked_sigs (cs_hooked cs'))).
    rewrite F. apply in_map_iff. exists (t, f). auto.
Qed.
Lemma shape_parent n cs cs' x y : shape_eq n cs cs' -> parent (parts cs) x y -> parent (parts cs') x y.
Proof. intros [_ [_ [_ [_ [_ F]]]]]. unfold parts. rewrite !composite_parent, F. tauto. Qed.
Lemma shape_view n cs cs' x y : shape_eq n cs cs' -> same_view (cs_state cs) x y -> same_view (cs_state cs') x y.
Proof. intros [A [B [_ [D _]]]]. rewrite (same_view_zv n cs' B), (same_view_zv n cs A), D. tauto. Qed.
Lemma shape_raw n cs cs' x y : shape_eq n cs cs' -> raw cs x y -> raw cs' x y.
Proof.
  intros E [[g [G1 [G2 G3]]]|[a [b [A [B C]]]]].
  - left. destruct (shape_part n cs cs' g E G1) as [g' [G4 G5]]. exists g'. rewrite <- !G5. auto.
  - right. assert (V : forall u c, visited cs u c -> visited cs' u c).
    { intros u c. unfold visited. rewrite (proj1 (proj2 (proj2 E))).
      intros [[U1 U2]|[U1 U2]]; [left|right]; (split; [exact U1|]); [eapply shape_view; eassumption|].
      eapply clos_trans_mono; [|exact U2]. intros p q. apply (shape_parent n cs cs' p q E). }
    exists a, b. split; [exact (V _ _ A)|]. split; [exact (V _ _ B)|]. destruct C as [C|C]; [left; exact C|right].
    eapply shape_view; eassumption.
Qed.

Lemma shape_output n cs cs' x : shape_eq n cs cs' ->
  (exists i, output_of (parts cs) i x) -> exists i, output_of (parts cs') i x.
Proof.
  intros E [i [Hi Hx]]. destruct (shape_part n cs cs' _ E (sig_at_in _ i Hi)) as [g [G1 G2]]. apply G2 in Hx.
  destruct (In_nth _ _ (Sig [] []) G1) as [j [Hj Ej]]. exists (Z.of_nat j). split; [lia|].
  unfold sig_at. rewrite Nat2Z.id, Ej. exact Hx.
Qed.

(** Composites of one shape give the same dependences, errors included. *)
Lemma shape_dependence n cs cs' fuel x y : shape_eq n cs cs' -> wf cs -> wf cs' -> (length (parts cs) < fuel)%nat ->
  dependence fuel cs' x y = dependence fuel cs x y.
Proof.
  intros E W W' Hf. pose proof (shape_sym _ _ _ E) as E'.
  assert (Hf' : (length (parts cs') < fuel)%nat) by (rewrite (shape_length _ _ _ E); exact Hf).
  assert (D : forall z, (exists i, output_of (parts cs) i z) \/ forall i, ~ output_of (parts cs) i z).
  { intros z. destruct (dmem z (variable_to_cgpm (parts cs))) eqn:Em.
    - left. apply dmem_in, in_dkeys_Some in Em. destruct Em as [i Hi]. exists i. apply variable_to_cgpm_get in Hi; [exact Hi|].
      apply disjoint_FOP, network_accepted. exact (wf_net _ W).
    - right. intros i Hi. apply variable_to_cgpm_get in Hi; [|apply disjoint_FOP, network_accepted; exact (wf_net _ W)].
      apply dget_Some_in, dmem_in in Hi. congruence. }
  assert (D' : forall z, (forall i, ~ output_of (parts cs) i z) -> forall i, ~ output_of (parts cs') i z).
  { intros z Hz i Hi. destruct (shape_output n cs' cs z E' (ex_intro _ i Hi)) as [j Hj]. exact (Hz j Hj). }
  pose proof (proj1 E) as H. pose proof (proj1 (proj2 E)) as H'.
  destruct (D x) as [Hx|Hx]; [destruct (D y) as [Hy|Hy]|].
  - pose proof (shape_output n cs cs' x E Hx) as Hx'. pose proof (shape_output n cs cs' y E Hy) as Hy'.
    destruct (dependence_raw n cs H W fuel x y Hf Hx Hy) as [[A ->]|[A ->]];
    destruct (dependence_raw n cs' H' W' fuel x y Hf' Hx' Hy') as [[B ->]|[B ->]]; try reflexivity.
    + destruct B. exact (shape_raw n cs cs' x y E A).
    + destruct A. exact (shape_raw n cs' cs x y E' B).
  - rewrite (dependence_unknown n cs H W fuel) by auto. rewrite (dependence_unknown n cs' H' W' fuel) by auto. reflexivity.
  - rewrite (dependence_unknown n cs H W fuel) by auto. rewrite (dependence_unknown n cs' H' W' fuel) by auto. reflexivity.
Qed.

(* ------------------------------------------------------------------ *)
(** ** C41: composites *)

(** The full claim of C41 asks this of every composite.  Here: for a state as in
    [C41_state_partial] with components composed onto it, none of the outputs of the state
    being the name of a row partition.  The components come back in the same order, with
    the same dependences; their tokens are numbered afresh, and the composite flag says
    whether there are any (see [C41_tokens_refuted] and [C41_composite_refuted]). *)
Theorem C41_composite_partial : forall cs f n, creach cs -> sreach safe (cs_state cs) -> n_rows (cs_state cs) = Ok n -> (0 < n)%Z ->
  (forall c, In c (s_outs (cs_state cs)) -> (0 <= c)%Z) ->
  (forall v w c a, dget v (s_views (cs_state cs)) = Some w -> dget c (v_dims w) = Some a ->
     no_params (a_M a) /\ exists e, a_score a = Ok e) ->
  (forall v, In v (dkeys (s_views (cs_state cs))) -> ~ In (crp_id_view + v)%Z (s_outs (cs_state cs))) ->
  NoDup (rd_order f) -> (forall v, In v (rd_order f) <-> In v (dkeys (s_views (cs_state cs)))) ->
  exists m cs', cstate_to_metadata cs = Ok m /\ cstate_from_metadata f m = Ok cs' /\
    same_state (cs_state cs) (cs_state cs') /\
    map snd (cs_hooked cs') = map snd (cs_hooked cs) /\
    (forall i, (i < length (cs_hooked cs))%nat -> nth_error (dkeys (cs_hooked cs')) i = Some (57481 + Z.of_nat i)%Z) /\
    cs_next cs' = (57481 + Z.of_nat (length (cs_hooked cs)))%Z /\
    cs_composite cs' = negb (is_nil (cs_hooked cs)) /\
    ((cs_hooked cs <> [] \/ conditional (cs_state cs) = false) -> cs_composite cs' = cs_composite cs) /\
    (forall fuel x y, (length (parts cs) < fuel)%nat -> dependence fuel cs' x y = dependence fuel cs x y).
Proof.
  intros cs f n Hc Hs Hn Hp Ho Hw Hout Nd Hf. pose proof (C43_wellformed cs Hc) as W.
  destruct (sreach_sinv _ Hs) as [n0 H].
  assert (n = Z.of_nat n0) as ->.
  { unfold n_rows in Hn. destruct (s_outs (cs_state cs)) as [|c l] eqn:E; [discriminate|].
    destruct (dget c (s_X (cs_state cs))) as [col|] eqn:Ec; [|discriminate].
    rewrite (si_len _ _ H c col Ec) in Hn. congruence. }
  destruct (state_again (cs_state cs) n0 f H) as [m [s' [E1 [E2 [S [H' _]]]]]]; try assumption.
  - lia.
  - exact (sreach_aligned _ Hs).
  - intros v w Ew c a Ea. destruct (Hw v w c a Ew Ea) as [P1 P2].
    exact (collapsed_written n0 _ v w c a H (sreach_set safe _ Hs) Ew Ea P1 P2).
  - set (fs := map snd (cs_hooked cs)).
    assert (Es : hooked_sigs (numbered first_token fs) = hooked_sigs (cs_hooked cs)).
    { rewrite numbered_sigs. unfold fs, hooked_sigs. rewrite map_map. reflexivity. }
    assert (Hnet : exists topo, network_init (build_cgpms s' (numbered first_token fs)) = Ok topo).
    { apply (same_accepted n0 (cs_state cs) s' H H' S (cs_hooked cs)); [exact Hout|exact Es|exact (wf_net _ W)]. }
    pose proof (hook_all_ok s' fs [] first_token false (fun t (A : In t []) => match A with end) Hnet) as Eh. cbn [app] in Eh.
    assert (El : length fs = length (cs_hooked cs)) by apply map_length.
    assert (En : is_nil fs = is_nil (cs_hooked cs)) by (unfold fs; destruct (cs_hooked cs); reflexivity).
    exists (m, cs_hooked cs). eexists. split; [unfold cstate_to_metadata; rewrite E1; reflexivity|].
    split; [unfold cstate_from_metadata; cbn [fst snd]; rewrite E2; cbn [rbind]; exact Eh|].
    cbn [cs_state cs_hooked cs_next cs_composite]. split; [exact S|]. split; [apply numbered_snd|].
    split; [intros i Hi; apply numbered_nth; rewrite El; exact Hi|]. rewrite El, En. split; [reflexivity|].
    split; [destruct (is_nil (cs_hooked cs)); reflexivity|].
    split.
    { intros Hd. rewrite (wf_flag _ W). destruct Hd as [Hd| ->]; [|destruct (is_nil (cs_hooked cs)); reflexivity].
      destruct (cs_hooked cs); [congruence|reflexivity]. }
    intros fuel x y Hfu.
    assert (W2 : wf (update_is_composite (CState s' (numbered first_token fs) (first_token + Z.of_nat (length (cs_hooked cs))) true))).
    { split; cbn [update_is_composite cs_state cs_hooked cs_next cs_composite].
      - exact Hnet.
      - clear. generalize first_token. induction fs as [|g fs IH]; intros t; [constructor|]. cbn. constructor; [|apply IH].
        assert (G : forall l u k, In k (map fst (numbered u l)) -> (u <= k)%Z).
        { induction l as [|g' l IHl]; intros u k Hk; [destruct Hk|]. destruct Hk as [<-|Hk]; [cbn; lia|]. apply IHl in Hk. lia. }
        intros Hk. apply G in Hk. lia.
      - rewrite <- El. clear. generalize first_token. induction fs as [|g fs IH]; intros t k Hk; [destruct Hk|].
        destruct Hk as [<-|Hk]; [cbn; lia|]. apply IH in Hk. cbn [length]. lia.
      - reflexivity. }
    refine (shape_dependence n0 cs _ fuel x y _ W W2 Hfu).
    split; [exact H|]. split; [exact H'|]. split; [apply (ss_outs _ _ S)|]. split; [apply (ss_zv _ _ S)|].
    split; [apply (same_keys _ _ S)|exact Es].
Qed.
Print Assumptions C41_composite_partial.

(* ------------------------------------------------------------------ *)
(** ** Collapsed columns *)

Lemma collapsed_no_params M h : collapsed M h -> no_params M.
Proof. intros H. destruct H; intros [] []; reflexivity. Qed.

(** In particular every state whose columns are of the collapsed classes, the von Mises
    class excepted (whose score needs Bessel functions), can be written down and built
    again. *)
Theorem C41_collapsed_partial : forall s f n, sreach safe s -> n_rows s = Ok n -> (0 < n)%Z ->
  (forall c, In c (s_outs s) -> (0 <= c)%Z) ->
  (forall v w c a, dget v (s_views s) = Some w -> dget c (v_dims w) = Some a ->
     collapsed (a_M a) (d_hyp (a_d a)) /\ forall lbes, a_M a <> M_vonmises lbes) ->
  NoDup (rd_order f) -> (forall v, In v (rd_order f) <-> In v (dkeys (s_views s))) ->
  exists m s', state_to_metadata s = Ok m /\ state_from_metadata f m = Ok s' /\ same_state s s' /\
    forall r T C, query_logpdf s' r T C = query_logpdf s r T C.
Proof.
  intros s f n Hs Hn Hp Ho Hc Nd Hf. destruct (sreach_sinv s Hs) as [n0 H].
  destruct (C41_state_partial s f n Hs Hn Hp Ho) as [m [s' [E1 [E2 [S [_ [Q _]]]]]]]; [|assumption|assumption|eauto 6].
  intros v w c a Ew Ea. destruct (Hc v w c a Ew Ea) as [C1 C2]. split; [exact (collapsed_no_params _ _ C1)|].
  destruct (C45_state_agreement safe s v w c a Hs Ew Ea) as [_ [_ Ag]].
  destruct (si_view _ _ H v w Ew) as [[_ [_ V]] _]. destruct (V c a Ea) as [[_ Hi] _].
  destruct (fin_sum (map (m_score (a_M a)) (dvals (d_clusters (a_d a))))) as [t Et]; [|exists (Fin t); exact Et].
  apply Forall_map, Forall_forall. intros x Hx. unfold dvals in Hx. apply in_map_iff in Hx. destruct Hx as [[k x'] [<- Hin]].
  cbn [snd]. apply dget_In_NoDup in Hin; [|apply (di_nc _ _ _ Hi)].
  apply (collapsed_total (a_M a) _ C1 C2); [apply (di_good _ _ _ Hi _ _ Hin)|apply (Ag _ _ Hin)].
Qed.
Print Assumptions C41_collapsed_partial.

(* ------------------------------------------------------------------ *)
(** ** Where the claim fails *)

Definition at0 (x : R) : dict cell := [(0%Z, Some x)].
Definition nothing : dict cell := [].

(** One column of any class over one row without a value; the parameters are those of the
    tape [t]. *)
Section Solo.
  Variables (M : model) (h : mH M) (t : nat -> mQ M) (e : ext) (gd vg : list R) (gr : list (list R)).
  Definition solo_col : adim :=
    ADim M (@Dim M [(0%Z, m_set_params M (m_new M h (t 2%nat)) (t 4%nat))] [] [(0, 0)]%Z (m_new M h (t 3%nat)) h gr true [] t 5).
  Definition solo_w : view := View (crp_id_view + 0) (Crp 1 [(0, 0)]%Z [(0, 1)]%Z 1) vg [].
  Definition solo_v : view := set_dims solo_w [(0%Z, solo_col)].
  Definition solo : state := State [0%Z] one_X (Crp 1 [(0, 0)]%Z [(0, 1)]%Z 1) gd [(0%Z, solo_v)] [] [].

  Hypothesis He : m_score M (m_set_params M (m_new M h (t 2%nat)) (t 4%nat)) = Ok e.
  Lemma solo_score : a_score solo_col = Ok (esum [e]).
  Proof.
    change (a_score solo_col) with (rbind (rbind (m_score M (m_set_params M (m_new M h (t 2%nat)) (t 4%nat))) (fun x => rbind (Ok []) (fun l => Ok (x :: l)))) (fun l => Ok (esum l))).
    rewrite He. reflexivity.
  Qed.
  Lemma solo_init vspecs cspecs dr pk : vspecs 0%Z = VSpec (VSeed 1 vg dr) (Some [0%Z]) ->
    cspecs 0%Z = CSpec (ADim M (dim_new M h true [] t)) gr pk ->
    state_init one_X [(0, 0)]%Z 1 gd [] [] vspecs cspecs [0%Z] = Ok solo.
  Proof.
    intros Ev Ec. unfold state_init.
    assert (A : seat_given [(0, 0)]%Z (crp_new 1) = Ok (Crp 1 [(0, 0)]%Z [(0, 1)]%Z 1)) by reflexivity.
    rewrite A. cbn [rbind c_data]. change (dkeys one_X) with [0%Z]. cbn [length Nat.eqb].
    change (make_views one_X [0%Z] [(0%Z, 0%Z)] vspecs cspecs [0%Z]) with
      (rbind (view_make one_X (crp_id_view + 0) (vp_seed (vspecs 0%Z)) (vp_zr (vspecs 0%Z))) (fun w =>
       rbind (view_columns (tab one_X) w [(0%Z, cspecs 0%Z)]) (fun w' => rbind (Ok []) (fun ws => Ok ((0%Z, w') :: ws))))).
    rewrite Ev, Ec. cbn [vp_seed vp_zr].
    assert (B : view_make one_X (crp_id_view + 0) (VSeed 1 vg dr) (Some [0%Z]) = Ok solo_w) by reflexivity.
    rewrite B. cbn [rbind].
    assert (C : view_columns (tab one_X) solo_w [(0%Z, CSpec (ADim M (dim_new M h true [] t)) gr pk)] = Ok solo_v).
    { unfold view_columns.
      change (col_make (CSpec (ADim M (dim_new M h true [] t)) gr pk)) with
        (ADim M (@Dim M [] [] [] (m_new M h (t 1%nat)) h gr true [] t 2), @Ok unit tt). cbn [rbind].
      change (view_incorporate_dim (tab one_X) solo_w 0 (ADim M (@Dim M [] [] [] (m_new M h (t 1%nat)) h gr true [] t 2)) true)
        with (solo_v, solo_col, @Ok unit tt).
      cbn [rbind]. change (dget 0%Z (v_dims solo_v)) with (Some solo_col). cbv iota. rewrite solo_score. reflexivity. }
    rewrite C. reflexivity.
  Qed.
  Lemma solo_reach ok : known M -> sreach ok solo.
  Proof.
    intros HM. apply (sr_init ok one_X [(0, 0)]%Z 1 gd [] [] (fun _ => VSpec (VSeed 1 vg (fun _ _ => 0%nat)) (Some [0%Z]))
      (fun _ => CSpec (ADim M (dim_new M h true [] t)) gr (fun _ => 0%nat)) [0%Z] 1).
    - repeat constructor; cbn; intuition discriminate.
    - discriminate.
    - intros c l E. unfold one_X, dget in E. destruct (c =? 0)%Z; [injection E as <-; reflexivity|discriminate].
    - repeat constructor; cbn; intuition discriminate.
    - intros v. cbn. tauto.
    - intros v. reflexivity.
    - intros c _. exists M, h, true, [], t. split; [exact HM|reflexivity].
    - eapply solo_init; reflexivity.
  Qed.
  Lemma solo_logpdf x p : m_logpdf M (m_set_params M (m_new M h (t 2%nat)) (t 4%nat)) norow x [] = Ok p ->
    query_logpdf solo 0 (at0 x) nothing = Ok (esum [esum [p]]).
  Proof.
    intros Hp.
    change (query_logpdf solo 0 (at0 x) nothing) with
      (rbind (rbind (rbind (rbind (m_logpdf M (m_set_params M (m_new M h (t 2%nat)) (t 4%nat)) norow x []) (fun y => rbind (Ok []) (fun l => Ok (y :: l)))) (fun l => Ok (esum l)))
        (fun y => rbind (Ok []) (fun l => Ok (y :: l)))) (fun l => Ok (esum l))).
    rewrite Hp. reflexivity.
  Qed.
  Lemma solo_meta : state_to_metadata solo =
    Ok (SMeta [[None]] [0%Z] 1 [(0, 0)]%Z [CMeta M h true [] t] [] [] [(0%Z, [0%Z])] [(0%Z, 1)]).
  Proof. reflexivity. Qed.
End Solo.

(** The parameters of a component that is not collapsed are not written: the constructor
    draws new ones, and the answers change.  (state.py:1203-1214 writes the
    hyperparameters only.)  Here a Beta column without data, of which the parameters drawn
    are (2, 1/2) before and (4, 1/2) after. *)
Definition par_tape (j : nat) : R * R := if (j <? 10)%nat then (2, 1 / 2) else (4, 1 / 2).
Definition par_again : redrawn :=
  Redrawn (fun _ => []) (fun _ _ => 0%nat) (fun _ _ t j => t (10 + j)%nat) (fun _ => []) [] (fun _ _ => 0%nat) [0%Z].

Lemma par_guard q : q = (2, 1 / 2) \/ q = (4, 1 / 2) -> beta_guard q = true.
Proof. intros [->| ->]; unfold beta_guard; cbn [fst snd]; rewrite !(proj2 (Rltb_true _ _)) by lra; reflexivity. Qed.

Theorem C41_parameters_refuted : exists lgam s f m s', gamma_rec lgam /\ sreach safe s /\ n_rows s = Ok 1%Z /\
  s_outs s = [0%Z] /\ rd_order f = dkeys (s_views s) /\
  state_to_metadata s = Ok m /\ state_from_metadata f m = Ok s' /\
  query_logpdf s 0 (at0 (1 / 2)) nothing = Ok (Fin 0) /\
  query_logpdf s' 0 (at0 (1 / 2)) nothing = Ok (Fin (ln (3 / 2))).
Proof.
  set (M := M_beta lgam_w). set (t2 := fun j => par_tape (10 + j)).
  assert (Sc : forall t, (forall j, t j = (2, 1 / 2)) \/ t = t2 \/ t = par_tape -> exists e,
    m_score M (m_set_params M (m_new M tt (t 2%nat)) (t 4%nat)) = Ok e).
  { intros t Ht. assert (G : beta_guard (t 4%nat) = true).
    { apply par_guard. destruct Ht as [Ht|[->| ->]]; [left; apply Ht|right; reflexivity|left; reflexivity]. }
    eexists. unfold M, M_beta. cbn [m_score of_prim m_set_params m_new prim_set_params fst].
    unfold prim_logpdf_score. cbn [prim_new p_hyp p_par p_stats p_score Beta p_init]. rewrite G. reflexivity. }
  destruct (Sc par_tape (or_intror (or_intror eq_refl))) as [e1 S1].
  destruct (Sc t2 (or_intror (or_introl eq_refl))) as [e2 S2].
  assert (L : forall q, beta_guard q = true ->
    m_logpdf M (m_set_params M (m_new M tt q) q) norow (1 / 2) [] = Ok (Fin (beta_logpdf lgam_w (1 / 2) (fst q * snd q) (fst q * (1 - snd q))))).
  { intros q G. unfold M, M_beta. cbn [m_logpdf of_prim m_set_params m_new prim_set_params fst]. unfold prim_logpdf.
    cbn [prim_new p_data p_hyp p_par p_stats p_inb p_pred Beta dmem dget].
    assert (U : unit_inb (1 / 2) = true) by (unfold unit_inb; rewrite !(proj2 (Rltb_true _ _)) by lra; reflexivity).
    rewrite U, G. reflexivity. }
  assert (G2 : lgam_w 2 = 0).
  { replace 2 with (1 + 1) by lra. rewrite (lgam_w_rec 1) by lra. rewrite ln_1, lgam_w_1. lra. }
  assert (G4 : lgam_w 4 = ln 3 + ln 2).
  { replace 4 with (2 + 1 + 1) by lra. rewrite (lgam_w_rec (2 + 1)) by lra. rewrite (lgam_w_rec 2) by lra. rewrite G2.
    replace (2 + 1) with 3 by lra. lra. }
  exists lgam_w, (solo M tt par_tape [1] [1] []), par_again. eexists. exists (solo M tt t2 [] [] []).
  split; [exact lgam_w_rec|]. split; [exact (solo_reach _ _ _ _ _ _ _ S1 safe (kn_beta _))|].
  split; [reflexivity|]. split; [reflexivity|]. split; [reflexivity|]. split; [apply solo_meta|].
  split.
  { unfold state_from_metadata. cbn [mt_rows mt_cols mt_outs].
    assert (T : table_of [[None]] [0%Z] = Ok one_X) by reflexivity. rewrite T.
    cbn [length Nat.eqb negb forallb Z.leb Z.compare andb rbind].
    refine (solo_init M tt t2 e2 [] [] [] S2 _ _ (fun _ _ => 0%nat) (fun _ => 0%nat) _ _); reflexivity. }
  split.
  - erewrite solo_logpdf; [|exact (L (2, 1 / 2) (par_guard _ (or_introl eq_refl)))]. cbn. do 2 f_equal.
    unfold beta_logpdf, betaln. replace (2 * (1 / 2)) with 1 by lra. replace (2 * (1 - 1 / 2)) with 1 by lra.
    replace (1 + 1) with 2 by lra. rewrite G2, lgam_w_1. lra.
  - erewrite solo_logpdf; [|exact (L (4, 1 / 2) (par_guard _ (or_intror eq_refl)))]. cbn. do 2 f_equal.
    unfold beta_logpdf, betaln. replace (4 * (1 / 2)) with 2 by lra. replace (4 * (1 - 1 / 2)) with 2 by lra.
    replace (2 + 2) with 4 by lra. rewrite G2, G4. replace (1 - 1 / 2) with (/ 2) by lra. replace (1 / 2) with (/ 2) by lra.
    replace (3 / 2) with (3 * / 2) by lra. rewrite ln_mult by lra. rewrite ln_Rinv by lra. lra.
Qed.
Print Assumptions C41_parameters_refuted.

(** incorporate_dim takes a negative number for a column (state.py:187-201 compares it with
    the existing ones only); what is written of such a state, the constructor refuses
    (line 66). *)
Definition neg_M : model := ex_reg (fun l => Ok l).
Definition neg_op : sop :=
  OAdd [None] (-1) (CSpec (ADim neg_M (dim_new neg_M tt true [] (fun _ => tt))) [] (fun _ => 0%nat)) (Some 0%Z)
    (VSeed 1 [1] (fun _ _ => 0%nat)) (ex_draws 0) (fun _ _ => 0%nat) [].

Lemma neg_ok : run_op one_s neg_op = (fst (run_op one_s neg_op), Ok tt).
Proof.
  assert (E : snd (run_op one_s neg_op) = Ok tt) by reflexivity.
  destruct (run_op one_s neg_op) as [s r]. cbn [fst snd] in *. rewrite E. reflexivity.
Qed.

Lemma neg_reach : sreach safe (fst (run_op one_s neg_op)).
Proof.
  refine (sr_step safe one_s neg_op (fst (run_op one_s neg_op)) one_reach _ _ neg_ok).
  - exists neg_M, tt, true, [], (fun _ => tt). split; [apply kn_regression; reflexivity|reflexivity].
  - intros E. discriminate.
Qed.
Lemma neg_rows : n_rows (fst (run_op one_s neg_op)) = Ok 1%Z.
Proof. reflexivity. Qed.
Lemma neg_outs : s_outs (fst (run_op one_s neg_op)) = [0; -1]%Z.
Proof. reflexivity. Qed.
Lemma neg_meta : is_ok (state_to_metadata (fst (run_op one_s neg_op))) = true.
Proof. reflexivity. Qed.
Lemma negative_rebuild s m f : state_to_metadata s = Ok m -> (exists c, In c (s_outs s) /\ (c < 0)%Z) ->
  is_ok (state_from_metadata f m) = false.
Proof.
  intros E [c [Hc Hn]]. unfold state_to_metadata in E.
  destruct (data_rows (s_X s)) as [rows|]; [|discriminate]. cbn [rbind] in E.
  destruct (rsequence (map (dim_for s) (s_outs s))) as [dims|]; [|discriminate]. cbn [rbind] in E.
  destruct (rsequence (map (fun vw => rbind (row_list (snd vw)) (fun z => Ok (fst vw, z))) (s_views s))) as [zrv|]; [|discriminate].
  cbn [rbind] in E. injection E as <-. unfold state_from_metadata. cbn [mt_rows mt_cols mt_outs].
  destruct rows as [|row rows]; [reflexivity|]. destruct (map column_meta dims); [reflexivity|].
  destruct (negb (length (s_outs s) =? length row)%nat); [reflexivity|].
  destruct (forallb (fun o => (0 <=? o)%Z) (s_outs s)) eqn:F; [|reflexivity].
  rewrite forallb_forall in F. apply F in Hc. apply Z.leb_le in Hc. lia.
Qed.

Theorem C41_negative_refuted : exists s n m, sreach safe s /\ n_rows s = Ok n /\ (0 < n)%Z /\ s_outs s = [0; -1]%Z /\
  state_to_metadata s = Ok m /\ forall f s', state_from_metadata f m <> Ok s'.
Proof.
  pose proof neg_meta as E. destruct (state_to_metadata (fst (run_op one_s neg_op))) as [m|] eqn:Em; [|discriminate].
  exists (fst (run_op one_s neg_op)), 1%Z, m.
  split; [exact neg_reach|]. split; [exact neg_rows|]. split; [lia|]. split; [exact neg_outs|]. split; [exact Em|].
  intros f s' F. pose proof (negative_rebuild _ m f Em) as N. rewrite neg_outs, F in N.
  discriminate N. exists (-1)%Z. split; [cbn; tauto|lia].
Qed.
Print Assumptions C41_negative_refuted.

(** The tokens of composed components are written nowhere: the generator starts again at
    57481, so the token that the user holds names another component, or none. *)
Definition one_cs (hooked : dict foreign) (next : Z) : cstate := CState one_s hooked next (negb (is_nil hooked)).
Lemma one_plain : creach (one_cs [] first_token).
Proof. apply (cr_new one_s); [eexists; reflexivity|reflexivity]. Qed.
Lemma one_two : creach (one_cs [(57481, node [50] [0]); (57482, node [51] [0])]%Z 57483).
Proof.
  apply (cr_compose (one_cs [(57481%Z, node [50%Z] [0%Z])] 57482) (node [51%Z] [0%Z]) _ (Ok 57482%Z)); [|reflexivity].
  apply (cr_compose (one_cs [] first_token) (node [50%Z] [0%Z]) _ (Ok 57481%Z)); [exact one_plain|reflexivity].
Qed.
Lemma one_left : creach (one_cs [(57482%Z, node [51%Z] [0%Z])] 57483).
Proof. apply (cr_decompose _ 57481 _ (Ok tt) one_two). reflexivity. Qed.
Lemma one_written v w c a : dget v (s_views one_s) = Some w -> dget c (v_dims w) = Some a ->
  no_params (a_M a) /\ exists e, a_score a = Ok e.
Proof.
  unfold one_s, one_v. cbn [s_views dget set_dims v_dims]. destruct (v =? 0)%Z; [|discriminate]. intros E. injection E as <-.
  cbn [set_dims v_dims dget]. destruct (c =? 0)%Z; [|discriminate]. intros E. injection E as <-.
  split; [intros [] []; reflexivity|]. eexists. unfold one_col. apply (bug_score _ _ _ _ _ _ (bern_score ex_lgam)).
Qed.
Definition one_again : redrawn :=
  Redrawn (fun _ => []) (fun _ _ => 0%nat) (fun _ _ t => t) (fun _ => []) [] (fun _ _ => 0%nat) [0%Z].
Lemma one_order : NoDup (rd_order one_again) /\ forall v, In v (rd_order one_again) <-> In v (dkeys (s_views one_s)).
Proof. split; [repeat constructor; intros []|intros v; reflexivity]. Qed.
Lemma one_outs c : In c (s_outs one_s) -> (0 <= c)%Z.
Proof. intros [<-|[]]. lia. Qed.
Lemma one_apart v : In v (dkeys (s_views one_s)) -> ~ In (crp_id_view + v)%Z (s_outs one_s).
Proof. intros [<-|[]] [E|[]]. discriminate. Qed.

Theorem C41_tokens_refuted : exists cs f m cs', creach cs /\ sreach safe (cs_state cs) /\ n_rows (cs_state cs) = Ok 1%Z /\
  cstate_to_metadata cs = Ok m /\ cstate_from_metadata f m = Ok cs' /\
  snd (decompose cs 57482) = Ok tt /\ snd (decompose cs' 57482) = Err KeyError.
Proof.
  destruct (C41_composite_partial _ one_again 1%Z one_left one_reach eq_refl ltac:(lia) one_outs one_written one_apart
    (proj1 one_order) (proj2 one_order)) as [m [cs' [E1 [E2 [_ [E3 [E4 _]]]]]]].
  exists (one_cs [(57482%Z, node [51%Z] [0%Z])] 57483), one_again, m, cs'.
  split; [exact one_left|]. split; [exact one_reach|]. split; [reflexivity|]. split; [exact E1|]. split; [exact E2|].
  split; [reflexivity|]. specialize (E4 0%nat ltac:(cbn; lia)).
  destruct cs' as [s' hk nx fl]. cbn [cs_hooked] in *. destruct hk as [|[k g] [|kg hk]]; cbn in E3, E4; try discriminate.
  injection E4 as ->. reflexivity.
Qed.
Print Assumptions C41_tokens_refuted.

(** The constructor sets [_composite] to False and does not look at the columns (182), where
    incorporate_dim, unincorporate_dim and update_cctype do (358-362): a state with a
    conditional column is queried as a network before and column by column after. *)
Definition cond_op : sop :=
  OAdd [None] 1 (CSpec (ADim neg_M (dim_new neg_M tt true [0%Z] (fun _ => tt))) [] (fun _ => 0%nat)) (Some 0%Z)
    (VSeed 1 [1] (fun _ _ => 0%nat)) (ex_draws 0) (fun _ _ => 0%nat) [].
Definition cond_col : adim :=
  ADim neg_M (@Dim neg_M [(0%Z, m_new neg_M tt tt)] [] [(0, 0)]%Z (m_new neg_M tt tt) tt [] true [0%Z] (fun _ => tt) 6).
Definition cond_v : view := set_dims one_w [(0%Z, one_col [(0, 0)]%Z [0%Z] 5); (1%Z, cond_col)].
Definition cond_s : state :=
  State [0; 1]%Z [(0%Z, [None]); (1%Z, [None])] (Crp 2 [(0, 0); (1, 0)]%Z [(0, 2)]%Z 1) [1] [(0%Z, cond_v)] [] [].
Lemma cond_step : run_op one_s cond_op = (cond_s, Ok tt).
Proof. reflexivity. Qed.
Lemma cond_reach : sreach safe cond_s.
Proof.
  refine (sr_step safe one_s cond_op cond_s one_reach _ _ cond_step).
  - exists neg_M, tt, true, [0%Z], (fun _ => tt). split; [apply kn_regression; reflexivity|reflexivity].
  - intros E. discriminate.
Qed.
Lemma cond_creach : creach (CState cond_s [] first_token true).
Proof.
  apply (cr_state (one_cs [] first_token) true (fun s => run_op s cond_op) _ (Ok tt) one_plain).
  - unfold on_state. cbn [cs_state one_cs]. rewrite cond_step. reflexivity.
  - eexists. reflexivity.
  - left. reflexivity.
Qed.
Lemma cond_written v w c a : dget v (s_views cond_s) = Some w -> dget c (v_dims w) = Some a ->
  no_params (a_M a) /\ exists e, a_score a = Ok e.
Proof.
  unfold cond_s, cond_v. cbn [s_views dget]. destruct (v =? 0)%Z; [|discriminate]. intros E. injection E as <-.
  cbn [set_dims v_dims dget]. destruct (c =? 0)%Z.
  - intros E. injection E as <-. split; [intros [] []; reflexivity|]. eexists. unfold one_col.
    apply (bug_score _ _ _ _ _ _ (bern_score ex_lgam)).
  - destruct (c =? 1)%Z; [|discriminate]. intros E. injection E as <-.
    split; [intros [] []; reflexivity|]. eexists. reflexivity.
Qed.

Theorem C41_composite_refuted : exists cs f m cs', creach cs /\ sreach safe (cs_state cs) /\ n_rows (cs_state cs) = Ok 1%Z /\
  cstate_to_metadata cs = Ok m /\ cstate_from_metadata f m = Ok cs' /\
  cs_hooked cs = [] /\ cs_composite cs = true /\ cs_hooked cs' = [] /\ cs_composite cs' = false.
Proof.
  destruct (C41_composite_partial (CState cond_s [] first_token true) one_again 1%Z cond_creach cond_reach eq_refl ltac:(lia))
    as [m [cs' [E1 [E2 [_ [E3 [_ [_ [E4 _]]]]]]]]].
  - intros c [<-|[<-|[]]]; lia.
  - exact cond_written.
  - intros v [<-|[]] [E|[E|[]]]; discriminate.
  - exact (proj1 one_order).
  - exact (proj2 one_order).
  - exists (CState cond_s [] first_token true), one_again, m, cs'. split; [exact cond_creach|]. split; [exact cond_reach|].
    split; [reflexivity|]. split; [exact E1|]. split; [exact E2|]. split; [reflexivity|]. split; [reflexivity|].
    split; [|exact E4]. destruct (cs_hooked cs'); [reflexivity|discriminate].
Qed.
Print Assumptions C41_composite_refuted.

(** to_metadata of a view writes the clusters in the order of the rows without their
    numbers (view.py:574-575), and the constructor numbers them from 0: the rows of a view
    from which one has been unincorporated come back under other numbers. *)
Definition gap_X : dict (list cell) := [(0%Z, [None; None; None])].
Definition gap_rows (l : list (Z * Z)) (counts : dict Z) (N : Z) : view := View 5 (Crp N l counts 1) [1] [].
Lemma gap_reach : vreach (tab gap_X) (gap_rows [(0, 0); (2, 1)]%Z [(0, 1); (1, 1)]%Z 2).
Proof.
  apply (vr_unincorporate _ (gap_rows [(0, 0); (1, 0); (2, 1)]%Z [(0, 2); (1, 1)]%Z 3) 1 _ (Ok tt)); [|reflexivity].
  apply (vr_incorporate _ (gap_rows [(0, 0); (1, 0)]%Z [(0, 2)]%Z 2) (fun _ _ => 0%nat) 2 (Some 1%Z) []); [|discriminate|reflexivity].
  apply (vr_incorporate _ (gap_rows [(0, 0)]%Z [(0, 1)]%Z 1) (fun _ _ => 0%nat) 1 (Some 0%Z) []); [|discriminate|reflexivity].
  apply (vr_incorporate _ (gap_rows [] [] 0) (fun _ _ => 0%nat) 0 (Some 0%Z) []); [|discriminate|reflexivity].
  apply vr_new.
Qed.
Theorem C41_view_rows_refuted : exists X w, vreach (tab X) w /\ v_rows w = [(0, 0); (2, 1)]%Z /\
  forall f, exists m w', view_to_metadata X w = Ok m /\ view_from_metadata f m = Ok w' /\ v_rows w' = [(0, 0); (1, 1)]%Z.
Proof.
  exists gap_X, (gap_rows [(0, 0); (2, 1)]%Z [(0, 1); (1, 1)]%Z 2). split; [exact gap_reach|]. split; [reflexivity|].
  intros f. eexists. eexists. split; [reflexivity|]. split; reflexivity.
Qed.
Print Assumptions C41_view_rows_refuted.

(* ------------------------------------------------------------------ *)
(** ** What is made anew, and what is refused *)

Lemma bulk_rows_grids X c rows : forall a a' r, bulk_rows X c rows a = (a', r) -> d_grids (a_d a') = d_grids (a_d a).
Proof.
  induction rows as [|[i k] rows IH]; intros a a' r; cbn [bulk_rows]; [intros E; injection E as <- _; reflexivity|].
  destruct (X c i) as [x|]; [|intros E; injection E as <- _; reflexivity].
  destruct (input_values X i a) as [ins|]; [|intros E; injection E as <- _; reflexivity].
  destruct (a_incorporate a i k x ins) as [a1 r1] eqn:Ea. assert (G : d_grids (a_d a1) = d_grids (a_d a)).
  { unfold a_incorporate in Ea. destruct (dim_incorporate (a_M a) (a_d a) i (Some k) x ins) as [d1 r2] eqn:Ed. injection Ea as <- _.
    exact (proj1 (proj2 (dim_inc_kept _ _ _ _ _ _ _ _ Ed))). }
  destruct r1; [|intros E; injection E as <- _; exact G]. intros E. rewrite (IH _ _ _ E). exact G.
Qed.
Lemma bulk_grids X v c a a' r : bulk_incorporate X v c a = (a', r) -> d_grids (a_d a') = d_grids (a_d a).
Proof.
  unfold bulk_incorporate. destruct (bulk_rows X c (v_rows v) (a_reset a)) as [a1 r1] eqn:Eb.
  pose proof (bulk_rows_grids _ _ _ _ _ _ Eb) as G. destruct r1; [|intros E; injection E as <- _; exact G].
  destruct (zdict_eq _ _); intros E; injection E as <- _; exact G.
Qed.
Lemma make_grids k a : col_make k = (a, Ok tt) -> d_grids (a_d a) = cs_grids k.
Proof.
  unfold col_make, a_call. destruct (dim_transition_grids _ _ _ _) as [d r] eqn:E. intros F. injection F as <- ->. cbn [a_d].
  unfold dim_transition_grids in E. destruct (d_set _); [injection E as <-; reflexivity|].
  destruct (rsequence _); [injection E as <-; reflexivity|discriminate].
Qed.
Lemma columns_grids X g cols : forall w w', view_columns X w cols = Ok w' -> (forall c k, In (c, k) cols -> cs_grids k = g c) ->
  (forall c a, dget c (v_dims w) = Some a -> d_grids (a_d a) = g c) ->
  v_grid w' = v_grid w /\ forall c a, dget c (v_dims w') = Some a -> d_grids (a_d a) = g c.
Proof.
  induction cols as [|[c k] cols IH]; intros w w' E Hk Hw; cbn [view_columns] in E; [injection E as <-; auto|].
  destruct (col_make k) as [a [[]|]] eqn:Ea; [|discriminate]. cbn [rbind] in E.
  destruct (view_incorporate_dim X w c a true) as [[w1 a1] [[]|]] eqn:E1; [|discriminate]. cbn [rbind] in E.
  destruct (match dget c (v_dims w1) with Some a' => a_score a' | None => Err KeyError end); [|discriminate]. cbn [rbind] in E.
  unfold view_incorporate_dim in E1. destruct (bulk_incorporate X w c a) as [a2 [u|]] eqn:Eb; [|discriminate]. injection E1 as <- <-.
  destruct (IH _ _ E) as [G1 G2]; [intros c0 k0 H0; apply Hk; right; exact H0| |split; [exact G1|exact G2]].
  intros c0 b0. cbn [set_dims v_dims]. rewrite dget_dset. destruct (Z.eqb_spec c0 c) as [->|N]; [|apply Hw].
  intros F. injection F as <-. rewrite (bulk_grids _ _ _ _ _ _ Eb), (make_grids _ _ Ea). apply Hk. left. reflexivity.
Qed.
Lemma make_empty X o seed zr w : view_make X o seed zr = Ok w -> v_grid w = vs_grid seed /\ v_dims w = [].
Proof.
  unfold view_make. destruct X as [|[c l] X]; [discriminate|].
  intros E. repeat match type of E with rbind ?x _ = Ok _ => destruct x; cbn [rbind] in E; [|discriminate] end. injection E as <-. auto.
Qed.
(** The grids are not written down: a state that is built has those computed from its data,
    on every column and partition. *)
Theorem C41_grids : forall f m s, state_from_metadata f m = Ok s ->
  s_grid s = rd_grid f /\ forall v w, dget v (s_views s) = Some w ->
    v_grid w = rd_vgrid f v /\ forall c a, dget c (v_dims w) = Some a -> d_grids (a_d a) = rd_grids f c.
Proof.
  intros f m s. unfold state_from_metadata. destruct (mt_rows m) as [|row rows]; [discriminate|]. destruct (mt_cols m) as [|k0 ks]; [discriminate|].
  destruct (negb _); [discriminate|]. destruct (negb _); [discriminate|]. destruct (negb _); [discriminate|].
  destruct (table_of _ _) as [X|]; [|discriminate]. cbn [rbind]. destruct (negb _); [discriminate|].
  unfold state_init. destruct (seat_given _ _) as [cr|]; [|discriminate]. cbn [rbind]. destruct (_ =? _)%nat; [|discriminate].
  set (vspecs := fun v => VSpec _ _). set (cspecs := fun c => column_spec f c _).
  destruct (make_views X (dkeys X) (c_data cr) vspecs cspecs (rd_order f)) as [ws|] eqn:Em; [|discriminate]. cbn [rbind].
  intros E. injection E as <-. cbn [s_grid s_views]. split; [reflexivity|].
  revert ws Em. generalize (rd_order f) as order. induction order as [|v order IH]; intros ws Em; cbn [make_views] in Em; [injection Em as <-; discriminate|].
  destruct (view_outputs _ _ _) as [mine|]; [|discriminate]. cbn [rbind] in Em.
  destruct (view_make _ _ _ _) as [w|] eqn:Ew; [|discriminate]. cbn [rbind] in Em.
  destruct (view_columns _ _ _) as [w'|] eqn:Ec; [|discriminate]. cbn [rbind] in Em.
  destruct (make_views X (dkeys X) (c_data cr) vspecs cspecs order) as [ws0|] eqn:E0; [|discriminate]. cbn [rbind] in Em. injection Em as <-.
  intros v0 w0. cbn [dget]. destruct (Z.eqb_spec v0 v) as [->|N]; [|apply (IH ws0); reflexivity]. intros F. injection F as <-.
  destruct (make_empty _ _ _ _ _ Ew) as [G0 D0].
  destruct (columns_grids _ (rd_grids f) _ _ _ Ec) as [G1 G2].
  - intros c k Hk. apply in_map_iff in Hk. destruct Hk as [c' [Hk _]]. injection Hk as <- <-. reflexivity.
  - rewrite D0. discriminate.
  - split; [rewrite G1; exact G0|exact G2].
Qed.
Print Assumptions C41_grids.

(** No component is left out: what is built has all that were written, in their order, and
    they form a network. *)
Lemma hook_all_all fs : forall cs cs', (forall t, In t (dkeys (cs_hooked cs)) -> (t < cs_next cs)%Z) -> hook_all fs cs = Ok cs' ->
  map snd (cs_hooked cs') = map snd (cs_hooked cs) ++ fs /\ cs_state cs' = cs_state cs /\ (fs <> [] -> exists t, build_network cs' = Ok t).
Proof.
  induction fs as [|g fs IH]; intros cs cs' Hn E; cbn [hook_all] in E.
  { injection E as <-. rewrite app_nil_r. split; [reflexivity|]. split; [reflexivity|]. congruence. }
  destruct (compose cs g) as [c1 [t|]] eqn:Ec; [|discriminate]. cbn [rbind] in E.
  assert (Hnew : ~ In (cs_next cs) (dkeys (cs_hooked cs))) by (intros Hi; apply Hn in Hi; lia).
  unfold compose in Ec.
  destruct (build_network (CState (cs_state cs) (dset (cs_next cs) g (cs_hooked cs)) (cs_next cs + 1) (cs_composite cs))) as [nt|e] eqn:En;
    [|destruct e; discriminate]. injection Ec as <- <-.
  apply IH in E as E2.
  2:{ cbn. intros t Ht. rewrite dset_new in Ht by exact Hnew. unfold dkeys in Ht. rewrite map_app, in_app_iff in Ht. destruct Ht as [Ht|[<-|[]]]; [apply Hn in Ht; lia|cbn; lia]. }
  destruct E2 as [A [B C]]. cbn [update_is_composite cs_hooked cs_state] in *. rewrite dset_new in A by exact Hnew. rewrite map_app in A. cbn [map snd] in A. rewrite <- app_assoc in A.
  split; [exact A|]. split; [exact B|]. intros _. destruct fs as [|g' fs']; [|apply C; discriminate].
  injection E as <-. exists nt. exact En.
Qed.
Theorem C41_all_composed : forall f m fs cs, cstate_from_metadata f (m, fs) = Ok cs ->
  map snd (cs_hooked cs) = map snd fs /\ state_from_metadata f m = Ok (cs_state cs) /\ (fs <> [] -> exists t, build_network cs = Ok t).
Proof.
  intros f m fs cs. unfold cstate_from_metadata. cbn [fst snd]. destruct (state_from_metadata f m) as [s|] eqn:Es; [|discriminate]. cbn [rbind]. intros E.
  apply hook_all_all in E; [|intros t []]. destruct E as [A [B C]]. split; [exact A|]. split; [rewrite B; reflexivity|].
  intros H. apply C. destruct fs; [congruence|discriminate].
Qed.
Print Assumptions C41_all_composed.

(* ------------------------------------------------------------------ *)
(** ** Examples *)

(** A state of one row, and one with a conditional column, meet the premises. *)
Example C41_state_ex : sreach safe cond_s /\ n_rows cond_s = Ok 1%Z /\ (0 < 1)%Z /\
  (forall c, In c (s_outs cond_s) -> (0 <= c)%Z) /\
  (forall v w c a, dget v (s_views cond_s) = Some w -> dget c (v_dims w) = Some a ->
     no_params (a_M a) /\ exists e, a_score a = Ok e) /\
  NoDup (rd_order one_again) /\ (forall v, In v (rd_order one_again) <-> In v (dkeys (s_views cond_s))).
Proof.
  split; [exact cond_reach|]. split; [reflexivity|]. split; [lia|]. split; [intros c [<-|[<-|[]]]; lia|].
  split; [exact cond_written|]. exact one_order.
Qed.
Example C41_collapsed_ex : let s := solo (M_bernoulli lgam_w) (1, 1) (fun _ => tt) [1] [1] [] in
  sreach safe s /\ n_rows s = Ok 1%Z /\
  (forall v w c a, dget v (s_views s) = Some w -> dget c (v_dims w) = Some a ->
     collapsed (a_M a) (d_hyp (a_d a)) /\ forall lbes, a_M a <> M_vonmises lbes) /\
  forall v, In v (rd_order one_again) <-> In v (dkeys (s_views s)).
Proof.
  intros s. split.
  { refine (solo_reach (M_bernoulli lgam_w) (1, 1) (fun _ => tt) _ _ _ _ _ safe (kn_bernoulli _)). apply bern_score. }
  split; [reflexivity|]. split; [|intros v; reflexivity]. intros v w c a.
  unfold s, solo, solo_v. cbn [s_views dget]. destruct (v =? 0)%Z; [|discriminate]. intros E. injection E as <-.
  cbn [set_dims v_dims dget]. destruct (c =? 0)%Z; [|discriminate]. intros E. injection E as <-.
  unfold solo_col. cbn [a_M a_d d_hyp]. split.
  - apply col_bernoulli; [exact lgam_w_rec|cbn; lra|cbn; lra].
  - intros lbes E. apply (f_equal m_nhyp) in E. discriminate.
Qed.
(** A composite with a component, and the premise on the outputs of the views. *)
Example C41_composite_ex : creach (one_cs [(57482%Z, node [51%Z] [0%Z])] 57483) /\
  (forall v, In v (dkeys (s_views one_s)) -> ~ In (crp_id_view + v)%Z (s_outs one_s)).
Proof. split; [exact one_left|exact one_apart]. Qed.
Example C45_state_agreement_ex : sreach safe cond_s /\ dget 0%Z (s_views cond_s) = Some cond_v /\
  dget 1%Z (v_dims cond_v) = Some cond_col.
Proof. split; [exact cond_reach|split; reflexivity]. Qed.
Example C41_view_ex : one_X <> [] /\ vinv (tab one_X) one_v /\
  (forall r, In r (dkeys (v_rows one_v)) <-> (0 <= r < Z.of_nat 1)%Z) /\
  (forall c a, dget c (v_dims one_v) = Some a -> written a).
Proof.
  destruct (sreach_sinv _ one_reach) as [n H].
  split; [discriminate|]. split; [exact (proj1 (si_view _ _ H 0%Z one_v eq_refl))|]. split.
  - intros r. cbn. lia.
  - intros c a Ea. apply (collapsed_written n one_s 0%Z one_v c a H (sreach_set safe one_s one_reach) eq_refl Ea);
      apply (one_written 0%Z one_v c a eq_refl Ea).
Qed.
