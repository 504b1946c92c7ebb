(** Facts about what a state hands to lovecat. *)
From Verif Require Import P06_Dim P20_DummyCode PartitionFacts.
From Verif Require Export BackendsFacts.
From Coq Require Import Lia Permutation.
Local Open Scope R_scope.

(* ------------------------------------------------------------------ *)
(** ** Renumbering *)

Lemma Forall2_length' {A B} (P : A -> B -> Prop) l m : Forall2 P l m -> length l = length m.
Proof. intros H. induction H; simpl; congruence. Qed.

(** [m] says of any two positions what [l] says. *)
Definition relabels (l m : list Z) : Prop :=
  length m = length l /\
  forall p q, (p < length l)%nat -> (q < length l)%nat ->
    (nth_error m p = nth_error m q <-> nth_error l p = nth_error l q).
(** The numbers of [m] are [0], ..., [K - 1], each one used. *)
Definition numbered (K : nat) (m : list Z) : Prop :=
  forall j, In j m <-> (0 <= j < Z.of_nat K)%Z.

Lemma lookup_coder u k : NoDup u -> In k u ->
  exists j, lookup k (coder u) = Ok j /\ (0 <= j < Z.of_nat (length u))%Z /\ nth_error u (Z.to_nat j) = Some k.
Proof.
  intros Hn Hk. apply In_nth_error in Hk. destruct Hk as [i Hi]. exists (Z.of_nat i).
  assert (Hl : (i < length u)%nat) by (apply nth_error_Some; congruence). rewrite Nat2Z.id.
  split; [|split; [lia|exact Hi]]. unfold lookup.
  rewrite (proj2 (coder_spec u k (Z.of_nat i) Hn)); [reflexivity|]. rewrite Nat2Z.id. split; [lia|exact Hi].
Qed.

Lemma recode (u l : list Z) : NoDup u -> (forall k, In k l -> In k u) ->
  exists m, rsequence (map (fun k => lookup k (coder u)) l) = Ok m /\
    Forall2 (fun k j => (0 <= j < Z.of_nat (length u))%Z /\ nth_error u (Z.to_nat j) = Some k) l m.
Proof.
  intros Hn Hl. induction l as [|k l IH]; [exists []; split; [reflexivity|constructor]|].
  destruct IH as [m [E F]]; [intros k' Hk'; apply Hl; right; exact Hk'|].
  destruct (lookup_coder u k Hn (Hl k (or_introl eq_refl))) as [j [Ej Hj]]. exists (j :: m). cbn [map rsequence].
  rewrite Ej. cbn [rbind]. rewrite E. split; [reflexivity|]. constructor; assumption.
Qed.

Lemma coded_relabels (u l m : list Z) : NoDup u ->
  Forall2 (fun k j => (0 <= j < Z.of_nat (length u))%Z /\ nth_error u (Z.to_nat j) = Some k) l m -> relabels l m.
Proof.
  intros Hn F. split; [symmetry; eapply Forall2_length'; exact F|]. intros p q Hp Hq.
  destruct (nth_error l p) as [kp|] eqn:Ep; [|apply nth_error_None in Ep; lia].
  destruct (nth_error l q) as [kq|] eqn:Eq; [|apply nth_error_None in Eq; lia].
  destruct (Forall2_nth _ _ _ _ _ F Ep) as [jp [Ejp [Rp Np]]]. destruct (Forall2_nth _ _ _ _ _ F Eq) as [jq [Ejq [Rq Nq]]].
  rewrite Ejp, Ejq. split; [intros E; injection E as ->; congruence|].
  intros E. injection E as ->. f_equal. apply Z2Nat.inj; try lia.
  apply (proj1 (NoDup_nth_error u) Hn); [apply nth_error_Some; congruence|congruence].
Qed.

Lemma coded_numbered (u l m : list Z) : NoDup u -> (forall k, In k u -> In k l) ->
  Forall2 (fun k j => (0 <= j < Z.of_nat (length u))%Z /\ nth_error u (Z.to_nat j) = Some k) l m ->
  numbered (length u) m.
Proof.
  intros Hn Hu F j. split.
  - intros Hj. apply In_nth_error in Hj. destruct Hj as [p Hp]. destruct (Forall2_nth' _ _ _ _ _ F Hp) as [k [_ [R _]]]. exact R.
  - intros Hj. destruct (nth_error u (Z.to_nat j)) as [k|] eqn:E; [|apply nth_error_None in E; lia].
    assert (Hk : In k l) by (apply Hu; eapply nth_error_In; exact E).
    apply In_nth_error in Hk. destruct Hk as [p Hp]. destruct (Forall2_nth _ _ _ _ _ F Hp) as [j' [Ej' [R N]]].
    assert (j' = j); [|subst; eapply nth_error_In; exact Ej'].
    apply Z2Nat.inj; try lia. apply (proj1 (NoDup_nth_error u) Hn); [apply nth_error_Some; congruence|congruence].
Qed.

Lemma row_codes_ok w : exists m, row_codes w = Ok m /\ relabels (dvals (v_rows w)) m /\
  numbered (length (uniq (dvals (v_rows w)))) m.
Proof.
  unfold row_codes. destruct (recode (uniq (dvals (v_rows w))) (dvals (v_rows w)) (uniq_NoDup _)) as [m [E F]].
  { intros k. apply uniq_in. }
  exists m. split; [exact E|]. split; [eapply coded_relabels; [apply uniq_NoDup|exact F]|].
  eapply coded_numbered; [apply uniq_NoDup| |exact F]. intros k. apply uniq_in.
Qed.

(** The counts of [np.bincount] of such a list. *)
Lemma bincount_numbered K m : (0 < K)%nat -> numbered K m ->
  length (np_bincount m) = K /\ forall j, (j < K)%nat ->
    nth_error (np_bincount m) j = Some (Z.of_nat (count_occ Z.eq_dec m (Z.of_nat j))).
Proof.
  intros HK H. unfold np_bincount. destruct (zmax_list m) as [x|] eqn:E.
  - apply zmax_list_spec in E. destruct E as [Hx Hm]. apply H in Hx.
    assert (HK' : In (Z.of_nat K - 1)%Z m) by (apply H; lia). apply Hm in HK'.
    assert (x + 1 = Z.of_nat K)%Z as -> by lia. rewrite map_length, length_range. split; [lia|].
    intros j Hj. rewrite nth_error_map, nth_error_range by lia. reflexivity.
  - apply zmax_list_None in E. subst m. destruct (proj2 (H 0%Z)); lia.
Qed.

Lemma bincount_no_zero K m : (0 < K)%nat -> numbered K m -> zmem 0 (np_bincount m) = false.
Proof.
  intros HK H. destruct (bincount_numbered K m HK H) as [L N]. destruct (zmem 0 (np_bincount m)) eqn:E; [|reflexivity].
  apply zmem_in in E. apply In_nth_error in E. destruct E as [j Hj].
  assert (Hl : (j < K)%nat) by (rewrite <- L; apply nth_error_Some; congruence). rewrite N in Hj by exact Hl.
  assert (Hin : In (Z.of_nat j) m) by (apply H; lia). apply (count_occ_In Z.eq_dec) in Hin. injection Hj as Hj. lia.
Qed.

(* ------------------------------------------------------------------ *)
(** ** The partitions *)

(** What lovecat is told about view [w], at position [j]. *)
Definition told (s : state) (v : Z) (w : view) (part : list Z) (vs : vstate) : Prop :=
  relabels (dvals (v_rows w)) part /\
  (exists K, (0 < K)%nat /\ numbered K part /\ length (vt_counts vs) = K /\
     forall j, (j < K)%nat -> nth_error (vt_counts vs) j = Some (Z.of_nat (count_occ Z.eq_dec part (Z.of_nat j)))) /\
  (forall c, In c (vt_cols vs) <-> dget c (s_zv s) = Some v) /\ NoDup (vt_cols vs) /\
  vt_alpha vs = c_alpha (v_crp w).

Lemma dvals_in {A} (d : dict A) x : NoDup (dkeys d) -> (In x (dvals d) <-> exists k, dget k d = Some x).
Proof.
  intros Hn. split.
  - intros Hx. unfold dvals in Hx. apply in_map_iff in Hx. destruct Hx as [[k y] [Ey Hin]]. simpl in Ey. subst y.
    exists k. apply dget_In_NoDup; assumption.
  - intros [k Hk]. apply dget_In in Hk. unfold dvals. change x with (snd (k, x)). apply in_map. exact Hk.
Qed.

Section Handed.
  Context (n : nat) (s : state) (H : sinv n s) (Hn : (0 < n)%nat).
  Let u : list Z := uniq (dvals (s_zv s)).

  Lemma in_u v : In v u <-> exists c, dget c (s_zv s) = Some v.
  Proof. unfold u. rewrite uniq_in. apply dvals_in. apply (si_crp _ _ H). Qed.
  Lemma view_u v : In v u -> exists w, dget v (s_views s) = Some w.
  Proof.
    intros Hv. apply in_u in Hv. destruct Hv as [c Hc]. apply in_dkeys_Some, (si_views _ _ H).
    eapply crp_rows_counts; [apply (si_crp _ _ H)|exact Hc].
  Qed.
  Lemma u_pos : (0 < length u)%nat.
  Proof.
    pose proof (si_ne _ _ H) as Hne. destruct (s_outs s) as [|c o] eqn:E; [congruence|].
    assert (Hc : In c (dkeys (s_zv s))) by (apply (si_zv _ _ H); rewrite E; left; reflexivity).
    apply in_dkeys_Some in Hc. destruct Hc as [v Hv].
    assert (Hi : In v u) by (apply in_u; eauto). destruct u; [destruct Hi|simpl; lia].
  Qed.

  Lemma X_D_ok : exists X_D, crosscat_X_D s = Ok X_D /\
    Forall2 (fun v m => exists w, dget v (s_views s) = Some w /\ row_codes w = Ok m) u X_D.
  Proof.
    unfold crosscat_X_D. fold u.
    assert (G : forall l, (forall v, In v l -> In v u) -> exists X_D,
      rsequence (map (fun v => rbind (lookup v (s_views s)) row_codes) l) = Ok X_D /\
      Forall2 (fun v m => exists w, dget v (s_views s) = Some w /\ row_codes w = Ok m) l X_D).
    { induction l as [|v l IH]; intros Hl; [exists []; split; [reflexivity|constructor]|].
      destruct IH as [X [E F]]; [intros v' Hv'; apply Hl; right; exact Hv'|].
      destruct (view_u v (Hl v (or_introl eq_refl))) as [w Ew]. destruct (row_codes_ok w) as [m [Em _]].
      exists (m :: X). cbn [map rsequence]. unfold lookup at 1. rewrite Ew. cbn [rbind]. rewrite Em. cbn [rbind]. rewrite E.
      split; [reflexivity|]. constructor; [eauto|exact F]. }
    apply G. auto.
  Qed.

  (** The numbers of the views of the columns, in the order of the outputs. *)
  Lemma assign_ok : exists assign,
    rsequence (map (fun o => rbind (lookup o (s_zv s)) (fun v => lookup v (coder u))) (s_outs s)) = Ok assign /\
    Forall2 (fun c j => exists v, dget c (s_zv s) = Some v /\ (0 <= j < Z.of_nat (length u))%Z /\ nth_error u (Z.to_nat j) = Some v)
      (s_outs s) assign /\ numbered (length u) assign.
  Proof.
    assert (G : forall l, (forall c, In c l -> In c (s_outs s)) -> exists assign,
      rsequence (map (fun o => rbind (lookup o (s_zv s)) (fun v => lookup v (coder u))) l) = Ok assign /\
      Forall2 (fun c j => exists v, dget c (s_zv s) = Some v /\ (0 <= j < Z.of_nat (length u))%Z /\ nth_error u (Z.to_nat j) = Some v) l assign).
    { induction l as [|c l IH]; intros Hl; [exists []; split; [reflexivity|constructor]|].
      destruct IH as [X [E F]]; [intros v' Hv'; apply Hl; right; exact Hv'|].
      assert (Hc : In c (dkeys (s_zv s))) by (apply (si_zv _ _ H), Hl; left; reflexivity).
      apply in_dkeys_Some in Hc. destruct Hc as [v Hv].
      destruct (lookup_coder u v (uniq_NoDup _)) as [j [Ej Hj]]; [apply in_u; eauto|].
      exists (j :: X). cbn [map rsequence]. unfold lookup at 1. rewrite Hv. cbn [rbind]. rewrite Ej. cbn [rbind]. rewrite E.
      split; [reflexivity|]. constructor; [eauto|exact F]. }
    destruct (G (s_outs s) (fun c Hc => Hc)) as [assign [E F]]. exists assign. split; [exact E|]. split; [exact F|].
    intros j. split.
    - intros Hj. apply In_nth_error in Hj. destruct Hj as [p Hp]. destruct (Forall2_nth' _ _ _ _ _ F Hp) as [c [_ [v [_ [R _]]]]]. exact R.
    - intros Hj. destruct (nth_error u (Z.to_nat j)) as [v|] eqn:Ev; [|apply nth_error_None in Ev; lia].
      assert (Hv : In v u) by (eapply nth_error_In; exact Ev). apply in_u in Hv. destruct Hv as [c Hc].
      assert (Ho : In c (s_outs s)) by (apply (si_zv _ _ H); eapply dget_Some_in; exact Hc).
      apply In_nth_error in Ho. destruct Ho as [p Hp]. destruct (Forall2_nth _ _ _ _ _ F Hp) as [j' [Ej' [v' [Ev' [R N]]]]].
      assert (v' = v) by congruence. subst v'.
      assert (j' = j); [|subst; eapply nth_error_In; exact Ej'].
      apply Z2Nat.inj; try lia. apply (proj1 (NoDup_nth_error u) (uniq_NoDup _)); [apply nth_error_Some; congruence|congruence].
  Qed.

  Lemma rows_pos v w : dget v (s_views s) = Some w -> (0 < length (uniq (dvals (v_rows w))))%nat.
  Proof.
    intros Ew. destruct (si_view _ _ H v w Ew) as [_ [_ [_ R]]].
    assert (H0 : In 0%Z (dkeys (v_rows w))) by (apply R; lia). apply in_dkeys_Some in H0. destruct H0 as [k Hk].
    assert (Hi : In k (uniq (dvals (v_rows w)))).
    { apply uniq_in. apply dget_In in Hk. unfold dvals. change k with (snd (0%Z, k)). apply in_map. exact Hk. }
    destruct (uniq (dvals (v_rows w))); [destruct Hi|simpl; lia].
  Qed.

  Lemma handed_ok M_c : (forall m, In m M_c -> mt_normal m = true \/ mt_code m <> []) ->
    exists X_D L, crosscat_X_D s = Ok X_D /\ crosscat_X_L s M_c X_D = Ok L /\
      length (xl_assign L) = length (s_outs s) /\
      (exists K, (0 < K)%nat /\ numbered K (xl_assign L) /\ length X_D = K /\ length (xl_views L) = K /\ length (xl_counts L) = K /\
        forall j, (j < K)%nat -> nth_error (xl_counts L) j = Some (Z.of_nat (count_occ Z.eq_dec (xl_assign L) (Z.of_nat j)))) /\
      xl_alpha L = c_alpha (s_crp s) /\
      (forall i c v w, nth_error (s_outs s) i = Some c -> dget c (s_zv s) = Some v -> dget v (s_views s) = Some w ->
        exists j part vs, nth_error (xl_assign L) i = Some (Z.of_nat j) /\ nth_error X_D j = Some part /\
          nth_error (xl_views L) j = Some vs /\ told s v w part vs) /\
      (forall i i' c c', nth_error (s_outs s) i = Some c -> nth_error (s_outs s) i' = Some c' ->
        (nth_error (xl_assign L) i = nth_error (xl_assign L) i' <-> dget c (s_zv s) = dget c' (s_zv s))).
  Proof.
    intros HM. destruct X_D_ok as [X_D [ED FD]]. destruct assign_ok as [assign [EA [FA NA]]].
    assert (LD : length X_D = length u) by (symmetry; eapply Forall2_length'; exact FD).
    assert (EM : forallb (fun m => mt_normal m || (0 <? length (mt_code m))%nat) M_c = true).
    { apply forallb_forall. intros m Hm. destruct (HM m Hm) as [->|Hc]; [reflexivity|].
      apply Bool.orb_true_intro. right. apply Nat.ltb_lt. destruct (mt_code m); [congruence|simpl; lia]. }
    assert (Hview : forall j v, nth_error u j = Some v -> exists w part, dget v (s_views s) = Some w /\
      nth_error X_D j = Some part /\ row_codes w = Ok part).
    { intros j v Hj. destruct (Forall2_nth _ _ _ _ _ FD Hj) as [part [Ep [w [Ew Er]]]]. eauto. }
    set (f := fun v => rbind (lookup v (s_views s)) (fun w => rbind (lookup v (coder u)) (fun i =>
        rbind (py_nth X_D i) (fun part => if zmem 0 (np_bincount part) then Err AssertionError
        else Ok (VState (dkeys (v_dims w)) (np_bincount part) (c_alpha (v_crp w))))))).
    assert (Hf : forall j v w part, nth_error u j = Some v -> dget v (s_views s) = Some w -> nth_error X_D j = Some part ->
      row_codes w = Ok part -> f v = Ok (VState (dkeys (v_dims w)) (np_bincount part) (c_alpha (v_crp w)))).
    { intros j v w part Hj Ew Ep Er. unfold f. unfold lookup at 1. rewrite Ew. cbn [rbind].
      destruct (lookup_coder u v (uniq_NoDup _)) as [i [Ei [Ri Ni]]]; [eapply nth_error_In; exact Hj|]. rewrite Ei. cbn [rbind].
      assert (Z.to_nat i = j).
      { apply (proj1 (NoDup_nth_error u) (uniq_NoDup _)); [apply nth_error_Some; congruence|congruence]. }
      rewrite py_nth_nonneg by lia. replace (Z.to_nat i) with j by congruence. rewrite Ep. cbn [rbind].
      destruct (row_codes_ok w) as [m [Em [_ Nm]]]. assert (m = part) by congruence. subst m.
      rewrite (bincount_no_zero _ _ (rows_pos v w Ew) Nm). reflexivity. }
    assert (G : forall l, (forall v, In v l -> In v u) -> exists vs, rsequence (map f l) = Ok vs /\ Forall2 (fun v x => f v = Ok x) l vs).
    { induction l as [|v l IH]; intros Hl; [exists []; split; [reflexivity|constructor]|].
      destruct IH as [X [E F]]; [intros v' Hv'; apply Hl; right; exact Hv'|].
      assert (Hv : In v u) by (apply Hl; left; reflexivity). apply In_nth_error in Hv. destruct Hv as [j Hj].
      destruct (Hview j v Hj) as [w [part [Ew [Ep Er]]]]. pose proof (Hf j v w part Hj Ew Ep Er) as Ef.
      eexists. cbn [map rsequence]. rewrite Ef. cbn [rbind]. rewrite E. split; [reflexivity|]. constructor; assumption. }
    destruct (G u (fun v Hv => Hv)) as [vs [EV FV]].
    exists X_D. eexists. split; [exact ED|]. unfold crosscat_X_L. rewrite EM. cbn [negb]. fold u. rewrite EA. cbn [rbind].
    rewrite (bincount_no_zero _ _ u_pos NA). fold f. rewrite EV. cbn [rbind]. split; [reflexivity|]. cbn [xl_assign xl_counts xl_alpha xl_views].
    split; [symmetry; eapply Forall2_length'; exact FA|]. split.
    { exists (length u). split; [exact u_pos|]. split; [exact NA|]. split; [exact LD|]. split; [symmetry; eapply Forall2_length'; exact FV|].
      apply bincount_numbered; [exact u_pos|exact NA]. }
    split; [reflexivity|]. split.
    - intros i c v w Hi Hv Hw. destruct (Forall2_nth _ _ _ _ _ FA Hi) as [j [Ej [v' [Ev' [Rj Nj]]]]].
      assert (v' = v) by congruence. subst v'. destruct (Hview _ _ Nj) as [w' [part [Ew' [Ep Er]]]].
      assert (w' = w) by congruence. subst w'.
      pose proof (Hf _ v w part Nj Hw Ep Er) as Ef. destruct (Forall2_nth _ _ _ _ _ FV Nj) as [x [Ex Efx]].
      assert (x = VState (dkeys (v_dims w)) (np_bincount part) (c_alpha (v_crp w))) by congruence. subst x.
      exists (Z.to_nat j), part. eexists. rewrite Z2Nat.id by lia. split; [exact Ej|]. split; [exact Ep|]. split; [exact Ex|].
      destruct (row_codes_ok w) as [m [Em [Rm Nm]]]. assert (m = part) by congruence. subst m.
      destruct (si_view _ _ H v w Hw) as [V [_ [D _]]].
      split; [exact Rm|]. split.
      { exists (length (uniq (dvals (v_rows w)))). split; [exact (rows_pos v w Hw)|]. split; [exact Nm|].
        apply bincount_numbered; [exact (rows_pos v w Hw)|exact Nm]. }
      split; [exact D|]. split; [apply V|reflexivity].
    - intros i i' c c' Hi Hi'. destruct (Forall2_nth _ _ _ _ _ FA Hi) as [j [Ej [v [Ev [Rj Nj]]]]].
      destruct (Forall2_nth _ _ _ _ _ FA Hi') as [j' [Ej' [v' [Ev' [Rj' Nj']]]]]. rewrite Ej, Ej', Ev, Ev'.
      split; [intros E; injection E as ->; congruence|]. intros E. injection E as ->. f_equal. apply Z2Nat.inj; try lia.
      apply (proj1 (NoDup_nth_error u) (uniq_NoDup _)); [apply nth_error_Some; congruence|congruence].
  Qed.
End Handed.

(* ------------------------------------------------------------------ *)
(** ** The table *)

(** [cats] lists the observed values of column [c], without repetition; they are integers
    below [k]. *)
Definition categories (n : nat) (s : state) (c k : Z) (cats : list R) : Prop :=
  NoDup cats /\
  (forall v, In v cats <-> exists r, (0 <= r < Z.of_nat n)%Z /\ tab (s_X s) c r = Ok (Some v)) /\
  (forall v, In v cats -> exists z, v = IZR z /\ (0 <= z < k)%Z).

(** The entry of column [c], of type [t], for the cell [x], and the entry [m] of the
    metadata that tells how to read it. *)
Definition encodes (t : ctype) (cats : list R) (m : meta) (x y : cell) : Prop :=
  match t with
  | TNormal => y = x
  | TCategorical _ =>
      match x with
      | None => y = None
      | Some v => exists j, nth_error cats j = Some v /\ y = Some (INR j) /\
          exists z, v = IZR z /\ dget (Z.of_nat j) (mt_value m) = Some z
      end
  | TOther => False
  end.

Lemma seq_make {A B} (f : A -> res B) (P : A -> B -> Prop) l :
  (forall x, In x l -> exists y, f x = Ok y /\ P x y) -> exists ys, rsequence (map f l) = Ok ys /\ Forall2 P l ys.
Proof.
  induction l as [|x l IH]; intros H; [exists []; split; [reflexivity|constructor]|].
  destruct IH as [ys [E F]]; [intros x' Hx'; apply H; right; exact Hx'|].
  destruct (H x (or_introl eq_refl)) as [y [Ey Py]]. exists (y :: ys). cbn [map rsequence]. rewrite Ey. cbn [rbind]. rewrite E.
  split; [reflexivity|]. constructor; assumption.
Qed.

Lemma metadata_ok n s c t cats : t <> TOther -> (forall k, t = TCategorical k -> categories n s c k cats) ->
  exists m, metadata cats t = Ok m /\
    (t = TNormal -> mt_normal m = true) /\ (cats <> [] -> mt_normal m = true \/ mt_code m <> []) /\
    (forall r x, (0 <= r < Z.of_nat n)%Z -> tab (s_X s) c r = Ok x -> exists y, to_code m x = Ok y /\ encodes t cats m x y).
Proof.
  intros Ht Hc. destruct t as [|k|]; [| |congruence].
  - exists (Meta true [] []). split; [reflexivity|]. split; [reflexivity|]. split; [left; reflexivity|].
    intros r x _ _. exists x. destruct x as [v|]; split; reflexivity.
  - destruct (Hc k eq_refl) as [Nc [Ic Zc]]. cbn [metadata].
    assert (Ef : forallb (fun c => Rleb 0 c && Rltb c (IZR k)) cats = true).
    { apply forallb_forall. intros v Hv. destruct (Zc v Hv) as [z [-> Hz]]. apply andb_true_intro. split.
      - apply Rleb_true. apply IZR_le. lia.
      - apply Rltb_true. apply IZR_lt. lia. }
    rewrite Ef. set (codes := map DummyCode.trunc cats).
    assert (Nd : NoDup codes).
    { unfold codes. clear - Nc Zc. induction cats as [|v l IH]; [constructor|]. simpl. inversion Nc as [|? ? H1 H2]; subst.
      constructor; [|apply IH; [exact H2|intros v' Hv'; apply Zc; right; exact Hv']].
      intros Hin. apply in_map_iff in Hin. destruct Hin as [v' [E Hv']]. destruct (Zc v (or_introl eq_refl)) as [z [-> _]].
      destruct (Zc v' (or_intror Hv')) as [z' [-> _]]. rewrite !trunc_IZR in E. subst z'. contradiction. }
    eexists. split; [reflexivity|]. split; [discriminate|]. split.
    { intros Hne. right. cbn [mt_code]. fold (coder codes). rewrite coder_eq by exact Nd. intros E0. apply Hne.
      apply (f_equal (@length (Z * Z))) in E0. rewrite combine_length, length_range, Nat2Z.id, Nat.min_id in E0. unfold codes in E0.
      rewrite map_length in E0. destruct cats; [reflexivity|discriminate]. }
    intros r [v|] Hr Ex; [|exists None; split; reflexivity].
    assert (Hv : In v cats) by (apply Ic; eauto). destruct (Zc v Hv) as [z [-> Hz]].
    apply In_nth_error in Hv. destruct Hv as [j Hj].
    assert (Hl : (j < length cats)%nat) by (apply nth_error_Some; congruence).
    assert (Ej : nth_error codes j = Some z) by (unfold codes; rewrite nth_error_map, Hj; cbn [option_map]; rewrite trunc_IZR; reflexivity).
    exists (Some (INR j)). split.
    + cbn [to_code mt_code]. fold (coder codes).
      assert (Eg : dget z (coder codes) = Some (Z.of_nat j)).
      { apply coder_spec; [exact Nd|]. rewrite Nat2Z.id. split; [lia|exact Ej]. }
      destruct (coder codes) as [|p l] eqn:Ec; [discriminate|]. rewrite <- Ec, trunc_IZR, Ec, Eg, INR_IZR_INZ. reflexivity.
    + exists j. split; [exact Hj|]. split; [reflexivity|]. exists z. split; [reflexivity|]. cbn [mt_value].
      assert (L : length (range (Z.of_nat (length codes))) = length codes) by (rewrite length_range; lia).
      assert (Nr : NoDup (dkeys (combine (range (Z.of_nat (length codes))) codes))).
      { rewrite dkeys_combine by exact L. apply NoDup_range. }
      rewrite dict_of_NoDup by exact Nr. apply dget_nth; [exact Nr|]. exists j. rewrite nth_combine, Ej, nth_error_range; [reflexivity|].
      unfold codes. rewrite map_length. lia.
Qed.

Lemma table_ok n s cats types : sinv n s -> length types = length (s_outs s) ->
  (forall i c t, nth_error (s_outs s) i = Some c -> nth_error types i = Some t -> t <> TOther /\
     forall k, t = TCategorical k -> categories n s c k (cats c)) ->
  exists M_c T, crosscat_M_c cats types s = Ok M_c /\ crosscat_T s M_c = Ok T /\
    length M_c = length (s_outs s) /\ length T = n /\
    (forall i c m, nth_error (s_outs s) i = Some c -> nth_error M_c i = Some m -> cats c <> [] \/ nth_error types i = Some TNormal ->
       mt_normal m = true \/ mt_code m <> []) /\
    (forall r row, nth_error T r = Some row -> length row = length (s_outs s)) /\
    (forall r i c t x, nth_error (s_outs s) i = Some c -> nth_error types i = Some t ->
       tab (s_X s) c (Z.of_nat r) = Ok x -> (r < n)%nat ->
       exists row y m, nth_error T r = Some row /\ nth_error row i = Some y /\ nth_error M_c i = Some m /\ encodes t (cats c) m x y).
Proof.
  intros H Lt Ht. unfold crosscat_M_c.
  assert (LX : length (s_X s) = length (s_outs s)).
  { assert (P : Permutation (dkeys (s_X s)) (s_outs s)).
    { apply NoDup_Permutation; [apply (si_XN _ _ H)|apply (si_nodup _ _ H)|apply (si_X _ _ H)]. }
    apply Permutation_length in P. unfold dkeys in P. rewrite map_length in P. exact P. }
  rewrite LX, Lt, Nat.eqb_refl. cbn [andb negb].
  assert (Eo : forallb (fun t => match t with TOther => false | _ => true end) types = true).
  { apply forallb_forall. intros t Hin. apply In_nth_error in Hin. destruct Hin as [i Hi].
    assert (Hl : (i < length types)%nat) by (apply nth_error_Some; congruence).
    destruct (nth_error (s_outs s) i) as [c|] eqn:Ec; [|apply nth_error_None in Ec; lia].
    destruct (Ht i c t Ec Hi) as [Hne _]. destruct t; congruence. }
  rewrite Eo. cbn [negb].
  set (Q := fun (ct : Z * ctype) (m : meta) =>
    (snd ct = TNormal -> mt_normal m = true) /\ (cats (fst ct) <> [] -> mt_normal m = true \/ mt_code m <> []) /\
    (forall r x, (0 <= r < Z.of_nat n)%Z -> tab (s_X s) (fst ct) r = Ok x -> exists y, to_code m x = Ok y /\ encodes (snd ct) (cats (fst ct)) m x y)).
  destruct (seq_make (fun ct => metadata (cats (fst ct)) (snd ct)) Q (combine (s_outs s) types)) as [M_c [EM FM]].
  { intros [c t] Hin. apply In_nth_error in Hin. destruct Hin as [i Hi]. rewrite nth_combine in Hi.
    destruct (nth_error (s_outs s) i) as [c'|] eqn:Ec; [|discriminate]. destruct (nth_error types i) as [t'|] eqn:Et; [|discriminate].
    injection Hi as -> ->. destruct (Ht i c t Ec Et) as [H1 H2]. exact (metadata_ok n s c t (cats c) H1 H2). }
  exists M_c. unfold crosscat_T. rewrite (sinv_n_rows n s H). cbn [rbind].
  assert (LM : length M_c = length (s_outs s)).
  { rewrite <- (Forall2_length' _ _ _ FM), combine_length, Lt. apply Nat.min_id. }
  assert (HM : forall i c m t, nth_error (s_outs s) i = Some c -> nth_error M_c i = Some m -> nth_error types i = Some t -> Q (c, t) m).
  { intros i c m t Hc Hm Hty. destruct (Forall2_nth' _ _ _ _ _ FM Hm) as [ct [Ect Qct]]. rewrite nth_combine, Hc, Hty in Ect. injection Ect as <-. exact Qct. }
  assert (Hty : forall i, (i < length (s_outs s))%nat -> exists t, nth_error types i = Some t).
  { intros i Hi. destruct (nth_error types i) as [t|] eqn:E; [eauto|]. apply nth_error_None in E. lia. }
  set (P := fun (row : Z) (out : list cell) => Forall2 (fun (cm : Z * meta) (y : cell) =>
     rbind (tab (s_X s) (fst cm) row) (to_code (snd cm)) = Ok y) (combine (s_outs s) M_c) out).
  destruct (seq_make (fun row => rsequence (map (fun cm => rbind (tab (s_X s) (fst cm) row) (to_code (snd cm)))
     (combine (s_outs s) M_c))) P (range (Z.of_nat n))) as [T [ET FT]].
  { intros r Hr. unfold range in Hr. apply in_map_iff in Hr. destruct Hr as [r0 [<- Hr]]. apply in_seq in Hr.
    destruct (seq_make (fun cm => rbind (tab (s_X s) (fst cm) (Z.of_nat r0)) (to_code (snd cm)))
      (fun (cm : Z * meta) (y : cell) => rbind (tab (s_X s) (fst cm) (Z.of_nat r0)) (to_code (snd cm)) = Ok y) (combine (s_outs s) M_c)) as [out [E F]].
    - intros [c m] Hin. apply In_nth_error in Hin. destruct Hin as [i Hi]. rewrite nth_combine in Hi.
      destruct (nth_error (s_outs s) i) as [c'|] eqn:Ec; [|discriminate]. destruct (nth_error M_c i) as [m'|] eqn:Em; [|discriminate].
      injection Hi as -> ->. assert (Hl : (i < length (s_outs s))%nat) by (apply nth_error_Some; congruence).
      destruct (Hty i Hl) as [t Et]. destruct (HM i c m t Ec Em Et) as [_ [_ HQ]].
      assert (Hc : In c (dkeys (s_X s))) by (apply (si_X _ _ H); eapply nth_error_In; exact Ec).
      destruct (tab_in (s_X s) c (Z.of_nat r0) Hc) as [l [El Etab]]. pose proof (si_len _ _ H c l El) as Ll.
      destruct (py_nth_lt l (Z.of_nat r0)) as [x Ex]; [lia|]. cbn [fst snd] in *. rewrite Etab, Ex. cbn [rbind].
      destruct (HQ (Z.of_nat r0) x) as [y [Ey _]]; [lia|rewrite Etab; exact Ex|]. exists y. auto.
    - exists out. split; [exact E|exact F]. }
  exists T. split; [exact EM|]. split; [exact ET|]. split; [exact LM|]. split.
  { rewrite <- (Forall2_length' _ _ _ FT), length_range. lia. }
  split.
  { intros i c m Hc Hm Hor. assert (Hl : (i < length (s_outs s))%nat) by (apply nth_error_Some; congruence).
    destruct (Hty i Hl) as [t Et]. destruct (HM i c m t Hc Hm Et) as [Q1 [Q2 _]]. cbn [fst snd] in *.
    destruct Hor as [Hne|E]; [exact (Q2 Hne)|]. left. apply Q1. congruence. }
  split.
  { intros r row Hr. destruct (Forall2_nth' _ _ _ _ _ FT Hr) as [r' [_ F]]. rewrite <- (Forall2_length' _ _ _ F), combine_length, LM. apply Nat.min_id. }
  intros r i c t x Hc Et Ex Hr. destruct (Forall2_nth _ _ _ r (Z.of_nat r) FT) as [row [Erow F]]; [apply nth_error_range; lia|].
  assert (Hl : (i < length (s_outs s))%nat) by (apply nth_error_Some; congruence).
  destruct (nth_error M_c i) as [m|] eqn:Em; [|apply nth_error_None in Em; lia].
  destruct (Forall2_nth _ _ _ i (c, m) F) as [y [Ey Hy]]; [rewrite nth_combine, Hc, Em; reflexivity|].
  cbn [fst snd] in Hy. rewrite Ex in Hy. cbn [rbind] in Hy.
  destruct (HM i c m t Hc Em Et) as [_ [_ HQ]]. destruct (HQ (Z.of_nat r) x) as [y' [Ey' He]]; [lia|exact Ex|].
  assert (y' = y) by congruence. subst y'. cbn [fst snd] in He. exists row, y, m. auto.
Qed.
