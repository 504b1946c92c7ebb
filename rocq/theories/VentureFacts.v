(** Facts about the bookkeeping of Venturescript cgpms, for C63. *)
From Verif Require Export Venture BaseFacts.

Lemma dset_dset {A} k (v w : A) d : dset k v (dset k w d) = dset k v d.
Proof. induction d as [|[k' v'] d IH]; cbn; [rewrite Z.eqb_refl; reflexivity|]. destruct (Z.eqb k k') eqn:E; cbn; rewrite ?Z.eqb_refl, ?E, ?IH; reflexivity. Qed.
Lemma dset_same {A} k (v : A) d : dget k d = Some v -> dset k v d = d.
Proof.
  induction d as [|[k' v'] d IH]; cbn; [discriminate|]. destruct (Z.eqb_spec k k') as [->|N]; [intros [= ->]; reflexivity|].
  intros H. rewrite IH by exact H. reflexivity.
Qed.
Lemma zsubset_spec a b : zsubset a b = true <-> incl a b.
Proof. unfold zsubset, incl. rewrite forallb_forall. split; intros H x Hx; [apply zmem_in, H, Hx|apply zmem_in, H, Hx]. Qed.
Lemma same_set_spec a b : same_set a b = true <-> incl a b /\ incl b a.
Proof. unfold same_set. rewrite andb_true_iff, !zsubset_spec. reflexivity. Qed.
Lemma zunique_spec l : zunique l = true <-> NoDup l.
Proof.
  induction l as [|a l IH]; cbn; [split; [constructor|reflexivity]|]. rewrite andb_true_iff, negb_true_iff, zmem_false, IH.
  split; [intros [H1 H2]; constructor; assumption|intros H; inversion H; auto].
Qed.
Lemma out_index_in q l : In q l <-> exists i, out_index q l = Some i.
Proof.
  induction l as [|a l IH]; cbn; [split; [tauto|intros [i H]; discriminate]|]. destruct (Z.eqb_spec q a) as [->|N].
  - split; [intros _; exists 0%nat; reflexivity|auto].
  - rewrite IH. split.
    + intros [E|[i H]]; [congruence|]. exists (S i). rewrite H. reflexivity.
    + intros [i H]. right. destruct (out_index q l) as [j|]; [exists j; reflexivity|discriminate].
Qed.
Lemma out_index_inj q q' l i : out_index q l = Some i -> out_index q' l = Some i -> q = q'.
Proof.
  revert i. induction l as [|a l IH]; cbn; [discriminate|]. intros i. destruct (Z.eqb_spec q a) as [->|N], (Z.eqb_spec q' a) as [->|N']; auto.
  - intros [= <-]. destruct (out_index q' l); discriminate.
  - intros H [= <-]. destruct (out_index q l); discriminate.
  - destruct (out_index q l) as [j|]; [|discriminate]. destruct (out_index q' l) as [j'|]; [|discriminate]. cbn. intros [= <-] [= E]. apply (IH j); congruence.
Qed.
Lemma existsb_false {A} (f : A -> bool) l : existsb f l = false <-> forall x, In x l -> f x = false.
Proof.
  induction l as [|a l IH]; cbn; [split; [intros _ x []|reflexivity]|]. rewrite orb_false_iff, IH. split.
  - intros [H1 H2] x [<-|Hx]; auto.
  - intros H. split; [apply H; auto|intros x Hx; apply H; auto].
Qed.
Lemma filter_all {A} (f : A -> bool) l : (forall x, In x l -> f x = true) -> filter f l = l.
Proof. induction l as [|a l IH]; intros H; [reflexivity|]. cbn. rewrite (H a) by (left; reflexivity). f_equal. apply IH. intros x Hx. apply H. right; exact Hx. Qed.
Lemma filter_none {A} (f : A -> bool) l : (forall x, In x l -> f x = false) -> filter f l = [].
Proof. induction l as [|a l IH]; intros H; [reflexivity|]. cbn. rewrite (H a) by (left; reflexivity). apply IH. intros x Hx. apply H. right; exact Hx. Qed.
Lemma filter_filter {A} (f g : A -> bool) l : filter f (filter g l) = filter (fun x => g x && f x) l.
Proof. induction l as [|a l IH]; [reflexivity|]. cbn. destruct (g a); cbn; [destruct (f a); cbn; rewrite IH; reflexivity|exact IH]. Qed.
Lemma NoDup_fst_inj {A} (l : list (Z * A)) k a b : NoDup (map fst l) -> In (k, a) l -> In (k, b) l -> a = b.
Proof. intros H Ha Hb. pose proof (dget_In_NoDup k a l H Ha). pose proof (dget_In_NoDup k b l H Hb). congruence. Qed.
Lemma NoDup_app3 {A} (l l' : list A) : NoDup (l ++ l') <-> NoDup l /\ NoDup l' /\ forall x, In x l -> ~ In x l'.
Proof.
  induction l as [|a l IH]; cbn; [split; [intros H; repeat split; auto; constructor|intros [_ [H _]]; exact H]|].
  split.
  - intros H. inversion H as [|? ? Hn Hd]; subst. apply IH in Hd. destruct Hd as [H1 [H2 H3]]. rewrite in_app_iff in Hn.
    split; [constructor; tauto|]. split; [exact H2|]. intros x [<-|Hx]; [tauto|apply H3, Hx].
  - intros [H1 [H2 H3]]. inversion H1; subst. constructor; [rewrite in_app_iff; intros [K|K]; [tauto|exact (H3 a (or_introl eq_refl) K)]|].
    apply IH. split; [assumption|]. split; [exact H2|]. intros x Hx. apply H3. right; exact Hx.
Qed.

Section Facts.
Context {V : Type} (isnan : V -> bool) (veq : V -> V -> bool) (accepts : cell V -> bool)
  (draw : ripl V -> Z -> nat -> list V -> Z -> V).
Notation observe_cell := (observe_cell accepts).
Notation observe_cells := (observe_cells accepts).
Notation predict_cells := (predict_cells draw).

Lemma inputs_list_ok names (d : dict V) : incl names (dkeys d) -> exists xs, inputs_list names d = Ok xs.
Proof.
  induction names as [|i names IH]; intros H; [exists []; reflexivity|]. cbn.
  destruct (in_dkeys_Some i d (H i (or_introl eq_refl))) as [v ->]. destruct IH as [xs ->]; [intros k Hk; apply H; right; exact Hk|].
  exists (v :: xs). reflexivity.
Qed.
Lemma inputs_list_get names (d : dict V) xs : inputs_list names d = Ok xs <-> Forall2 (fun i v => dget i d = Some v) names xs.
Proof.
  revert xs. induction names as [|i names IH]; intros xs; cbn.
  - split; [intros [= <-]; constructor|intros H; inversion H; reflexivity].
  - destruct (dget i d) as [v|] eqn:E.
    + split.
      * intros H. destruct (inputs_list names d) as [l|e]; [|discriminate]. injection H as <-. constructor; [exact E|]. apply IH. reflexivity.
      * intros H. inversion H as [|? y ? ys E1 E2]; subst. apply IH in E2. rewrite E2. cbn. congruence.
    + split; [discriminate|]. intros H. inversion H as [|? y ? ys E1 E2]; subst. congruence.
Qed.

Definition place (outs : list Z) (q : Z) : nat := match out_index q outs with Some i => i | None => 0%nat end.
(** The observations of a row, one for each item, under the labels from number [k] on. *)
Fixpoint adds (outs : list Z) (r : Z) (xs : list V) (lab : nat -> Z) (k : nat) (items : dict V) : list (Z * cell V) :=
  match items with
  | [] => []
  | (q, v) :: items' => (lab k, Cell r (place outs q) xs v) :: adds outs r xs lab (S k) items'
  end.
Fixpoint tags (lab : nat -> Z) (k : nat) (items : dict V) : dict Z :=
  match items with [] => [] | (q, _) :: items' => (q, lab k) :: tags lab (S k) items' end.
Lemma adds_labels outs r xs lab items : forall k, map fst (adds outs r xs lab k items) = map lab (seq k (length items)).
Proof. induction items as [|[q v] items IH]; intros k; [reflexivity|]. cbn. rewrite IH. reflexivity. Qed.
Lemma tags_keys lab items : forall k, dkeys (tags lab k items) = dkeys items.
Proof. induction items as [|[q v] items IH]; intros k; [reflexivity|]. cbn. unfold dkeys in *. rewrite IH. reflexivity. Qed.
Lemma tags_vals lab items : forall k, dvals (tags lab k items) = map lab (seq k (length items)).
Proof. induction items as [|[q v] items IH]; intros k; [reflexivity|]. cbn. unfold dvals in *. rewrite IH. reflexivity. Qed.

Definition unused (lab : nat -> Z) (p : ripl V) : Prop :=
  (forall i j, lab i = lab j -> i = j) /\ forall i, ~ In (lab i) (p_labels p).

Definition more_obs (p : ripl V) (l : list (Z * cell V)) : ripl V :=
  Ripl (p_obs p ++ l) (p_pred p) (p_log p) (p_simulators p) (p_inputs p) (p_observers p).

Lemma observe_cells_ok r ins xs lab : (forall x, accepts x = true) -> (forall i j, lab i = lab j -> i = j) -> forall items c k,
  inputs_list (vs_in c) ins = Ok xs -> NoDup (dkeys items) ->
  (forall q, In q (dkeys items) -> In q (vs_out c) /\ ~ In q (dkeys (r_labels (row_of c r)))) ->
  (forall j, (k <= j)%nat -> ~ In (lab j) (p_labels (vs_ripl c))) ->
  observe_cells c r items ins lab k =
    (Vs (vs_out c) (vs_in c)
       (match items with [] => vs_obs c | _ => dset r (VRow (r_inputs (row_of c r)) (r_labels (row_of c r) ++ tags lab k items)) (vs_obs c) end)
       (more_obs (vs_ripl c) (adds (vs_out c) r xs lab k items)), Ok tt).
Proof.
  intros Hacc Hinj. induction items as [|[q v] items IH]; intros c k Hx Hnd Hq Hl.
  - cbn. unfold more_obs. rewrite app_nil_r. destruct c as [? ? ? []]; reflexivity.
  - cbn [Venture.observe_cells]. unfold Venture.observe_cell. rewrite Hx. destruct (Hq q (or_introl eq_refl)) as [Ho Hn].
    destruct (proj1 (out_index_in q (vs_out c)) Ho) as [i Ei]. rewrite Ei. unfold rip_observe.
    rewrite (proj2 (zmem_false _ _) (Hl k (Nat.le_refl k))), Hacc. cbn [orb negb].
    set (w := row_of c r) in *. rewrite (dset_fresh q (lab k) (r_labels w) Hn).
    inversion Hnd as [|? ? Hn2 Hnd2]; subst. fold (dkeys items) in *.
    set (c1 := set_ripl _ _).
    assert (Ew : row_of c1 r = VRow (r_inputs w) (r_labels w ++ [(q, lab k)])).
    { unfold row_of, c1, set_ripl, set_row. cbn [vs_obs]. rewrite dget_dset_same. reflexivity. }
    rewrite (IH c1 (S k)).
    + rewrite Ew. cbn [r_inputs r_labels tags adds]. cbn [c1 set_ripl set_row vs_out vs_in vs_obs vs_ripl].
      f_equal. f_equal.
      * destruct items as [|i0 items]; [reflexivity|]. rewrite dset_dset, <- app_assoc. reflexivity.
      * unfold more_obs. cbn [p_obs p_pred p_log p_simulators p_inputs p_observers]. rewrite <- app_assoc. unfold place. rewrite Ei. reflexivity.
    + exact Hx.
    + exact Hnd2.
    + intros q' Hq'. split; [apply (Hq q'); right; exact Hq'|]. rewrite Ew. cbn [r_labels]. unfold dkeys. rewrite map_app, in_app_iff. cbn.
      intros [K|[<-|[]]]; [apply (Hq q'); [right; exact Hq'|exact K]|]. exact (Hn2 Hq').
    + intros j Hj. cbn [c1 set_ripl vs_ripl]. unfold p_labels. cbn [p_obs p_pred]. rewrite map_app, !in_app_iff. cbn.
      assert (Hle : (k <= j)%nat) by lia.
      intros [[K|[K|[]]]|K].
      * apply (Hl j Hle). unfold p_labels. apply in_or_app; left; exact K.
      * apply Hinj in K. lia.
      * apply (Hl j Hle). unfold p_labels. apply in_or_app; right; exact K.
Qed.

(** Forgetting the labels of some outputs of a row. *)
Definition minus_obs (p : ripl V) (ls : list Z) : ripl V :=
  Ripl (filter (fun lx => negb (zmem (fst lx) ls)) (p_obs p)) (p_pred p) (p_log p) (p_simulators p) (p_inputs p) (p_observers p).
Lemma ddel_filter (q : Z) (L : dict Z) : NoDup (dkeys L) -> ddel q L = filter (fun ql => negb (fst ql =? q)%Z) L.
Proof.
  induction L as [|[q' l] L IH]; intros H; [reflexivity|]. cbn. inversion H as [|? ? Hn Hd]; subst. fold (dkeys L) in *.
  destruct (Z.eqb_spec q q') as [->|N].
  - rewrite Z.eqb_refl. cbn. symmetry. apply filter_all. intros [a b] Hab. cbn. apply negb_true_iff, Z.eqb_neq. intros ->. apply Hn. change q' with (fst (q', b)). apply in_map, Hab.
  - rewrite (proj2 (Z.eqb_neq q' q)) by auto. cbn. rewrite IH by exact Hd. reflexivity.
Qed.
Lemma dvals_get {A} (L : dict A) l : NoDup (dkeys L) -> In l (dvals L) -> exists q, dget q L = Some l.
Proof. intros H Hl. unfold dvals in Hl. apply in_map_iff in Hl. destruct Hl as [[q l'] [<- Hq]]. exists q. apply dget_In_NoDup; assumption. Qed.

Lemma forget_cells_ok r : forall qs c w, dget r (vs_obs c) = Some w -> NoDup (dkeys (r_labels w)) -> NoDup (dvals (r_labels w)) ->
  (forall l, In l (dvals (r_labels w)) -> In l (map fst (p_obs (vs_ripl c))) /\ ~ In l (p_pred (vs_ripl c))) ->
  forget_cells c r qs =
    (Vs (vs_out c) (vs_in c) (dset r (VRow (r_inputs w) (filter (fun ql => negb (zmem (fst ql) qs)) (r_labels w))) (vs_obs c))
       (minus_obs (vs_ripl c) (dvals (filter (fun ql => zmem (fst ql) qs) (r_labels w)))), Ok tt).
Proof.
  induction qs as [|q qs IH]; intros c w Hw Hk Hv Hl.
  - cbn. rewrite (filter_all (fun ql : Z * Z => negb (zmem (fst ql) []))) by reflexivity.
    rewrite (filter_none (fun _ : Z * Z => false)) by reflexivity. unfold minus_obs. cbn. rewrite filter_all by reflexivity.
    replace (VRow (r_inputs w) (r_labels w)) with w by (destruct w; reflexivity). rewrite (dset_same r w _ Hw).
    destruct c as [? ? ? []]; reflexivity.
  - cbn [forget_cells]. unfold forget_cell. assert (Er : row_of c r = w) by (unfold row_of; rewrite Hw; reflexivity). rewrite Er.
    destruct (dget q (r_labels w)) as [l|] eqn:Eq.
    + assert (Hin : In l (dvals (r_labels w))) by (apply dget_In in Eq; change l with (snd (q, l)); apply in_map, Eq).
      destruct (Hl l Hin) as [Hl1 Hl2]. unfold rip_forget.
      rewrite (proj2 (zmem_in l (p_labels (vs_ripl c)))) by (unfold p_labels; apply in_or_app; left; exact Hl1).
      rewrite (filter_all (fun a => negb (a =? l)%Z) (p_pred (vs_ripl c))) by (intros a Ha; apply negb_true_iff, Z.eqb_neq; intros ->; exact (Hl2 Ha)).
      set (c1 := set_ripl _ _).
      assert (Hw1 : dget r (vs_obs c1) = Some (VRow (r_inputs w) (ddel q (r_labels w)))) by (cbn; apply dget_dset_same).
      assert (Hdv : dvals (ddel q (r_labels w)) = filter (fun a => negb (a =? l)%Z) (dvals (r_labels w))).
      { clear - Hk Hv Eq. revert Hk Hv Eq. generalize (r_labels w). induction l0 as [|[q' l'] L IH]; intros Hk Hv Eq; [discriminate|].
        cbn in *. inversion Hk; inversion Hv; subst. fold (dkeys L) (dvals L) in *. destruct (Z.eqb_spec q q') as [->|N].
        - injection Eq as <-. rewrite Z.eqb_refl. cbn. symmetry. apply filter_all. intros a Ha. apply negb_true_iff, Z.eqb_neq. intros ->. tauto.
        - assert (Nl : l' <> l). { intros ->. apply dget_In in Eq. match goal with H : ~ In l (map snd L) |- _ => apply H | H : ~ In l (dvals L) |- _ => apply H end. change l with (snd (q, l)). apply in_map, Eq. }
          rewrite (proj2 (Z.eqb_neq l' l) Nl). cbn. f_equal. apply IH; assumption. }
      rewrite (IH c1 _ Hw1); cbn [r_labels r_inputs].
      * cbn [c1 set_ripl set_row vs_out vs_in vs_obs vs_ripl]. rewrite dset_dset. f_equal. f_equal.
        -- f_equal. f_equal. rewrite (ddel_filter q _ Hk), filter_filter. apply filter_ext. intros [q' l']. cbn [fst zmem existsb].
           unfold zmem. rewrite negb_orb. reflexivity.
        -- unfold minus_obs. cbn [p_obs p_pred p_log p_simulators p_inputs p_observers]. f_equal. rewrite filter_filter.
           apply filter_ext_in. intros [a x] _. cbn [fst]. rewrite <- negb_orb. f_equal.
           apply eq_true_iff_eq. rewrite orb_true_iff, Z.eqb_eq, !zmem_in. unfold dvals. rewrite !in_map_iff. split.
           ++ intros [->|[[q' l'] [E Hf]]].
              ** exists (q, l). split; [reflexivity|]. apply filter_In. split; [apply dget_In, Eq|]. cbn. rewrite Z.eqb_refl. reflexivity.
              ** cbn in E. subst l'. apply filter_In in Hf. destruct Hf as [Hf1 Hf2]. exists (q', a). split; [reflexivity|].
                 apply filter_In. rewrite (ddel_filter q _ Hk) in Hf1. apply filter_In in Hf1. split; [tauto|]. cbn [fst zmem existsb] in *. unfold zmem in Hf2. rewrite Hf2. apply orb_true_r.
           ++ intros [[q' l'] [E Hf]]. cbn in E. subst l'. apply filter_In in Hf. destruct Hf as [Hf1 Hf2]. cbn [fst zmem existsb] in Hf2. unfold zmem in *. cbn in Hf2.
              destruct (Z.eqb_spec q' q) as [->|N].
              ** left. apply dget_In_NoDup in Hf1; [congruence|exact Hk].
              ** right. exists (q', a). split; [reflexivity|]. apply filter_In. split; [|exact Hf2]. rewrite (ddel_filter q _ Hk). apply filter_In. split; [exact Hf1|]. cbn. apply negb_true_iff, Z.eqb_neq, N.
      * apply NoDup_ddel, Hk.
      * rewrite Hdv. apply NoDup_filter, Hv.
      * intros a Ha. rewrite Hdv in Ha. apply filter_In in Ha. destruct Ha as [Ha1 Ha2]. apply negb_true_iff, Z.eqb_neq in Ha2.
        destruct (Hl a Ha1) as [K1 K2]. cbn [c1 set_ripl vs_ripl p_obs p_pred]. split; [|exact K2].
        apply in_map_iff in K1. destruct K1 as [[b x] [E Hx]]. cbn in E. subst b. change a with (fst (a, x)). apply in_map. apply filter_In. split; [exact Hx|].
        cbn. apply negb_true_iff, Z.eqb_neq, Ha2.
    + set (c1 := set_row c r w). assert (Hw1 : dget r (vs_obs c1) = Some w) by (cbn; apply dget_dset_same).
      rewrite (IH c1 w Hw1 Hk Hv Hl). cbn [c1 set_row vs_out vs_in vs_obs vs_ripl]. rewrite dset_dset.
      assert (Hno : forall ql : Z * Z, In ql (r_labels w) -> (fst ql =? q)%Z = false).
      { intros [q' l'] Hq. cbn. apply Z.eqb_neq. intros ->. apply dget_None_notin in Eq. apply Eq. change q with (fst (q, l')). apply in_map, Hq. }
      assert (E1 : filter (fun ql => negb (zmem (fst ql) (q :: qs))) (r_labels w) = filter (fun ql => negb (zmem (fst ql) qs)) (r_labels w)).
      { apply filter_ext_in. intros ql Hq. unfold zmem. cbn. rewrite (Hno ql Hq). reflexivity. }
      assert (E2 : filter (fun ql => zmem (fst ql) (q :: qs)) (r_labels w) = filter (fun ql => zmem (fst ql) qs) (r_labels w)).
      { apply filter_ext_in. intros ql Hq. unfold zmem. cbn. rewrite (Hno ql Hq). reflexivity. }
      rewrite E1, E2. reflexivity.
Qed.

(** Predictions. *)
Definition with_pred (p : ripl V) (l : list Z) : ripl V :=
  Ripl (p_obs p) (p_pred p ++ l) (p_log p) (p_simulators p) (p_inputs p) (p_observers p).
Fixpoint predicted (outs : list Z) (p : ripl V) (r : Z) (xs : list V) (lab : nat -> Z) (k : nat) (targets : list Z) : dict V :=
  match targets with
  | [] => []
  | q :: targets' => (q, draw p r (place outs q) xs (lab k)) :: predicted outs (with_pred p [lab k]) r xs lab (S k) targets'
  end.
Lemma predicted_keys outs r xs lab targets : forall p k, dkeys (predicted outs p r xs lab k targets) = targets.
Proof. induction targets as [|q targets IH]; intros p k; [reflexivity|]. cbn. unfold dkeys in *. rewrite IH. reflexivity. Qed.
Lemma predict_cells_ok r ins xs lab : (forall i j, lab i = lab j -> i = j) -> forall targets c k sample,
  inputs_list (vs_in c) ins = Ok xs -> (forall q, In q targets -> In q (vs_out c)) -> NoDup (dkeys sample ++ targets) ->
  (forall j, (k <= j)%nat -> ~ In (lab j) (p_labels (vs_ripl c))) ->
  predict_cells c r targets ins lab k sample =
    (set_ripl c (with_pred (vs_ripl c) (map lab (seq k (length targets)))), Ok (sample ++ predicted (vs_out c) (vs_ripl c) r xs lab k targets)).
Proof.
  intros Hinj. induction targets as [|q targets IH]; intros c k sample Hx Ho Hnd Hl.
  - cbn. unfold with_pred. rewrite !app_nil_r. destruct c as [? ? ? []]; reflexivity.
  - cbn [Venture.predict_cells]. rewrite Hx. destruct (proj1 (out_index_in q (vs_out c)) (Ho q (or_introl eq_refl))) as [i Ei]. rewrite Ei.
    unfold rip_predict. rewrite (proj2 (zmem_false _ _) (Hl k (Nat.le_refl k))).
    assert (Hq : ~ In q (dkeys sample)).
    { intros K. apply NoDup_app3 in Hnd. destruct Hnd as [_ [_ H3]]. apply (H3 q K). left; reflexivity. }
    rewrite IH; cbn [set_ripl vs_ripl vs_in vs_out].
    + rewrite (dset_fresh q _ sample Hq), <- app_assoc. unfold set_ripl, with_pred. cbn [vs_out vs_in vs_obs p_obs p_pred p_log p_simulators p_inputs p_observers predicted app].
      rewrite <- app_assoc. cbn [app seq length map]. unfold place. rewrite Ei. reflexivity.
    + exact Hx.
    + intros q' Hq'. apply Ho. right; exact Hq'.
    + rewrite (dkeys_dset_notin q _ sample Hq), <- app_assoc. exact Hnd.
    + intros j Hj. unfold p_labels. cbn [p_obs p_pred]. rewrite !in_app_iff. cbn. assert (Hle : (k <= j)%nat) by lia. intros [K|[K|[K|[]]]].
      * apply (Hl j Hle). unfold p_labels. apply in_or_app; left; exact K.
      * apply (Hl j Hle). unfold p_labels. apply in_or_app; right; exact K.
      * apply Hinj in K. lia.
Qed.
Lemma forget_labels_ok : forall ls (c : vs V) P, p_pred (vs_ripl c) = P ++ ls -> NoDup ls -> (forall l, In l ls -> ~ In l P /\ ~ In l (map fst (p_obs (vs_ripl c)))) ->
  forget_labels c ls = (set_ripl c (Ripl (p_obs (vs_ripl c)) P (p_log (vs_ripl c)) (p_simulators (vs_ripl c)) (p_inputs (vs_ripl c)) (p_observers (vs_ripl c))), Ok tt).
Proof.
  induction ls as [|l ls IH]; intros c P HP Hnd Hl.
  - cbn. rewrite app_nil_r in HP. subst P. destruct c as [? ? ? []]; reflexivity.
  - cbn [forget_labels]. unfold rip_forget. destruct (Hl l (or_introl eq_refl)) as [H1 H2]. inversion Hnd as [|? ? Hn Hd]; subst.
    rewrite (proj2 (zmem_in l (p_labels (vs_ripl c)))) by (unfold p_labels; apply in_or_app; right; rewrite HP; apply in_or_app; right; left; reflexivity).
    rewrite (filter_all _ (p_obs (vs_ripl c))) by (intros [a x] Hx; cbn; apply negb_true_iff, Z.eqb_neq; intros ->; apply H2; change l with (fst (l, x)); apply in_map, Hx).
    assert (E : filter (fun a => negb (a =? l)%Z) (p_pred (vs_ripl c)) = P ++ ls).
    { rewrite HP, filter_app. cbn. rewrite Z.eqb_refl. cbn. rewrite !filter_all; [reflexivity| |]; intros a Ha; apply negb_true_iff, Z.eqb_neq; intros ->; tauto. }
    rewrite E. rewrite (IH _ P); cbn [set_ripl vs_ripl p_obs p_pred p_log p_simulators p_inputs p_observers vs_out vs_in vs_obs]; [reflexivity|reflexivity|exact Hd|].
    intros a Ha. apply Hl. right; exact Ha.
Qed.

End Facts.
