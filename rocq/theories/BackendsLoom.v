(** Facts about how a state takes an answer of loom or lovecat. *)
From Verif Require Import P06_Dim PartitionFacts.
From Verif Require Export BackendsCodes.
From Coq Require Import Lia Permutation Sorted.
Local Open Scope R_scope.

(** What loom returns for a state of [n] rows with outputs [outs]: every feature is in one
    kind, no kind is empty, the names are those of the outputs, and every row has a group
    in every kind. *)
Record proper (n : nat) (outs : list Z) (x : sample) : Prop := {
  pr_once : NoDup (concat (sm_kinds x));
  pr_all : forall f, In f (concat (sm_kinds x)) <-> (0 <= f < Z.of_nat (length outs))%Z;
  pr_kind : forall kind, In kind (sm_kinds x) -> kind <> [];
  pr_names : NoDup (sm_names x);
  pr_outs : forall o, In o (sm_names x) <-> In o outs;
  pr_row : NoDup (map fst (sm_rows x));
  pr_rows : forall r, In r (map fst (sm_rows x)) <-> (0 <= r < Z.of_nat n)%Z;
  pr_groups : forall r g, In (r, g) (sm_rows x) -> length g = length (sm_kinds x)
}.

(** Output [c] is in kind [k]. *)
Definition in_kind (x : sample) (c : Z) (k : nat) : Prop :=
  exists f kind, nth_error (sm_names x) f = Some c /\ nth_error (sm_kinds x) k = Some kind /\ In (Z.of_nat f) kind.
(** Row [r] is in group [g] of kind [k]. *)
Definition in_group (x : sample) (r : Z) (k : nat) (g : Z) : Prop :=
  exists gs, In (r, gs) (sm_rows x) /\ nth_error gs k = Some g.

Lemma zsort_range l n : NoDup l -> (forall r, In r l <-> (0 <= r < n)%Z) -> zsort l = range n.
Proof.
  intros Hn Hl. transitivity (zsort (range n)).
  - apply zsort_ext; [exact Hn|apply NoDup_range|]. intros r. rewrite Hl. unfold range. rewrite in_map_iff. split.
    + intros Hr. exists (Z.to_nat r). split; [lia|]. apply in_seq. lia.
    + intros [j [<- Hj]]. apply in_seq in Hj. lia.
  - apply sorted_unique; [apply zsort_sorted| |apply zsort_perm]. unfold range. generalize 0%nat.
    induction (Z.to_nat n) as [|m IH]; intros a; simpl; constructor; [apply IH|]. apply Forall_forall. intros y Hy.
    apply in_map_iff in Hy. destruct Hy as [j [<- Hj]]. apply in_seq in Hj. lia.
Qed.

Lemma in_range n r : In r (range n) <-> (0 <= r < n)%Z.
Proof.
  unfold range. rewrite in_map_iff. split; [intros [j [<- Hj]]; apply in_seq in Hj; lia|].
  intros Hr. exists (Z.to_nat r). split; [lia|]. apply in_seq. lia.
Qed.

Lemma flat_keys (ks : list Z) (kinds : list (list Z)) : length ks = length kinds ->
  map fst (flat_map (fun ki : Z * list Z => map (fun f => (f, fst ki)) (snd ki)) (combine ks kinds)) = concat kinds.
Proof.
  revert ks. induction kinds as [|kind kinds IH]; intros [|k ks] H; try discriminate; [reflexivity|].
  simpl. rewrite map_app, map_map. simpl. rewrite map_id. f_equal. apply IH. simpl in H. lia.
Qed.

Lemma zlist_eqb_true l m : zlist_eqb l m = true <-> l = m.
Proof. unfold zlist_eqb. destruct (list_eq_dec Z.eq_dec l m); split; congruence. Qed.

Lemma same_set_true l m : (forall x, In x l <-> In x m) -> same_set l m = true.
Proof.
  intros H. unfold same_set. apply andb_true_intro. split; apply forallb_forall; intros x Hx; apply zmem_in, H; exact Hx.
Qed.

Section Loom.
  Context (n : nat) (s : state) (x : sample) (H : sinv n s) (Hx : proper n (s_outs s) x).

  Lemma columns_eq : loom_columns x =
    flat_map (fun ki : Z * list Z => map (fun f => (f, fst ki)) (snd ki))
      (combine (range (Z.of_nat (length (sm_kinds x)))) (sm_kinds x)) /\ dkeys (loom_columns x) = concat (sm_kinds x).
  Proof.
    assert (L : length (range (Z.of_nat (length (sm_kinds x)))) = length (sm_kinds x)) by (rewrite length_range; lia).
    unfold loom_columns. rewrite dict_of_NoDup.
    - split; [reflexivity|]. apply flat_keys. exact L.
    - unfold dkeys. rewrite flat_keys by exact L. apply (pr_once _ _ _ Hx).
  Qed.

  Lemma columns_in f k : In (f, k) (loom_columns x) <-> exists j kind, k = Z.of_nat j /\ nth_error (sm_kinds x) j = Some kind /\ In f kind.
  Proof.
    rewrite (proj1 columns_eq), in_flat_map. split.
    - intros [[k' kind] [Hin Hf]]. apply in_map_iff in Hf. destruct Hf as [f' [E Hf]]. simpl in *. injection E as -> ->.
      apply In_nth_error in Hin. destruct Hin as [j Hj]. rewrite nth_combine in Hj.
      destruct (nth_error (range (Z.of_nat (length (sm_kinds x)))) j) as [k''|] eqn:E1; [|discriminate].
      destruct (nth_error (sm_kinds x) j) as [kind'|] eqn:E2; [|discriminate]. injection Hj as -> ->.
      assert (Hl : (j < length (sm_kinds x))%nat) by (apply nth_error_Some; congruence).
      rewrite nth_error_range in E1 by lia. injection E1 as <-. exists j, kind. auto.
    - intros [j [kind [-> [Ej Hf]]]]. exists (Z.of_nat j, kind). split.
      + apply (nth_error_In _ j). assert (Hl : (j < length (sm_kinds x))%nat) by (apply nth_error_Some; congruence).
        rewrite nth_combine, Ej, nth_error_range by lia. reflexivity.
      + apply in_map_iff. exists f. auto.
  Qed.

  Lemma outputs_at f : (0 <= f)%Z -> dget f (loom_outputs x) = nth_error (sm_names x) (Z.to_nat f).
  Proof.
    intros Hf. unfold loom_outputs.
    assert (L : length (range (Z.of_nat (length (sm_names x)))) = length (sm_names x)) by (rewrite length_range; lia).
    assert (Nr : NoDup (dkeys (combine (range (Z.of_nat (length (sm_names x)))) (sm_names x)))) by (rewrite dkeys_combine by exact L; apply NoDup_range).
    rewrite dict_of_NoDup by exact Nr. destruct (nth_error (sm_names x) (Z.to_nat f)) as [o|] eqn:E.
    - apply dget_nth; [exact Nr|]. exists (Z.to_nat f). assert (Hl : (Z.to_nat f < length (sm_names x))%nat) by (apply nth_error_Some; congruence).
      rewrite nth_combine, E, nth_error_range by lia. rewrite Z2Nat.id by exact Hf. reflexivity.
    - apply nth_error_None in E. destruct (dget f (combine (range (Z.of_nat (length (sm_names x)))) (sm_names x))) eqn:Ed; [|reflexivity].
      exfalso. apply dget_Some_in in Ed. rewrite dkeys_combine in Ed by exact L. apply in_range in Ed. lia.
  Qed.

  Lemma outputs_vals : dvals (loom_outputs x) = sm_names x.
  Proof.
    assert (L : length (range (Z.of_nat (length (sm_names x)))) = length (sm_names x)) by (rewrite length_range; lia).
    unfold loom_outputs. rewrite dict_of_NoDup by (rewrite dkeys_combine by exact L; apply NoDup_range). apply dvals_combine. exact L.
  Qed.

  Lemma names_length : length (sm_names x) = length (s_outs s).
  Proof.
    apply Permutation_length, NoDup_Permutation; [apply (pr_names _ _ _ Hx)|apply (si_nodup _ _ H)|apply (pr_outs _ _ _ Hx)].
  Qed.

  (** The kind of each output. *)
  Lemma pairs_ok : exists pairs,
    rsequence (map (fun fk => rbind (lookup (fst fk) (loom_outputs x)) (fun o => Ok (o, snd fk))) (loom_columns x)) = Ok pairs /\
    dict_of pairs = pairs /\ NoDup (dkeys pairs) /\ (forall c, In c (dkeys pairs) <-> In c (s_outs s)) /\
    (forall c k, In (c, k) pairs <-> exists j, k = Z.of_nat j /\ in_kind x c j).
  Proof.
    assert (Kf : forall f k, In (f, k) (loom_columns x) -> (0 <= f < Z.of_nat (length (s_outs s)))%Z).
    { intros f k Hin. apply (pr_all _ _ _ Hx). rewrite <- (proj2 columns_eq). unfold dkeys. change f with (fst (f, k)). apply in_map. exact Hin. }
    destruct (seq_make (fun fk => rbind (lookup (fst fk) (loom_outputs x)) (fun o => Ok (o, snd fk)))
      (fun fk ok => nth_error (sm_names x) (Z.to_nat (fst fk)) = Some (fst ok) /\ snd ok = snd fk) (loom_columns x)) as [pairs [E F]].
    { intros [f k] Hin. pose proof (Kf f k Hin) as Hf. cbn [fst snd]. unfold lookup. rewrite outputs_at by lia.
      destruct (nth_error (sm_names x) (Z.to_nat f)) as [o|] eqn:Eo; [|apply nth_error_None in Eo; rewrite names_length in Eo; lia].
      exists (o, k). auto. }
    exists pairs. split; [exact E|].
    assert (Hin : forall c k, In (c, k) pairs <-> exists j, k = Z.of_nat j /\ in_kind x c j).
    { intros c k. split.
      - intros Hp. apply In_nth_error in Hp. destruct Hp as [p Hp]. destruct (Forall2_nth' _ _ _ _ _ F Hp) as [[f k'] [Ef [En Ek]]].
        cbn [fst snd] in *. subst k'. assert (Hfk : In (f, k) (loom_columns x)) by (eapply nth_error_In; exact Ef).
        pose proof (Kf f k Hfk) as Hf. apply columns_in in Hfk. destruct Hfk as [j [kind [-> [Ej Hk]]]]. exists j. split; [reflexivity|].
        exists (Z.to_nat f), kind. rewrite Z2Nat.id by lia. auto.
      - intros [j [-> [f [kind [En [Ej Hk]]]]]].
        assert (Hfk : In (Z.of_nat f, Z.of_nat j) (loom_columns x)) by (apply columns_in; eauto).
        apply In_nth_error in Hfk. destruct Hfk as [p Hp]. destruct (Forall2_nth _ _ _ _ _ F Hp) as [[c' k'] [Ec [En' Ek']]].
        cbn [fst snd] in *. rewrite Nat2Z.id in En'. assert (c' = c) by congruence. subst c' k'. eapply nth_error_In; exact Ec. }
    assert (Nd : NoDup (dkeys pairs)).
    { pose proof (pr_once _ _ _ Hx) as Ho. rewrite <- (proj2 columns_eq) in Ho.
      revert Ho Kf F. clear - Hx. intros Ho Kf F. induction F as [|[f k] [c k'] l m [E1 E2] F IH]; [constructor|].
      cbn [fst snd] in *. inversion Ho as [|? ? H1 H2]; subst. constructor.
      - intros Hin. apply H1. unfold dkeys in Hin. apply in_map_iff in Hin. destruct Hin as [[c' k2] [Ec Hin]]. simpl in Ec. subst c'.
        apply In_nth_error in Hin. destruct Hin as [p Hp]. destruct (Forall2_nth' _ _ _ _ _ F Hp) as [[f' k3] [Ef [En _]]]. cbn [fst snd] in *.
        assert (Hf' : In (f', k3) l) by (eapply nth_error_In; exact Ef).
        assert (Z.to_nat f' = Z.to_nat f).
        { apply (proj1 (NoDup_nth_error (sm_names x)) (pr_names _ _ _ Hx)); [apply nth_error_Some; congruence|congruence]. }
        pose proof (Kf f k (or_introl eq_refl)). pose proof (Kf f' k3 (or_intror Hf')).
        assert (f' = f) by lia. subst f'. change f with (fst (f, k3)). apply in_map. exact Hf'.
      - apply IH; [exact H2|]. intros f' k2 Hin. apply (Kf f' k2). right. exact Hin. }
    split; [apply dict_of_NoDup; exact Nd|]. split; [exact Nd|]. split; [|exact Hin].
    intros c. split.
    - intros Hc. unfold dkeys in Hc. apply in_map_iff in Hc. destruct Hc as [[c' k] [Ec Hc]]. simpl in Ec. subst c'.
      apply Hin in Hc. destruct Hc as [j [_ [f [kind [En _]]]]]. apply (pr_outs _ _ _ Hx). eapply nth_error_In; exact En.
    - intros Hc. apply (pr_outs _ _ _ Hx) in Hc. apply In_nth_error in Hc. destruct Hc as [f Hf].
      assert (Hl : (f < length (sm_names x))%nat) by (apply nth_error_Some; congruence). rewrite names_length in Hl.
      assert (Hk : In (Z.of_nat f) (concat (sm_kinds x))) by (apply (pr_all _ _ _ Hx); lia).
      apply in_concat in Hk. destruct Hk as [kind [Hk1 Hk2]]. apply In_nth_error in Hk1. destruct Hk1 as [j Hj].
      assert (Hp : In (c, Z.of_nat j) pairs) by (apply Hin; exists j; split; [reflexivity|]; exists f, kind; auto).
      unfold dkeys. change c with (fst (c, Z.of_nat j)). apply in_map. exact Hp.
  Qed.

  Lemma rows_ok : exists parts, loom_rows x = Ok parts /\ length parts = length (sm_kinds x) /\
    (forall p, In p parts -> length p = n) /\
    (forall k part r g, nth_error parts k = Some part -> (nth_error part r = Some g <-> in_group x (Z.of_nat r) k g)).
  Proof.
    unfold loom_rows. set (kinds := range (Z.of_nat (length (sm_kinds x)))).
    assert (E1 : rsequence (map (fun rg => rbind (rsequence (map (py_nth (snd rg)) kinds)) (fun g => Ok (fst rg, g))) (sm_rows x)) = Ok (sm_rows x)).
    { apply seq_each. pose proof (pr_groups _ _ _ Hx) as Hg. induction (sm_rows x) as [|[r g] rows IH]; constructor.
      - cbn [fst snd]. assert (Eg : rsequence (map (py_nth g) kinds) = Ok g).
        { apply seq_each. unfold kinds. rewrite <- (Hg r g (or_introl eq_refl)). clear.
          assert (G : forall (l p : list Z), Forall2 (fun a b => py_nth (p ++ l) a = Ok b) (map Z.of_nat (seq (length p) (length l))) l).
          { induction l as [|y l IH]; intros p; [constructor|]. cbn [length seq map]. constructor.
            - rewrite py_nth_nonneg, Nat2Z.id, nth_error_app2, Nat.sub_diag by lia. reflexivity.
            - specialize (IH (p ++ [y])). rewrite <- app_assoc in IH. rewrite app_length, Nat.add_1_r in IH. exact IH. }
          unfold range. rewrite Nat2Z.id. exact (G g []). }
        rewrite Eg. reflexivity.
      - apply IH. intros r' g' Hin. apply (Hg r' g'). right. exact Hin. }
    rewrite E1. cbn [rbind]. assert (Ed : dict_of (sm_rows x) = sm_rows x) by (apply dict_of_NoDup, (pr_row _ _ _ Hx)). rewrite Ed.
    assert (Ez : zsort (dkeys (sm_rows x)) = range (Z.of_nat n)).
    { apply zsort_range; [apply (pr_row _ _ _ Hx)|apply (pr_rows _ _ _ Hx)]. }
    rewrite Ez.
    assert (Hrow : forall r, (0 <= r < Z.of_nat n)%Z -> exists gs, In (r, gs) (sm_rows x) /\ dget r (sm_rows x) = Some gs).
    { intros r Hr. apply (pr_rows _ _ _ Hx) in Hr. apply in_dkeys_Some in Hr. destruct Hr as [gs Hg]. exists gs. split; [apply dget_In; exact Hg|exact Hg]. }
    set (P := fun (k : Z) (part : list Z) => Forall2 (fun r g => rbind (lookup r (sm_rows x)) (fun gs => py_nth gs k) = Ok g) (range (Z.of_nat n)) part).
    destruct (seq_make (fun k => rsequence (map (fun rowid => rbind (lookup rowid (sm_rows x)) (fun g => py_nth g k)) (range (Z.of_nat n)))) P kinds) as [parts [E F]].
    { intros k Hk. unfold kinds in Hk. apply in_range in Hk.
      destruct (seq_make (fun rowid => rbind (lookup rowid (sm_rows x)) (fun g => py_nth g k))
        (fun r g => rbind (lookup r (sm_rows x)) (fun gs => py_nth gs k) = Ok g) (range (Z.of_nat n))) as [part [Ep Fp]].
      - intros r Hr. apply in_range in Hr. destruct (Hrow r Hr) as [gs [Hin Hd]]. unfold lookup. rewrite Hd. cbn [rbind].
        destruct (py_nth_lt gs k) as [g Eg]; [rewrite (pr_groups _ _ _ Hx r gs Hin); exact Hk|]. exists g. auto.
      - exists part. auto. }
    exists parts. split; [exact E|]. split; [rewrite <- (Forall2_length' _ _ _ F); unfold kinds; rewrite length_range; lia|]. split.
    - intros p Hp. apply In_nth_error in Hp. destruct Hp as [k Hk]. destruct (Forall2_nth' _ _ _ _ _ F Hk) as [k' [_ Fp]].
      rewrite <- (Forall2_length' _ _ _ Fp), length_range. lia.
    - intros k part r g Hk. destruct (Forall2_nth' _ _ _ _ _ F Hk) as [k' [Ek' Fp]].
      assert (Hkl : (k < length kinds)%nat) by (apply nth_error_Some; congruence). unfold kinds in Hkl, Ek'. rewrite length_range in Hkl.
      rewrite nth_error_range in Ek' by lia. injection Ek' as <-. split.
      + intros Hr. destruct (Forall2_nth' _ _ _ _ _ Fp Hr) as [r' [Er' Eg]].
        assert (Hrl : (r < length (range (Z.of_nat n)))%nat) by (apply nth_error_Some; congruence). rewrite length_range in Hrl.
        rewrite nth_error_range in Er' by lia. injection Er' as <-. unfold lookup in Eg.
        destruct (dget (Z.of_nat r) (sm_rows x)) as [gs|] eqn:Egs; [|discriminate]. cbn [rbind] in Eg.
        rewrite py_nth_nonneg, Nat2Z.id in Eg by lia. destruct (nth_error gs k) as [g'|] eqn:Eg'; [|discriminate]. injection Eg as ->.
        exists gs. split; [apply dget_In; exact Egs|exact Eg'].
      + intros [gs [Hin Hg]]. assert (Hr : (0 <= Z.of_nat r < Z.of_nat n)%Z).
        { apply (pr_rows _ _ _ Hx). change (Z.of_nat r) with (fst (Z.of_nat r, gs)). apply in_map. exact Hin. }
        destruct (Forall2_nth _ _ _ r (Z.of_nat r) Fp) as [g' [Eg' Eq]]; [apply nth_error_range; lia|].
        unfold lookup in Eq. rewrite (dget_In_NoDup _ _ _ (pr_row _ _ _ Hx) Hin) in Eq. cbn [rbind] in Eq.
        rewrite py_nth_nonneg, Nat2Z.id, Hg in Eq by lia. congruence.
  Qed.

  Lemma loom_prefix seeds : exists assign parts,
    loom_update seeds s x = take_partitions (fun _ => true) seeds s assign parts /\
    fits n s assign parts /\ onto assign parts /\ length parts = length (sm_kinds x) /\
    (forall c k, In (c, k) assign <-> exists j, k = Z.of_nat j /\ in_kind x c j) /\
    (forall k part r g, nth_error parts k = Some part -> (nth_error part r = Some g <-> in_group x (Z.of_nat r) k g)).
  Proof.
    destruct pairs_ok as [pairs [Ep [Ed [Nd [Kd Hp]]]]]. destruct rows_ok as [parts [Er [Lp [Ln Hr]]]].
    assert (Hk : forall c j, in_kind x c j -> (j < length (sm_kinds x))%nat).
    { intros c j [f [kind [_ [E _]]]]. apply nth_error_Some. congruence. }
    destruct (seq_make (fun c => rbind (lookup c pairs) (fun v => Ok (c, v))) (fun c cv => fst cv = c /\ dget c pairs = Some (snd cv)) (s_outs s)) as [assign [Ea Fa]].
    { intros c Hc. apply Kd in Hc. apply in_dkeys_Some in Hc. destruct Hc as [v Hv]. exists (c, v). unfold lookup. rewrite Hv. auto. }
    assert (Ka : map fst assign = s_outs s).
    { clear - Fa. induction Fa as [|c [c' k] l m [E _] _ IH]; [reflexivity|]. simpl in *. congruence. }
    assert (Ha : forall c k, In (c, k) assign <-> exists j, k = Z.of_nat j /\ in_kind x c j).
    { intros c k. rewrite <- Hp. split.
      - intros Hin. apply In_nth_error in Hin. destruct Hin as [p Hin]. destruct (Forall2_nth' _ _ _ _ _ Fa Hin) as [c' [_ [E1 E2]]].
        cbn [fst snd] in *. subst c'. apply dget_In. exact E2.
      - intros Hin. assert (Hc : In c (s_outs s)) by (apply Kd; unfold dkeys; change c with (fst (c, k)); apply in_map; exact Hin).
        apply In_nth_error in Hc. destruct Hc as [p Hc]. destruct (Forall2_nth _ _ _ _ _ Fa Hc) as [[c' k'] [E0 [E1 E2]]].
        cbn [fst snd] in *. subst c'. apply (dget_In_NoDup _ _ _ Nd) in Hin. assert (k' = k) by congruence. subst k'. eapply nth_error_In; exact E0. }
    exists assign, parts. split; [|split; [|split; [|split; [exact Lp|split; [exact Ha|exact Hr]]]]].
    - unfold loom_update. rewrite (proj2 columns_eq).
      rewrite (proj2 (zlist_eqb_true _ _)); [|apply zsort_range; [apply (pr_once _ _ _ Hx)|apply (pr_all _ _ _ Hx)]]. cbn [negb].
      rewrite outputs_vals. rewrite (proj2 (zlist_eqb_true _ _)); [|apply zsort_ext; [apply (pr_names _ _ _ Hx)|apply (si_nodup _ _ H)|apply (pr_outs _ _ _ Hx)]].
      cbn [negb]. rewrite Ep. cbn [rbind]. rewrite Er. cbn [rbind]. rewrite Ed.
      rewrite same_set_true; [cbn [negb]; rewrite Ea; reflexivity|].
      intros k. rewrite in_range, Lp. rewrite dvals_in by exact Nd. split.
      + intros [c Hc]. apply dget_In, Hp in Hc. destruct Hc as [j [-> Hj]]. apply Hk in Hj. lia.
      + intros Hkr. destruct (nth_error (sm_kinds x) (Z.to_nat k)) as [kind|] eqn:Ek; [|apply nth_error_None in Ek; lia].
        assert (Hne : kind <> []) by (apply (pr_kind _ _ _ Hx); eapply nth_error_In; exact Ek). destruct kind as [|f kind]; [congruence|].
        assert (Hf : (0 <= f < Z.of_nat (length (s_outs s)))%Z).
        { apply (pr_all _ _ _ Hx), in_concat. exists (f :: kind). split; [eapply nth_error_In; exact Ek|left; reflexivity]. }
        destruct (nth_error (sm_names x) (Z.to_nat f)) as [c|] eqn:Ec; [|apply nth_error_None in Ec; rewrite names_length in Ec; lia].
        exists c. apply (dget_In_NoDup _ _ _ Nd), Hp. exists (Z.to_nat k). split; [lia|]. exists (Z.to_nat f), (f :: kind).
        rewrite Z2Nat.id by lia. split; [exact Ec|]. split; [exact Ek|left; reflexivity].
    - split; [rewrite Ka; apply (si_nodup _ _ H)|]. split; [intros c; rewrite Ka; tauto|]. split; [|exact Ln].
      intros c k Hin. apply Ha in Hin. destruct Hin as [j [-> Hj]]. apply Hk in Hj. lia.
    - intros i Hi. rewrite Lp in Hi. destruct (nth_error (sm_kinds x) i) as [kind|] eqn:Ek; [|apply nth_error_None in Ek; lia].
      assert (Hne : kind <> []) by (apply (pr_kind _ _ _ Hx); eapply nth_error_In; exact Ek). destruct kind as [|f kind]; [congruence|].
      assert (Hf : (0 <= f < Z.of_nat (length (s_outs s)))%Z).
      { apply (pr_all _ _ _ Hx), in_concat. exists (f :: kind). split; [eapply nth_error_In; exact Ek|left; reflexivity]. }
      destruct (nth_error (sm_names x) (Z.to_nat f)) as [c|] eqn:Ec; [|apply nth_error_None in Ec; rewrite names_length in Ec; lia].
      exists c. apply Ha. exists i. split; [reflexivity|]. exists (Z.to_nat f), (f :: kind). rewrite Z2Nat.id by lia. split; [exact Ec|]. split; [exact Ek|left; reflexivity].
  Qed.
End Loom.
