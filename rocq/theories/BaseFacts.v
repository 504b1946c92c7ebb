(** Facts about dictionaries, [sorted] and [max]. *)
From Verif Require Export Base.
Local Open Scope Z_scope.

Section DictFacts.
  Context {A : Type}.
  Implicit Types d : dict A.

  Lemma dget_In k v d : dget k d = Some v -> In (k, v) d.
  Proof.
    induction d as [|[k' v'] d IH]; simpl; [discriminate|].
    destruct (Z.eqb_spec k k') as [->|Hn]; intros H.
    - injection H as ->; auto.
    - right; auto.
  Qed.

  Lemma dget_In_NoDup k v d : NoDup (dkeys d) -> In (k, v) d -> dget k d = Some v.
  Proof.
    induction d as [|[k' v'] d IH]; simpl; [tauto|].
    intros Hnd Hin. inversion Hnd as [|? ? Hnotin Hnd']; subst.
    destruct Hin as [Heq|Hin].
    - injection Heq as -> ->. rewrite Z.eqb_refl; reflexivity.
    - destruct (Z.eqb_spec k k') as [->|Hn].
      + exfalso; apply Hnotin. unfold dkeys.
        change k' with (fst (k', v)). apply in_map; exact Hin.
      + auto.
  Qed.

  Lemma dget_None_notin k d : dget k d = None <-> ~ In k (dkeys d).
  Proof.
    induction d as [|[k' v'] d IH]; simpl; [tauto|].
    destruct (Z.eqb_spec k k') as [->|Hn].
    - split; [discriminate|tauto].
    - rewrite IH. split; [intros H [E|E]; [congruence|tauto]|tauto].
  Qed.

  Lemma dget_Some_in k v d : dget k d = Some v -> In k (dkeys d).
  Proof. intros H. apply dget_In in H. unfold dkeys.
         change k with (fst (k, v)). apply in_map; exact H. Qed.

  Lemma in_dkeys_Some k d : In k (dkeys d) -> exists v, dget k d = Some v.
  Proof.
    intros H. destruct (dget k d) as [v|] eqn:E; [eauto|].
    apply dget_None_notin in E; tauto.
  Qed.

  Lemma dmem_in k d : dmem k d = true <-> In k (dkeys d).
  Proof.
    unfold dmem. destruct (dget k d) as [v|] eqn:E.
    - split; [intros _; eapply dget_Some_in; eauto|reflexivity].
    - apply dget_None_notin in E. split; [discriminate|tauto].
  Qed.

  Lemma dmem_false k d : dmem k d = false <-> ~ In k (dkeys d).
  Proof. rewrite <- dmem_in. destruct (dmem k d); split; congruence. Qed.

  Lemma dmem_false_None k d : dmem k d = false <-> dget k d = None.
  Proof. unfold dmem. destruct (dget k d); split; congruence. Qed.

  Lemma dget_dset_same k v d : dget k (dset k v d) = Some v.
  Proof.
    induction d as [|[k' v'] d IH]; simpl.
    - rewrite Z.eqb_refl; reflexivity.
    - destruct (Z.eqb_spec k k') as [->|Hn]; simpl.
      + rewrite Z.eqb_refl; reflexivity.
      + destruct (Z.eqb_spec k k'); [congruence|exact IH].
  Qed.

  Lemma dget_dset_other k k2 v d : k <> k2 -> dget k (dset k2 v d) = dget k d.
  Proof.
    intros Hne. induction d as [|[k' v'] d IH]; simpl.
    - destruct (Z.eqb_spec k k2); congruence.
    - destruct (Z.eqb_spec k2 k') as [->|Hn]; simpl.
      + destruct (Z.eqb_spec k k'); congruence.
      + destruct (Z.eqb_spec k k'); [reflexivity|exact IH].
  Qed.

  Lemma dget_dset k k2 v d :
    dget k (dset k2 v d) = if Z.eqb k k2 then Some v else dget k d.
  Proof.
    destruct (Z.eqb_spec k k2) as [->|Hn].
    - apply dget_dset_same.
    - apply dget_dset_other; exact Hn.
  Qed.

  Lemma dkeys_dset_in k v d : In k (dkeys d) -> dkeys (dset k v d) = dkeys d.
  Proof.
    induction d as [|[k' v'] d IH]; simpl; [tauto|].
    destruct (Z.eqb_spec k k') as [->|Hn]; simpl; [reflexivity|].
    intros [E|H]; [congruence|]. unfold dkeys in *; simpl in *. rewrite IH by exact H.
    reflexivity.
  Qed.

  Lemma dset_fresh k v d : ~ In k (dkeys d) -> dset k v d = d ++ [(k, v)].
  Proof.
    induction d as [|[k' v'] d IH]; simpl; [reflexivity|].
    intros H. destruct (Z.eqb_spec k k') as [->|Hn]; [tauto|].
    rewrite IH by tauto. reflexivity.
  Qed.

  Lemma dkeys_dset_notin k v d :
    ~ In k (dkeys d) -> dkeys (dset k v d) = dkeys d ++ [k].
  Proof. intros H. rewrite dset_fresh by exact H. unfold dkeys. rewrite map_app. reflexivity. Qed.

  Lemma in_dkeys_dset k k2 v d : In k (dkeys (dset k2 v d)) <-> k = k2 \/ In k (dkeys d).
  Proof.
    destruct (dmem k2 d) eqn:E.
    - apply dmem_in in E. rewrite dkeys_dset_in by exact E.
      split; [tauto|]. intros [->|H]; assumption.
    - apply dmem_false in E. rewrite dkeys_dset_notin by exact E.
      rewrite in_app_iff. simpl. intuition congruence.
  Qed.

  Lemma NoDup_dset k v d : NoDup (dkeys d) -> NoDup (dkeys (dset k v d)).
  Proof.
    intros H. destruct (dmem k d) eqn:E.
    - apply dmem_in in E. rewrite dkeys_dset_in by exact E. exact H.
    - apply dmem_false in E. rewrite dkeys_dset_notin by exact E.
      apply Permutation_NoDup with (l := k :: dkeys d).
      + apply Permutation_cons_append.
      + constructor; assumption.
  Qed.

  Lemma ddel_notin k d : ~ In k (dkeys d) -> ddel k d = d.
  Proof.
    induction d as [|[k' v'] d IH]; simpl; [reflexivity|].
    intros H. destruct (Z.eqb_spec k k') as [->|Hn]; [tauto|].
    rewrite IH by tauto. reflexivity.
  Qed.

  Lemma dget_ddel_other k k2 d : k <> k2 -> dget k (ddel k2 d) = dget k d.
  Proof.
    intros Hne. induction d as [|[k' v'] d IH]; simpl; [reflexivity|].
    destruct (Z.eqb_spec k2 k') as [->|Hn]; simpl.
    - destruct (Z.eqb_spec k k'); congruence.
    - destruct (Z.eqb_spec k k'); [reflexivity|exact IH].
  Qed.

  Lemma in_dkeys_ddel k k2 d :
    NoDup (dkeys d) -> (In k (dkeys (ddel k2 d)) <-> k <> k2 /\ In k (dkeys d)).
  Proof.
    induction d as [|[k' v'] d IH]; simpl; [tauto|].
    intros Hnd. inversion Hnd as [|? ? Hni Hnd']; subst.
    destruct (Z.eqb_spec k2 k') as [->|Hn]; simpl.
    - split.
      + intros H. split; [intros ->; tauto|auto].
      + intros [Hne [E|H]]; [congruence|exact H].
    - rewrite IH by exact Hnd'. intuition congruence.
  Qed.

  Lemma dget_ddel_same k d : NoDup (dkeys d) -> dget k (ddel k d) = None.
  Proof.
    intros Hnd. apply dget_None_notin. rewrite in_dkeys_ddel by exact Hnd. tauto.
  Qed.

  Lemma dget_ddel k k2 d : NoDup (dkeys d) ->
    dget k (ddel k2 d) = if Z.eqb k k2 then None else dget k d.
  Proof.
    intros Hnd. destruct (Z.eqb_spec k k2) as [->|Hn].
    - apply dget_ddel_same; exact Hnd.
    - apply dget_ddel_other; exact Hn.
  Qed.

  Lemma NoDup_ddel k d : NoDup (dkeys d) -> NoDup (dkeys (ddel k d)).
  Proof.
    induction d as [|[k' v'] d IH]; simpl; [auto|].
    intros Hnd. inversion Hnd as [|? ? Hni Hnd']; subst.
    destruct (Z.eqb_spec k k') as [->|Hn]; [exact Hnd'|].
    simpl. constructor; [|auto].
    rewrite in_dkeys_ddel by exact Hnd'. tauto.
  Qed.

  Lemma ddel_perm k v d :
    dget k d = Some v -> Permutation d ((k, v) :: ddel k d).
  Proof.
    induction d as [|[k' v'] d IH]; simpl; [discriminate|].
    destruct (Z.eqb_spec k k') as [->|Hn]; intros H.
    - injection H as ->. apply Permutation_refl.
    - eapply perm_trans; [apply perm_skip; apply IH; exact H|]. apply perm_swap.
  Qed.

  Lemma ddel_dset_fresh k v d : ~ In k (dkeys d) -> ddel k (dset k v d) = d.
  Proof.
    intros H. rewrite dset_fresh by exact H.
    induction d as [|[k' v'] d IH]; simpl.
    - rewrite Z.eqb_refl. reflexivity.
    - simpl in H. destruct (Z.eqb_spec k k') as [->|Hn]; [tauto|].
      rewrite IH by tauto. reflexivity.
  Qed.

  Lemma dvals_dset_fresh k v d :
    ~ In k (dkeys d) -> dvals (dset k v d) = dvals d ++ [v].
  Proof. intros H. rewrite dset_fresh by exact H. unfold dvals. apply map_app. Qed.

  Lemma dvals_ddel_perm k v d :
    dget k d = Some v -> Permutation (dvals d) (v :: dvals (ddel k d)).
  Proof. intros H. apply ddel_perm in H. apply (Permutation_map snd) in H. exact H. Qed.

  Lemma length_ddel k d : In k (dkeys d) -> S (length (ddel k d)) = length d.
  Proof.
    intros H. apply in_dkeys_Some in H. destruct H as [v Hv].
    apply ddel_perm in Hv. apply Permutation_length in Hv. simpl in Hv. lia.
  Qed.

  Lemma dict_ext_perm d1 d2 :
    NoDup (dkeys d1) -> NoDup (dkeys d2) ->
    (forall k, dget k d1 = dget k d2) -> Permutation d1 d2.
  Proof.
    intros H1 H2 Hext. apply NoDup_Permutation.
    - apply NoDup_map_inv with (f := fst); exact H1.
    - apply NoDup_map_inv with (f := fst); exact H2.
    - intros [k v]. split; intros Hin.
      + apply dget_In. rewrite <- Hext. apply dget_In_NoDup; assumption.
      + apply dget_In. rewrite Hext. apply dget_In_NoDup; assumption.
  Qed.

  Lemma perm_dget d1 d2 k :
    NoDup (dkeys d1) -> Permutation d1 d2 -> dget k d1 = dget k d2.
  Proof.
    intros Hnd Hp.
    assert (Hnd2 : NoDup (dkeys d2)).
    { eapply Permutation_NoDup; [apply Permutation_map; exact Hp|exact Hnd]. }
    destruct (dget k d1) as [v|] eqn:E.
    - symmetry. apply dget_In_NoDup; [exact Hnd2|].
      eapply Permutation_in; [exact Hp|]. apply dget_In; exact E.
    - symmetry. apply dget_None_notin. apply dget_None_notin in E.
      intros Hin. apply E. eapply Permutation_in; [|exact Hin].
      apply Permutation_sym. apply (Permutation_map fst); exact Hp.
  Qed.
End DictFacts.

Lemma dkeys_dmap {A B} (f : A -> B) d : dkeys (dmap f d) = dkeys d.
Proof. unfold dkeys, dmap. rewrite map_map. reflexivity. Qed.

Lemma dget_dmap {A B} (f : A -> B) k d : dget k (dmap f d) = option_map f (dget k d).
Proof.
  induction d as [|[k' v'] d IH]; simpl; [reflexivity|].
  destruct (Z.eqb k k'); [reflexivity|exact IH].
Qed.

Lemma zinsert_perm x l : Permutation (zinsert x l) (x :: l).
Proof.
  induction l as [|y l IH]; simpl; [apply Permutation_refl|].
  destruct (Z.leb x y); [apply Permutation_refl|].
  eapply perm_trans; [apply perm_skip; exact IH|apply perm_swap].
Qed.

Lemma zsort_perm l : Permutation (zsort l) l.
Proof.
  induction l as [|x l IH]; simpl; [apply perm_nil|].
  eapply perm_trans; [apply zinsert_perm|apply perm_skip; exact IH].
Qed.

Lemma zsort_in x l : In x (zsort l) <-> In x l.
Proof.
  split; apply Permutation_in; [|apply Permutation_sym]; apply zsort_perm.
Qed.

Lemma zsort_NoDup l : NoDup l -> NoDup (zsort l).
Proof. apply Permutation_NoDup. apply Permutation_sym, zsort_perm. Qed.

Lemma zsort_length l : length (zsort l) = length l.
Proof. apply Permutation_length, zsort_perm. Qed.

Lemma zinsert_sorted x l : StronglySorted Z.le l -> StronglySorted Z.le (zinsert x l).
Proof.
  induction l as [|y l IH]; simpl; intros H.
  - constructor; [constructor|constructor].
  - inversion H as [|? ? Hs Hf]; subst.
    destruct (Z.leb_spec x y) as [Hle|Hlt].
    + constructor; [exact H|]. constructor; [exact Hle|].
      eapply Forall_impl; [|exact Hf]. intros; lia.
    + constructor; [auto|].
      apply Forall_forall. intros z Hz.
      apply (Permutation_in _ (zinsert_perm x l)) in Hz.
      destruct Hz as [<-|Hz]; [lia|]. rewrite Forall_forall in Hf; auto.
Qed.

Lemma zsort_sorted l : StronglySorted Z.le (zsort l).
Proof. induction l as [|x l IH]; simpl; [constructor|apply zinsert_sorted; exact IH]. Qed.

Lemma zmax_list_spec l m :
  zmax_list l = Some m -> In m l /\ forall x, In x l -> x <= m.
Proof.
  revert m. induction l as [|x l IH]; simpl; [discriminate|].
  intros m H. destruct (zmax_list l) as [m'|] eqn:E.
  - injection H as <-. destruct (IH m' eq_refl) as [Hin Hle]. split.
    + destruct (Z.max_spec x m') as [[_ ->]|[_ ->]]; auto.
    + intros y [<-|Hy]; [lia|]. specialize (Hle y Hy); lia.
  - injection H as <-. destruct l as [|y l]; [|simpl in E; destruct (zmax_list l); discriminate].
    split; [auto|]. intros y [<-|[]]; lia.
Qed.

Lemma zmax_list_None l : zmax_list l = None <-> l = [].
Proof.
  destruct l as [|x l]; simpl; [tauto|].
  destruct (zmax_list l); split; discriminate.
Qed.

Lemma zmem_in k l : zmem k l = true <-> In k l.
Proof.
  unfold zmem. rewrite existsb_exists. split.
  - intros [x [Hx E]]. apply Z.eqb_eq in E. subst; exact Hx.
  - intros H. exists k. split; [exact H|apply Z.eqb_refl].
Qed.

Lemma zmem_false k l : zmem k l = false <-> ~ In k l.
Proof. rewrite <- zmem_in. destruct (zmem k l); split; congruence. Qed.
