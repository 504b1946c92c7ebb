(** General facts about lists. *)
From Verif Require Export Base.

Lemma NoDup_app_intro {A} (l1 l2 : list A) : NoDup l1 -> NoDup l2 ->
  (forall x, In x l1 -> In x l2 -> False) -> NoDup (l1 ++ l2).
Proof.
  induction l1 as [|x l1 IH]; simpl; intros H1 H2 Hd; [exact H2|].
  inversion H1; subst. constructor.
  - intros F. apply in_app_or in F. destruct F as [F|F]; [contradiction|]. eapply Hd; eauto.
  - apply IH; auto. intros y Hy1 Hy2. eapply Hd; eauto.
Qed.

Lemma NoDup_app_elim {A} (l1 l2 : list A) : NoDup (l1 ++ l2) ->
  NoDup l1 /\ NoDup l2 /\ (forall x, In x l1 -> In x l2 -> False).
Proof.
  induction l1 as [|x l1 IH]; simpl; intros H.
  - split; [constructor|]. split; [exact H|]. tauto.
  - inversion H; subst. destruct (IH H3) as [H4 [H5 H6]]. split.
    + constructor; [|exact H4]. intros F. apply H2. apply in_or_app. auto.
    + split; [exact H5|]. intros y [->|Hy] Hy2; [apply H2; apply in_or_app; auto|]. eapply H6; eauto.
Qed.

Lemma filter_all {A} (f : A -> bool) l : (forall x, In x l -> f x = true) -> filter f l = l.
Proof.
  induction l as [|x l IH]; simpl; intros H; [reflexivity|].
  rewrite (H x (or_introl eq_refl)). f_equal. apply IH. auto.
Qed.
Lemma filter_none {A} (f : A -> bool) l : (forall x, f x = false) -> filter f l = [].
Proof. induction l as [|x l IH]; simpl; intros H; [reflexivity|]. rewrite H. auto. Qed.
Lemma filter_none_in {A} (f : A -> bool) l : (forall x, In x l -> f x = false) -> filter f l = [].
Proof.
  induction l as [|x l IH]; simpl; intros H; [reflexivity|].
  rewrite (H x (or_introl eq_refl)). apply IH. auto.
Qed.

Lemma filter_perm {A} (f : A -> bool) l1 l2 : Permutation l1 l2 ->
  Permutation (filter f l1) (filter f l2).
Proof.
  induction 1; simpl; auto.
  - destruct (f x); auto.
  - destruct (f x), (f y); auto. apply perm_swap.
  - eapply perm_trans; eauto.
Qed.

Lemma filter_eq_one (z : Z) l : NoDup l -> In z l ->
  length (filter (fun t => (t =? z)%Z) l) = 1.
Proof.
  induction l as [|x l IH]; simpl; intros Hnd Hin; [destruct Hin|].
  inversion Hnd; subst. destruct (Z.eqb_spec x z) as [->|Hn].
  - simpl. f_equal. rewrite filter_none_in; [reflexivity|].
    intros y Hy. apply Z.eqb_neq. intros ->. contradiction.
  - destruct Hin as [->|Hin]; [contradiction|]. auto.
Qed.

Lemma app_inj_len {A} (a b c d : list A) : length a = length c -> a ++ b = c ++ d -> a = c /\ b = d.
Proof.
  revert c. induction a as [|x a IH]; intros [|y c] HL E; try discriminate; [auto|].
  simpl in *. injection E as -> E. destruct (IH c) as [-> ->]; auto.
Qed.
