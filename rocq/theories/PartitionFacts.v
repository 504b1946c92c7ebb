(** Splitting a query by blocks: proofs about Partition.v. *)
From Verif Require Import Partition BaseFacts StateFacts ListFacts.
From Coq Require Import Lia.

(** The entries of block [k]. *)
Definition share {A} (Zd : dict Z) (k : Z) (D : dict A) : dict A :=
  filter (fun cx => in_block Zd k (fst cx)) D.

Lemma group_dict_spec {A} Zd (L : dict A) : forall d out, NoDup (dkeys d) -> (forall k, dget k d <> Some []) ->
  group_dict Zd L d = Ok out ->
  NoDup (dkeys out) /\ (forall c, In c (dkeys L) -> In c (dkeys Zd)) /\
  (forall k, dget k out =
    match match dget k d with Some l => l | None => [] end ++ share Zd k L with
    | [] => None | l => Some l end).
Proof.
  induction L as [|[c x] L IH]; intros d out Hn Hne; cbn [group_dict].
  { intros E. injection E as <-. split; [exact Hn|]. split; [intros c []|]. intros k. cbn. rewrite app_nil_r.
    destruct (dget k d) as [[|]|] eqn:E; auto. exfalso. eapply Hne; exact E. }
  destruct (dget c Zd) as [v|] eqn:Ev; [|discriminate]. intros E.
  destruct (IH (add_group v (c, x) d) out (NoDup_add_group _ _ _ Hn)) as [N [I S]]; [|exact E|].
  { intros k. rewrite add_group_spec. destruct (k =? v)%Z; [|apply Hne].
    destruct (dget v d) as [[|]|]; discriminate. }
  split; [exact N|]. split.
  { intros c' [<-|H]; [eapply dget_Some_in; exact Ev|apply I; exact H]. }
  intros k. rewrite S, add_group_spec. unfold share at 2. cbn [filter fst]. unfold in_block at 1. rewrite Ev.
  destruct (Z.eqb_spec k v) as [->|Hk].
  - rewrite Z.eqb_refl. destruct (dget v d) as [l|]; [rewrite <- app_assoc|]; reflexivity.
  - replace (v =? k)%Z with false by (symmetry; apply Z.eqb_neq; congruence). reflexivity.
Qed.

Lemma dict_of_NoDup {A} (L : dict A) : NoDup (dkeys L) -> dict_of L = L.
Proof.
  intros H. unfold dict_of.
  assert (G : forall L0, NoDup (dkeys (L0 ++ L)) -> fold_left (fun d kv => dset (fst kv) (snd kv) d) L L0 = L0 ++ L).
  { clear H. induction L as [|[c x] L IH]; intros L0 H; [rewrite app_nil_r; reflexivity|].
    cbn [fold_left fst snd]. rewrite dset_fresh.
    - rewrite IH; rewrite <- app_assoc; [reflexivity|exact H].
    - unfold dkeys in H. rewrite map_app in H. cbn in H. apply NoDup_remove_2 in H. intros Hi. apply H, in_app_iff. auto. }
  apply (G []). exact H.
Qed.

Lemma share_keys {A} Zd k (D : dict A) c : In c (dkeys (share Zd k D)) <-> In c (dkeys D) /\ dget c Zd = Some k.
Proof.
  unfold dkeys, share. rewrite !in_map_iff. split.
  - intros [[c' x] [<- H]]. apply filter_In in H. destruct H as [H1 H2]. cbn in H2. apply in_block_true in H2. cbn.
    split; [exists (c', x); auto|exact H2].
  - intros [[[c' x] [<- H]] E]. exists (c', x). split; [reflexivity|]. apply filter_In. split; [exact H|]. cbn.
    apply in_block_true. exact E.
Qed.
Lemma share_NoDup {A} Zd k (D : dict A) : NoDup (dkeys D) -> NoDup (dkeys (share Zd k D)).
Proof.
  intros H. unfold share, dkeys in *. induction D as [|[c x] D IH]; cbn; [constructor|]. inversion H; subst.
  destruct (in_block Zd k c); [|auto]. cbn. constructor; [|auto]. intros Hi. apply H2.
  apply in_map_iff in Hi. destruct Hi as [[c' y] [<- Hi]]. apply filter_In in Hi.
  apply in_map. apply Hi.
Qed.
Lemma share_app {A} Zd k (D E : dict A) : share Zd k (D ++ E) = share Zd k D ++ share Zd k E.
Proof. apply filter_app. Qed.

Lemma partition_dict_spec {A} Zd (L : dict A) out : NoDup (dkeys L) -> partition_dict Zd L = Ok out ->
  NoDup (dkeys out) /\ (forall c, In c (dkeys L) -> In c (dkeys Zd)) /\
  (forall k, dget k out = match share Zd k L with [] => None | l => Some l end).
Proof.
  intros HL. unfold partition_dict. destruct (group_dict Zd L []) as [g|e] eqn:E; cbn [rbind]; [|discriminate].
  intros H. injection H as <-. destruct (group_dict_spec Zd L [] g) as [B [C D]]; [constructor|discriminate|exact E|].
  split; [rewrite dkeys_dmap; exact B|]. split; [exact C|]. intros k. rewrite dget_dmap, D. cbn [app].
  pose proof (dict_of_NoDup (share Zd k L) (share_NoDup Zd k L HL)) as Hd.
  unfold share in *. destruct (filter _ L) as [|p l]; [reflexivity|]. cbn [option_map dget app]. f_equal. exact Hd.
Qed.

Lemma group_dict_total {A} Zd (L : dict A) : forall d,
  (forall c, In c (dkeys L) -> In c (dkeys Zd)) -> exists out, group_dict Zd L d = Ok out.
Proof.
  induction L as [|[c x] L IH]; intros d H; cbn [group_dict]; [eauto|].
  destruct (in_dkeys_Some c Zd) as [v ->]; [apply H; left; reflexivity|]. apply IH. intros c' Hc. apply H. right. exact Hc.
Qed.
Lemma partition_dict_total {A} Zd (L : dict A) : (forall c, In c (dkeys L) -> In c (dkeys Zd)) ->
  exists out, partition_dict Zd L = Ok out.
Proof. intros H. unfold partition_dict. destruct (group_dict_total Zd L [] H) as [o ->]. cbn. eauto. Qed.
Lemma group_list_total Zd L : forall d, (forall c, In c L -> In c (dkeys Zd)) -> exists out, group_list Zd L d = Ok out.
Proof.
  induction L as [|c L IH]; intros d H; cbn [group_list]; [eauto|].
  destruct (in_dkeys_Some c Zd) as [v ->]; [apply H; left; reflexivity|]. apply IH. intros c' Hc. apply H. right. exact Hc.
Qed.
Lemma group_dict_missing {A} Zd (L : dict A) c : forall d, In c (dkeys L) -> ~ In c (dkeys Zd) ->
  group_dict Zd L d = Err KeyError.
Proof.
  induction L as [|[c' x] L IH]; intros d; [intros []|]. cbn [group_dict]. intros [<-|H] Hc.
  - cbn [fst] in Hc. apply dget_None_notin in Hc. rewrite Hc. reflexivity.
  - destruct (dget c' Zd); [apply IH; assumption|reflexivity].
Qed.
Lemma group_list_missing Zd L c : forall d, In c L -> ~ In c (dkeys Zd) -> group_list Zd L d = Err KeyError.
Proof.
  induction L as [|c' L IH]; intros d; [intros []|]. cbn [group_list]. intros [<-|H] Hc.
  - apply dget_None_notin in Hc. rewrite Hc. reflexivity.
  - destruct (dget c' Zd); [apply IH; assumption|reflexivity].
Qed.

(** The blocks together hold what was split. *)
Lemma filter_perm_split {A} (f : A -> bool) l : Permutation (filter f l ++ filter (fun x => negb (f x)) l) l.
Proof.
  induction l as [|x l IH]; cbn; [constructor|]. destruct (f x); cbn [negb app].
  - apply perm_skip. exact IH.
  - eapply Permutation_trans; [apply Permutation_sym, Permutation_middle|]. apply perm_skip. exact IH.
Qed.
Lemma blocks_perm {A} (b : Z -> A -> bool) ks : forall L, NoDup ks ->
  (forall x, In x L -> exists k, In k ks /\ b k x = true) ->
  (forall k k' x, b k x = true -> b k' x = true -> k = k') ->
  Permutation (concat (map (fun k => filter (b k) L) ks)) L.
Proof.
  induction ks as [|k ks IH]; intros L Hn Hx Hu.
  - destruct L as [|x L]; [constructor|]. destruct (Hx x (or_introl eq_refl)) as [k [[] _]].
  - cbn [map concat]. inversion Hn; subst. eapply Permutation_trans; [|apply (filter_perm_split (b k) L)].
    apply Permutation_app_head.
    eapply Permutation_trans; [|apply (IH (filter (fun x => negb (b k x)) L)); [assumption| |exact Hu]].
    + assert (E : map (fun k0 => filter (b k0) L) ks =
                  map (fun k0 => filter (b k0) (filter (fun x => negb (b k x)) L)) ks); [|rewrite E; apply Permutation_refl].
      apply map_ext_in. intros k' Hk'. clear - Hu H1 Hk'.
      induction L as [|x L IH]; [reflexivity|]. cbn [filter]. destruct (b k x) eqn:E; cbn [negb].
      * destruct (b k' x) eqn:E'; [|exact IH]. destruct H1. rewrite (Hu k k' x E E'). exact Hk'.
      * cbn [filter]. rewrite IH. reflexivity.
    + intros x Hi. apply filter_In in Hi. destruct Hi as [Hi E]. destruct (Hx x Hi) as [k' [[<-|Hk'] Eb]].
      * rewrite Eb in E. discriminate.
      * eauto.
Qed.

(** The values of a dictionary listed by its keys. *)
Lemma dvals_by_keys {A} (d : dict (list A)) (g : Z -> list A) : NoDup (dkeys d) ->
  (forall k, dget k d = match g k with [] => None | l => Some l end) ->
  dvals d = map g (dkeys d).
Proof.
  intros Hn H. unfold dvals, dkeys. rewrite map_map. apply map_ext_in. intros [k l] Hi. cbn.
  pose proof (dget_In_NoDup k l d Hn Hi) as E. rewrite H in E. destruct (g k); [discriminate|]. congruence.
Qed.

Lemma in_block_inj Zd k k' c : in_block Zd k c = true -> in_block Zd k' c = true -> k = k'.
Proof. rewrite !in_block_true. congruence. Qed.

Lemma partition_list_perm Zd L out : partition_list Zd L = Ok out -> Permutation (concat (dvals out)) L.
Proof.
  intros E. destruct (partition_list_spec _ _ _ E) as [N [I S]].
  rewrite (dvals_by_keys out (fun k => filter (in_block Zd k) L) N S).
  apply blocks_perm; [exact N| |apply in_block_inj].
  intros c Hc. destruct (in_dkeys_Some c Zd (I c Hc)) as [k Ek]. exists k. rewrite in_block_true. split; [|exact Ek].
  destruct (dget k out) as [l|] eqn:El; [eapply dget_Some_in; exact El|]. rewrite S in El.
  assert (Hi : In c (filter (in_block Zd k) L)) by (apply filter_In; rewrite in_block_true; auto).
  destruct (filter (in_block Zd k) L); [destruct Hi|discriminate].
Qed.
Lemma partition_dict_perm {A} Zd (L : dict A) out : NoDup (dkeys L) -> partition_dict Zd L = Ok out ->
  Permutation (concat (dvals out)) L.
Proof.
  intros HL E. destruct (partition_dict_spec _ _ _ HL E) as [N [I S]].
  rewrite (dvals_by_keys out (fun k => share Zd k L) N S).
  apply (blocks_perm (fun k cx => in_block Zd k (fst cx))); [exact N| |intros k k' cx; apply in_block_inj].
  intros [c x] Hc. assert (Hc' : In c (dkeys L)) by (apply (in_map fst) in Hc; exact Hc).
  destruct (in_dkeys_Some c Zd (I c Hc')) as [k Ek]. exists k. cbn [fst]. rewrite in_block_true. split; [|exact Ek].
  destruct (dget k out) as [l|] eqn:El; [eapply dget_Some_in; exact El|]. rewrite S in El.
  assert (Hi : In c (dkeys (share Zd k L))) by (apply share_keys; auto).
  destruct (share Zd k L); [destruct Hi|discriminate].
Qed.
