(** C65: a schema is read as it is written: classes, their arguments, codes of the categories. *)
From Coq Require Import Ascii Permutation Sorted.
From Verif Require Import Schema BaseFacts.

(* ------------------------------------------------------------------ *)
(** ** Specification *)
(** Characters of a key or a value; texts with commas between. *)
Definition special : list ascii := ["("; ")"; ","; "="; "010"]%char.
Definition word (t : text) : Prop := Forall (fun a => ~ In a special) t.
Definition commas (l : list text) : text :=
  match l with [] => [] | t :: l' => fold_left (fun acc u => acc ++ ","%char :: u) l' t end.
(** "name", or "name(key=value,...)". *)
Definition written (i : text * option (list (text * text))) : text :=
  match i with
  | (name, None) => name
  | (name, Some args) => name ++ "("%char :: commas (map (fun '(k, v) => k ++ "="%char :: v) args) ++ [")"%char]
  end.
(** The dictionary has for each key the number written last. *)
Definition dictionary {F} (float : text -> option F) (args : list (text * text)) (d : list (text * F)) : Prop :=
  NoDup (map fst d) /\ forall k x, In (k, x) d <-> exists pre v post, args = pre ++ (k, v) :: post /\ ~ In k (map fst post) /\ float v = Some x.
Definition legible {F} (float : text -> option F) (i : text * option (list (text * text))) : Prop :=
  ~ In "("%char (fst i) /\ forall args, snd i = Some args -> args <> [] /\ forall k v, In (k, v) args -> word k /\ word v /\ float v <> None.
Definition meaning {F} (float : text -> option F) (i : text * option (list (text * text))) (k : option (list (text * F))) : Prop :=
  match snd i, k with None, None => True | Some args, Some d => dictionary float args d | _, _ => False end.

Section Spec.
Context {U : Type} (na : U).
(** The value of a cell. *)
Definition present (x : cell U) (u : U) : Prop := x = Val u /\ u <> na.
Definition occurs (x : list (cell U)) (u : U) : Prop := exists c, In c x /\ present c u.
(** There are [k] different values. *)
Definition distinct (x : list (cell U)) (k : nat) : Prop := exists us, NoDup us /\ length us = k /\ forall u, In u us <-> occurs x u.
(** [m] numbers the values of the column from 0. *)
Definition numbering (x : list (cell U)) (m : list (U * nat)) : Prop :=
  NoDup (map fst m) /\ NoDup (map snd m) /\ (forall u, In u (map fst m) <-> occurs x u) /\ (forall k, In k (map snd m) <-> (k < length m)%nat).
(** A cell and its code. *)
Definition encodes (m : list (U * nat)) (x : cell U) (y : coded U) : Prop :=
  (exists u k, present x u /\ y = Code k /\ In (u, k) m) \/ ((forall u, ~ present x u) /\ y = Raw Null).
(** A cell as it is, without 'NA'. *)
Definition same (x : cell U) (y : coded U) : Prop :=
  (exists u, present x u /\ y = Raw (Val u)) \/ ((forall u, ~ present x u) /\ y = Raw Null).
End Spec.
Definition discrete (s : text) : Prop := s = s_bernoulli \/ s = s_categorical.
Definition kept (schema : list (text * text * Z)) : list (text * text * Z) := filter (fun '(_, s, _) => if text_dec s s_ignore then false else true) schema.

(* ------------------------------------------------------------------ *)
(** ** Texts *)
Lemma split_one c t : ~ In c t -> split_on c t = [t].
Proof.
  induction t as [|a t IH]; intros H; [reflexivity|]. cbn. destruct (Ascii.eqb_spec a c) as [->|N]; [exfalso; apply H; left; reflexivity|].
  rewrite IH by (intros K; apply H; right; exact K). reflexivity.
Qed.
Lemma split_cons c t u : ~ In c t -> split_on c (t ++ c :: u) = t :: split_on c u.
Proof.
  induction t as [|a t IH]; intros H; [cbn; rewrite Ascii.eqb_refl; reflexivity|]. cbn [app split_on]. destruct (Ascii.eqb_spec a c) as [->|N]; [exfalso; apply H; left; reflexivity|].
  rewrite IH by (intros K; apply H; right; exact K). reflexivity.
Qed.
Lemma commas_cons t u l : commas (t :: u :: l) = t ++ ","%char :: commas (u :: l).
Proof.
  cbn [commas fold_left]. revert u. induction l as [|w l IH]; intros u; [reflexivity|]. cbn [fold_left]. rewrite <- (IH (u ++ ","%char :: w)). f_equal. rewrite <- app_assoc. reflexivity.
Qed.
Lemma split_commas l : l <> [] -> (forall t, In t l -> ~ In ","%char t) -> split_on ","%char (commas l) = l.
Proof.
  induction l as [|t l IH]; intros Hne H; [congruence|]. destruct l as [|u l].
  - apply split_one, H. left; reflexivity.
  - rewrite commas_cons, (split_cons _ t) by (apply H; left; reflexivity). f_equal. apply IH; [discriminate|]. intros w Hw. apply H. right; exact Hw.
Qed.
Lemma in_commas a l : In a (commas l) -> a = ","%char \/ exists t, In t l /\ In a t.
Proof.
  induction l as [|t l IH]; intros H; [destruct H|]. destruct l as [|u l]; [right; exists t; split; [left; reflexivity|exact H]|].
  rewrite commas_cons in H. apply in_app_or in H. destruct H as [H|[H|H]]; [right; exists t; split; [left; reflexivity|exact H]|left; auto|].
  destruct (IH H) as [K|[w [K1 K2]]]; [left; exact K|right; exists w; split; [right; exact K1|exact K2]].
Qed.
Lemma greedy_close w : ~ In newline w -> greedy (w ++ [")"%char]) = Some w.
Proof.
  induction w as [|a w IH]; intros H; [reflexivity|]. cbn [app greedy]. destruct (Ascii.eqb_spec a newline) as [->|N]; [exfalso; apply H; left; reflexivity|].
  rewrite IH by (intros K; apply H; right; exact K). reflexivity.
Qed.
Lemma search_paren name w : ~ In "("%char name -> ~ In newline w -> search (name ++ "("%char :: w ++ [")"%char]) = Some w.
Proof.
  intros Hn Hw. induction name as [|a name IH]; [cbn [app search]; change (Ascii.eqb "(" lpar) with true; cbn iota; rewrite greedy_close by exact Hw; reflexivity|].
  cbn [app search]. destruct (Ascii.eqb_spec a lpar) as [->|N]; [exfalso; apply Hn; left; reflexivity|]. apply IH. intros K; apply Hn; right; exact K.
Qed.
Lemma search_none t : ~ In "("%char t -> search t = None.
Proof.
  induction t as [|a t IH]; intros H; [reflexivity|]. cbn. destruct (Ascii.eqb_spec a lpar) as [->|N]; [exfalso; apply H; left; reflexivity|].
  apply IH. intros K; apply H; right; exact K.
Qed.
Lemma before_paren_app name w : ~ In "("%char name -> before_paren (name ++ "("%char :: w) = name.
Proof.
  induction name as [|a name IH]; intros H; [reflexivity|]. cbn [app before_paren]. destruct (Ascii.eqb_spec a lpar) as [->|N]; [exfalso; apply H; left; reflexivity|].
  rewrite IH by (intros K; apply H; right; exact K). reflexivity.
Qed.
Lemma filter_id {A} (f : A -> bool) l : (forall x, In x l -> f x = true) -> filter f l = l.
Proof. induction l as [|a l IH]; intros H; [reflexivity|]. cbn. rewrite (H a (or_introl eq_refl)). f_equal. apply IH. intros x Hx. apply H. right; exact Hx. Qed.

(** Dictionaries by key. *)
Lemma kget_kset {K A} dec (k k' : K) (v : A) d : kget dec k (kset dec k' v d) = if dec k k' then Some v else kget dec k d.
Proof.
  induction d as [|[k0 v0] d IH]; cbn.
  - destruct (dec k k'); reflexivity.
  - destruct (dec k' k0) as [->|N]; cbn; destruct (dec k k0) as [->|N0]; try reflexivity; [|exact IH].
    destruct (dec k0 k') as [->|]; [congruence|reflexivity].
Qed.
Lemma keys_kset {K A} dec (k k' : K) (v : A) d : In k (map fst (kset dec k' v d)) <-> k = k' \/ In k (map fst d).
Proof.
  induction d as [|[k0 v0] d IH]; cbn; [split; intros [H|H]; auto|]. destruct (dec k' k0) as [->|N]; cbn; [|rewrite IH]; split; intros H; intuition congruence.
Qed.
Lemma NoDup_kset {K A} dec (k' : K) (v : A) d : NoDup (map fst d) -> NoDup (map fst (kset dec k' v d)).
Proof.
  induction d as [|[k0 v0] d IH]; cbn; intros H; [constructor; [intros []|constructor]|]. inversion H as [|? ? H1 H2]; subst. destruct (dec k' k0) as [->|N]; cbn; [constructor; assumption|].
  constructor; [|apply IH, H2]. rewrite keys_kset. intros [E|E]; [congruence|contradiction].
Qed.
Lemma kget_In {K A} dec (k : K) (v : A) d : NoDup (map fst d) -> kget dec k d = Some v <-> In (k, v) d.
Proof.
  induction d as [|[k0 v0] d IH]; cbn; intros H; [split; [discriminate|intros []]|]. inversion H as [|? ? H1 H2]; subst. destruct (dec k k0) as [->|N].
  - split; [intros [= ->]; left; reflexivity|]. intros [[= ->]|K0]; [reflexivity|]. exfalso. apply H1. apply in_map_iff. exists (k0, v). auto.
  - rewrite IH by exact H2. split; [auto|intros [[= -> ->]|K0]; [congruence|exact K0]].
Qed.
Lemma kget_None {K A} dec (k : K) (d : list (K * A)) : kget dec k d = None <-> ~ In k (map fst d).
Proof.
  induction d as [|[k0 v0] d IH]; cbn; [tauto|]. destruct (dec k k0) as [->|N]; [split; [discriminate|intros H; exfalso; apply H; auto]|]. rewrite IH. intuition congruence.
Qed.

(* ------------------------------------------------------------------ *)
(** ** Arguments of a class *)
Section Args.
Context {F : Type} (float : text -> option F).
Definition piece (kv : text * text) : text := let '(k, v) := kv in k ++ "="%char :: v.
Lemma word_no t a : word t -> In a special -> ~ In a t.
Proof. intros H Ha K. unfold word in H. rewrite Forall_forall in H. apply (H a K Ha). Qed.

Lemma pairs_last args : (forall k v, In (k, v) args -> word k /\ word v /\ float v <> None) -> forall d0, NoDup (map fst d0) ->
  exists d, pairs float (map piece args) d0 = Ok d /\ NoDup (map fst d) /\
    forall k, kget text_dec k d = match find (fun kv => if text_dec k (fst kv) then true else false) (rev args) with Some kv => float (snd kv) | None => kget text_dec k d0 end.
Proof.
  induction args as [|[k v] args IH]; intros H d0 Hd0; [exists d0; split; [reflexivity|split; [exact Hd0|reflexivity]]|].
  destruct (H k v (or_introl eq_refl)) as [Hk [Hv Hf]]. cbn [map pairs piece].
  rewrite split_cons by (apply (word_no k); [exact Hk|cbn; auto]). rewrite split_one by (apply (word_no v); [exact Hv|cbn; auto]).
  destruct (float v) as [x|] eqn:Ex; [|congruence]. destruct (IH (fun k' v' Hin => H k' v' (or_intror Hin)) (kset text_dec k x d0) (NoDup_kset _ _ _ _ Hd0)) as [d [E [Nd G]]].
  exists d. split; [exact E|]. split; [exact Nd|]. intros k'. rewrite G. cbn [rev].
  assert (Ff : forall l, find (fun kv : text * text => if text_dec k' (fst kv) then true else false) (l ++ [(k, v)]) =
    match find (fun kv : text * text => if text_dec k' (fst kv) then true else false) l with Some kv => Some kv | None => if text_dec k' k then Some (k, v) else None end).
  { intros l. induction l as [|[a b] l IHl]; cbn; [destruct (text_dec k' k); reflexivity|]. destruct (text_dec k' a); [reflexivity|exact IHl]. }
  rewrite Ff. destruct (find _ (rev args)) as [kv|]; [reflexivity|]. rewrite kget_kset. destruct (text_dec k' k); [cbn; symmetry; exact Ex|reflexivity].
Qed.
Lemma last_find (args : list (text * text)) k v : find (fun kv => if text_dec k (fst kv) then true else false) (rev args) = Some (k, v) <->
  exists pre post, args = pre ++ (k, v) :: post /\ ~ In k (map fst post).
Proof.
  induction args as [|[a b] args IH] using rev_ind; [split; [discriminate|intros [[|? ?] [? [? _]]]; discriminate]|].
  rewrite rev_app_distr. cbn. destruct (text_dec k a) as [->|N].
  - split; [intros [= <-]; exists args, []; auto|]. intros [pre [post [E Hn]]]. destruct post as [|[a' b'] post] using rev_ind.
    + apply app_inj_tail in E. destruct E as [_ E]. congruence.
    + exfalso. apply Hn. change ((a, v) :: post ++ [(a', b')]) with (((a, v) :: post) ++ [(a', b')]) in E. rewrite app_assoc in E. apply app_inj_tail in E. destruct E as [_ E]. injection E as <- <-.
      rewrite map_app. apply in_or_app. right. left. reflexivity.
  - rewrite IH. split; intros [pre [post [E Hn]]].
    + exists pre, (post ++ [(a, b)]). rewrite E, <- app_assoc. split; [reflexivity|]. rewrite map_app. intros K. apply in_app_or in K. destruct K as [K|[K|[]]]; [contradiction|cbn in K; congruence].
    + destruct post as [|[a' b'] post _] using rev_ind.
      * apply app_inj_tail in E. destruct E as [_ E]. congruence.
      * change ((k, v) :: post ++ [(a', b')]) with (((k, v) :: post) ++ [(a', b')]) in E. rewrite app_assoc in E. apply app_inj_tail in E. destruct E as [E _]. exists pre, post. split; [exact E|].
        intros K. apply Hn. rewrite map_app. apply in_or_app. left. exact K.
Qed.
Lemma find_key (args : list (text * text)) k kv : find (fun kv => if text_dec k (fst kv) then true else false) args = Some kv -> fst kv = k.
Proof. intros H. apply find_some in H. destruct H as [_ H]. destruct (text_dec k (fst kv)); congruence. Qed.

Lemma parse_written i : legible float i -> exists k, parse_one float (written i) = Ok (fst i, k) /\ meaning float i k.
Proof.
  destruct i as [name [args|]]; intros [Hn Ha]; cbn [fst snd] in *.
  - destruct (Ha args eq_refl) as [Hne Hw]. cbn [written]. change (fun '(k, v) => k ++ "="%char :: v) with piece. unfold parse_one.
    assert (Hch : forall a, In a (commas (map piece args)) -> a <> "("%char /\ a <> ")"%char /\ a <> newline).
    { intros a K. apply in_commas in K. destruct K as [->|[t [K1 K2]]]; [repeat split; discriminate|]. apply in_map_iff in K1. destruct K1 as [[k v] [<- K1]]. destruct (Hw k v K1) as [Wk [Wv _]].
      cbn in K2. apply in_app_or in K2. unfold word in Wk, Wv. rewrite Forall_forall in Wk, Wv. destruct K2 as [K2|[<-|K2]]; [|repeat split; discriminate|];
        [specialize (Wk a K2)|specialize (Wv a K2)]; cbn in *; unfold newline; repeat split; intros ->; tauto. }
    rewrite search_paren; [|exact Hn|intros K; destruct (Hch _ K) as [_ [_ K']]; apply K'; reflexivity].
    rewrite filter_id by (intros a K; destruct (Hch a K) as [A [B _]]; apply negb_true_iff, orb_false_iff; split; apply Ascii.eqb_neq; assumption).
    rewrite split_commas.
    + destruct (pairs_last args Hw [] (NoDup_nil _)) as [d [E [Nd G]]]. match goal with |- context [pairs float ?l []] => change (pairs float l []) with (pairs float (map piece args) []) end. rewrite E. cbn [rbind]. rewrite before_paren_app by exact Hn. exists (Some d). split; [reflexivity|].
      cbn. split; [exact Nd|]. intros k x. rewrite <- (kget_In text_dec k x d Nd), G. split.
      * destruct (find _ (rev args)) as [[k' v]|] eqn:Ef; [|discriminate]. pose proof (find_key _ _ _ Ef) as Ek. cbn in Ek. subst k'. apply last_find in Ef. destruct Ef as [pre [post [E1 E2]]]. cbn. eauto 6.
      * intros [pre [v [post [E1 [E2 E3]]]]]. rewrite (proj2 (last_find args k v)) by eauto. exact E3.
    + destruct args; [congruence|discriminate].
    + intros t Ht K. apply in_map_iff in Ht. destruct Ht as [[k v] [<- Ht]]. destruct (Hw k v Ht) as [Wk [Wv _]]. cbn in K. apply in_app_or in K.
      destruct K as [K|[K|K]]; [apply (word_no k "," Wk); [cbn; auto|exact K]|discriminate|apply (word_no v "," Wv); [cbn; auto|exact K]].
  - cbn [written]. unfold parse_one. rewrite search_none by exact Hn. exists None. split; [reflexivity|exact I].
Qed.
End Args.

(** Classes written with their arguments are read back, and the dictionary of a class has for
    each key the number written (the last, if it is written again). *)
Theorem C65_parse : forall F (float : text -> option F) items, Forall (legible float) items ->
  exists ks, parse_distargs float (map written items) = Ok (map fst items, ks) /\ Forall2 (meaning float) items ks.
Proof.
  intros F float items H. induction H as [|i items Hi H [ks [E M]]]; [exists []; split; [reflexivity|constructor]|].
  destruct (parse_written float i Hi) as [k [Ek Mk]]. exists (k :: ks). cbn. rewrite Ek. cbn [rbind]. rewrite E. split; [reflexivity|constructor; assumption].
Qed.
Print Assumptions C65_parse.

(** Each class is read by itself. *)
Theorem C65_each : forall F (float : text -> option F) l cs ks, parse_distargs float l = Ok (cs, ks) ->
  length cs = length l /\ length ks = length l /\
  forall j t, nth_error l j = Some t -> exists c k, nth_error cs j = Some c /\ nth_error ks j = Some k /\ parse_distargs float [t] = Ok ([c], [k]).
Proof.
  intros F float l. induction l as [|t l IH]; intros cs ks H; cbn in H; [injection H as <- <-; repeat split; intros [|j] t; discriminate|].
  destruct (parse_one float t) as [[c k]|e] eqn:E1; [|discriminate]. cbn in H. destruct (parse_distargs float l) as [[cs' ks']|e] eqn:E2; [|discriminate]. cbn in H. injection H as <- <-.
  destruct (IH cs' ks' eq_refl) as [L1 [L2 Q]]. split; [cbn; lia|]. split; [cbn; lia|]. intros [|j] t' Hj; cbn in Hj.
  - injection Hj as <-. exists c, k. split; [reflexivity|]. split; [reflexivity|]. cbn. rewrite E1. reflexivity.
  - apply (Q j t' Hj).
Qed.
Print Assumptions C65_each.

(** A piece between parentheses and commas that is not key=number is refused. *)
Theorem C65_refuses : forall F (float : text -> option F) name pieces p,
  ~ In "("%char name -> (forall t a, In t pieces -> In a t -> ~ In a ["("; ")"; ","; "010"]%char) -> In p pieces ->
  (forall k v, p = k ++ "="%char :: v -> ~ In "="%char k -> ~ In "="%char v -> float v = None) ->
  parse_distargs float [name ++ "("%char :: commas pieces ++ [")"%char]] = Err ValueError.
Proof.
  intros F float name pieces p Hn Hp Hin Hbad. cbn [parse_distargs]. unfold parse_one.
  assert (Hch : forall a, In a (commas pieces) -> a <> "("%char /\ a <> ")"%char /\ a <> newline).
  { intros a K. apply in_commas in K. destruct K as [->|[t [K1 K2]]]; [repeat split; discriminate|]. specialize (Hp t a K1 K2). cbn in Hp. unfold newline. repeat split; intros ->; tauto. }
  rewrite search_paren; [|exact Hn|intros K; destruct (Hch _ K) as [_ [_ K']]; apply K'; reflexivity].
  rewrite filter_id by (intros a K; destruct (Hch a K) as [A [B _]]; apply negb_true_iff, orb_false_iff; split; apply Ascii.eqb_neq; assumption).
  rewrite split_commas; [|intros ->; destruct Hin|intros t Ht K; apply (Hp t ","%char Ht K); cbn; auto].
  assert (E : forall d, pairs float pieces d = Err ValueError).
  { clear Hp Hch. induction pieces as [|t pieces IH]; intros d; [destruct Hin|]. cbn [pairs].
    assert (Sp : forall t', (exists k v, t' = k ++ "="%char :: v /\ ~ In "="%char k /\ ~ In "="%char v /\ split_on "="%char t' = [k; v]) \/
       ((forall k v, split_on "="%char t' <> [k; v]) /\ True)).
    { intros t'. destruct (split_on "="%char t') as [|k [|v [|? ?]]] eqn:Es; try (right; split; [intros; discriminate|exact I]).
      left. exists k, v. assert (W : forall t, exists w ws, split_on "="%char t = w :: ws /\ ~ In "="%char w /\ (ws = [] -> t = w) /\ (ws <> [] -> exists u, t = w ++ "="%char :: u /\ split_on "="%char u = ws)).
      { clear. intros t. induction t as [|a t [w [ws [E [Hw [H1 H2]]]]]]; [exists [], []; cbn; split; [reflexivity|]; split; [tauto|]; split; [reflexivity|congruence]|].
        cbn. destruct (Ascii.eqb_spec a "="%char) as [->|N].
        - exists [], (split_on "="%char t). split; [reflexivity|]. split; [tauto|]. split; [rewrite E; discriminate|]. intros _. exists t. auto.
        - rewrite E. exists (a :: w), ws. split; [reflexivity|]. split; [intros [K|K]; [congruence|contradiction]|]. split; [intros K; rewrite (H1 K); reflexivity|].
          intros K. destruct (H2 K) as [u [-> Eu]]. exists u. auto. }
      destruct (W t') as [w [ws [E [Hw [_ H2]]]]]. rewrite Es in E. injection E as <- <-. destruct (H2 ltac:(discriminate)) as [u [-> Eu]].
      destruct (W u) as [w2 [ws2 [E2 [Hw2 [H3 _]]]]]. rewrite Eu in E2. injection E2 as <- <-. rewrite (H3 eq_refl). auto. }
    destruct Hin as [->|Hin].
    - destruct (Sp p) as [[k [v [E1 [E2 [E3 E4]]]]]|[E1 _]]; [rewrite E4, (Hbad k v E1 E2 E3); reflexivity|].
      destruct (split_on "="%char p) as [|k [|v [|? ?]]] eqn:Es; try reflexivity. exfalso. apply (E1 k v). reflexivity.
    - destruct (split_on "="%char t) as [|k [|v [|? ?]]]; try reflexivity. destruct (float v); [apply IH, Hin|reflexivity]. }
  rewrite E. reflexivity.
Qed.
Print Assumptions C65_refuses.

(* ------------------------------------------------------------------ *)
(** ** Codes *)
Section Codes.
Context {U F : Type} (udec : forall a b : U, {a = b} + {a <> b}) (na : U) (sort : list (cell U) -> list (cell U)) (float : text -> option F).
Hypothesis sort_perm : forall l, Permutation l (sort l).

Lemma unique_spec l : NoDup (unique udec l) /\ forall x, In x (unique udec l) <-> In x l.
Proof.
  induction l as [|a l [N I]]; cbn; [split; [constructor|tauto]|]. split.
  - constructor; [|apply NoDup_filter, N]. intros K. apply filter_In in K. destruct K as [_ K]. destruct (cdec udec a a); congruence.
  - intros x. rewrite filter_In, I. destruct (cdec udec a x) as [->|Ne]; [tauto|]. split; intros [H|H]; auto; try (right; tauto).
Qed.
Lemma nonnull_in l (u : U) : In u (nonnull l) <-> In (Val u) l.
Proof.
  induction l as [|[|v] l IH]; cbn; [tauto| |]; rewrite IH; [split; [auto|intros [H|H]; [discriminate|exact H]]|].
  split; intros [H|H]; auto; left; congruence.
Qed.
Lemma nonnull_NoDup (l : list (cell U)) : NoDup l -> NoDup (nonnull l).
Proof.
  induction 1 as [|[|v] l H N IH]; cbn; [constructor|exact IH|]. constructor; [|exact IH]. intros K. apply H, nonnull_in, K.
Qed.
Lemma missing_present x u : missing udec na x = Val u <-> present na x u.
Proof.
  unfold present, missing. destruct x as [|v]; [split; [discriminate|intros [H _]; discriminate]|]. destruct (udec v na) as [->|N]; split.
  - discriminate.
  - intros [H1 H2]. injection H1 as <-. congruence.
  - intros [= <-]. auto.
  - intros [[= <-] _]. reflexivity.
Qed.
Lemma combine_seq {A} (l : list A) n : map fst (combine l (seq n (length l))) = l /\ map snd (combine l (seq n (length l))) = seq n (length l).
Proof. revert n. induction l as [|a l IH]; intros n; [split; reflexivity|]. cbn. destruct (IH (S n)) as [-> ->]. split; reflexivity. Qed.

Lemma valmap_numbering x : numbering na x (build_valmap udec sort (map (missing udec na) x)).
Proof.
  unfold build_valmap. set (us := nonnull (sort (unique udec (map (missing udec na) x)))). destruct (combine_seq us 0) as [E1 E2].
  destruct (unique_spec (map (missing udec na) x)) as [Nu Iu].
  unfold numbering. rewrite E1, E2. split; [|split; [apply seq_NoDup|split]].
  - apply nonnull_NoDup. apply (Permutation_NoDup (sort_perm _) Nu).
  - intros u. unfold us. rewrite nonnull_in. split.
    + intros K. apply (Permutation_in _ (Permutation_sym (sort_perm _))) in K. apply Iu in K. apply in_map_iff in K. destruct K as [c [E K]]. exists c. split; [exact K|]. apply missing_present, E.
    + intros [c [K E]]. apply (Permutation_in _ (sort_perm _)), Iu, in_map_iff. exists c. split; [apply missing_present, E|exact K].
  - intros k. rewrite in_seq, combine_length, seq_length. lia.
Qed.
Lemma numbering_distinct x m : numbering na x m -> distinct na x (length m).
Proof. intros [H1 [_ [H2 _]]]. exists (map fst m). split; [exact H1|]. split; [apply map_length|exact H2]. Qed.
Lemma distinct_fun x k k' : distinct na x k -> distinct na x k' -> k = k'.
Proof.
  intros [a [A1 [<- A2]]] [b [B1 [<- B2]]]. apply Permutation_length, NoDup_Permutation; [exact A1|exact B1|]. intros u. rewrite A2, B2. reflexivity.
Qed.
Lemma replace_encodes x m : numbering na x m -> forall c, In c x -> encodes na m c (replace udec m (missing udec na c)).
Proof.
  intros [H1 [_ [H2 _]]] c Hc. destruct (missing udec na c) as [|u] eqn:E; cbn.
  - right. split; [|reflexivity]. intros u K. apply missing_present in K. congruence.
  - apply missing_present in E. left. exists u. assert (Hu : In u (map fst m)) by (apply H2; exists c; auto).
    destruct (kget udec u m) as [k|] eqn:Ek; [|exfalso; apply kget_None in Ek; contradiction]. exists k. split; [exact E|]. split; [reflexivity|]. apply (kget_In udec u k m H1), Ek.
Qed.
Lemma raw_same c : same na c (Raw (missing udec na c)).
Proof.
  destruct (missing udec na c) as [|u] eqn:E; [right|left].
  - split; [|reflexivity]. intros u K. apply missing_present in K. congruence.
  - exists u. split; [apply missing_present, E|reflexivity].
Qed.

(** What an entry says of its column. *)
Definition entry_ok (frame : list (text * list (cell U))) (s : text * text * Z) (e : @entry U) : Prop :=
  let '(c, st, i) := s in e_column e = c /\ e_cctype e = st /\ e_index e = i /\ exists x, kget text_dec c frame = Some x /\
  (discrete st -> e_map e = Some (build_valmap udec sort (map (missing udec na) x)) /\ Forall2 (encodes na (build_valmap udec sort (map (missing udec na) x))) x (e_data e)) /\
  (~ discrete st -> e_map e = None /\ Forall2 (same na) x (e_data e)) /\
  (st = s_bernoulli -> distinct na x 2) /\
  (st = s_categorical -> ~ In "("%char c -> exists k, e_k e = Some k /\ distinct na x k) /\
  (st <> s_categorical -> e_k e = None).
Lemma Forall2_map_r {A B} (R : A -> B -> Prop) (f : A -> B) l : (forall a, In a l -> R a (f a)) -> Forall2 R l (map f l).
Proof. induction l as [|a l IH]; intros H; constructor; [apply H; left; reflexivity|apply IH; intros b Hb; apply H; right; exact Hb]. Qed.
Lemma map_map_missing m x : map (replace udec m) (map (missing udec na) x) = map (fun c => replace udec m (missing udec na c)) x.
Proof. apply map_map. Qed.

Lemma read_column_spec frame c st i r : read_column udec na sort float frame (c, st, i) = Ok r ->
  (st = s_ignore /\ r = None) \/ (st <> s_ignore /\ exists e, r = Some e /\ entry_ok frame (c, st, i) e).
Proof.
  cbn [read_column]. destruct (text_dec st s_ignore) as [->|N]; [intros [= <-]; left; auto|]. destruct (kget text_dec c frame) as [x|] eqn:Ex; [|discriminate].
  pose proof (valmap_numbering x) as Num. set (m := build_valmap udec sort (map (missing udec na) x)) in *. intros H. right. split; [exact N|].
  destruct (text_dec st s_bernoulli) as [->|Nb].
  - destruct (Nat.eqb_spec (length m) 2) as [L|L]; [|discriminate]. injection H as <-. eexists. split; [reflexivity|]. cbn. repeat (split; [reflexivity|]). exists x. split; [exact Ex|].
    split; [intros _; split; [reflexivity|]; rewrite map_map_missing; apply Forall2_map_r; intros a Ha; apply (replace_encodes x m Num a Ha)|].
    split; [intros K; exfalso; apply K; left; reflexivity|]. split; [intros _; rewrite <- L; apply numbering_distinct, Num|]. split; [discriminate|reflexivity].
  - destruct (text_dec st s_categorical) as [->|Nc].
    + cbn [parse_distargs] in H. destruct (parse_one float c) as [[c' k']|e0] eqn:Ep; cbn in H; [|discriminate]. injection H as <-. eexists. split; [reflexivity|]. cbn. repeat (split; [reflexivity|]). exists x. split; [exact Ex|].
      split; [intros _; split; [reflexivity|]; rewrite map_map_missing; apply Forall2_map_r; intros a Ha; apply (replace_encodes x m Num a Ha)|].
      split; [intros K; exfalso; apply K; right; reflexivity|]. split; [discriminate|]. split; [|congruence]. intros _ Hp. unfold parse_one in Ep. rewrite (search_none c Hp) in Ep. injection Ep as <- <-.
      exists (length m). split; [reflexivity|]. apply numbering_distinct, Num.
    + injection H as <-. eexists. split; [reflexivity|]. cbn. repeat (split; [reflexivity|]). exists x. split; [exact Ex|].
      split; [intros [K|K]; contradiction|]. split; [intros _; split; [reflexivity|]; rewrite map_map; apply Forall2_map_r; intros a _; apply raw_same|]. split; [contradiction|]. split; [contradiction|reflexivity].
Qed.
Lemma read_columns_spec frame schema : forall l, read_columns udec na sort float frame schema = Ok l -> Forall2 (entry_ok frame) (kept schema) l.
Proof.
  induction schema as [|[[c st] i] schema IH]; intros l H; cbn [read_columns] in H; [injection H as <-; constructor|].
  destruct (read_column udec na sort float frame (c, st, i)) as [r|e] eqn:E1; [|discriminate]. cbn [rbind] in H. destruct (read_columns udec na sort float frame schema) as [l'|e] eqn:E2; [|discriminate]. cbn [rbind] in H. injection H as <-.
  unfold kept. cbn [filter]. fold (kept schema). apply read_column_spec in E1. destruct E1 as [[-> ->]|[N [e [-> He]]]].
  - destruct (text_dec s_ignore s_ignore) as [_|K]; [apply IH; reflexivity|congruence].
  - destruct (text_dec st s_ignore) as [K|_]; [contradiction|]. constructor; [exact He|apply IH; reflexivity].
Qed.

Lemma valmaps_get l (G : text -> list (U * nat)) : forall m, (forall e f, In e l -> e_map e = Some f -> f = G (e_column e)) -> (forall c f, kget text_dec c m = Some f -> f = G c) ->
  forall c, kget text_dec c (valmaps l m) = (if existsb (fun e => match e_map e with Some _ => if text_dec (e_column e) c then true else false | None => false end) l then Some (G c) else kget text_dec c m).
Proof.
  induction l as [|e l IH]; intros m He Hm c; [reflexivity|]. cbn [valmaps existsb]. rewrite IH.
  - destruct (existsb _ l); [rewrite orb_true_r; reflexivity|]. rewrite orb_false_r. destruct (e_map e) as [f|] eqn:Ef; [|reflexivity]. rewrite kget_kset. destruct (text_dec c (e_column e)) as [->|N].
    + destruct (text_dec (e_column e) (e_column e)) as [_|K]; [|congruence]. f_equal. apply (He e f); [left; reflexivity|exact Ef].
    + destruct (text_dec (e_column e) c); [congruence|reflexivity].
  - intros e' f' Hin. apply He. right; exact Hin.
  - intros c' f' K. destruct (e_map e) as [f|] eqn:Ef; [|apply Hm, K]. rewrite kget_kset in K. destruct (text_dec c' (e_column e)) as [->|N]; [|apply Hm, K]. injection K as <-. apply (He e f); [left; reflexivity|exact Ef].
Qed.
Lemma Forall2_nth {A B} (R : A -> B -> Prop) l l' : Forall2 R l l' -> forall j a, nth_error l j = Some a -> exists b, nth_error l' j = Some b /\ R a b.
Proof. induction 1 as [|a b l l' H F2 IH]; intros [|j] x Hx; try discriminate; cbn in Hx; [injection Hx as <-; exists b; auto|apply IH, Hx]. Qed.
End Codes.

(** The codes of the values of a column number them from 0, whatever the order; in the order
    of the values when they are sorted. *)
Theorem C65_codes : forall U (udec : forall a b : U, {a = b} + {a <> b}) na sort, (forall l, Permutation l (sort l)) -> forall x : list (cell U),
  numbering na x (build_valmap udec sort (map (missing udec na) x)).
Proof. intros. apply valmap_numbering. assumption. Qed.
Print Assumptions C65_codes.

Theorem C65_sorted : forall U (udec : forall a b : U, {a = b} + {a <> b}) (lt : U -> U -> Prop) sort,
  (forall l : list (cell U), StronglySorted (fun a b => forall u v, a = Val u -> b = Val v -> u = v \/ lt u v) (sort l)) ->
  (forall l, Permutation l (sort l)) -> forall x u v j k,
  In (u, j) (build_valmap udec sort x) -> In (v, k) (build_valmap udec sort x) -> (j < k)%nat -> lt u v.
Proof.
  intros U udec lt sort Hs Hp x u v j k. unfold build_valmap. set (us := nonnull (sort (unique udec x))).
  assert (S : StronglySorted (fun u v => u = v \/ lt u v) us).
  { unfold us. specialize (Hs (unique udec x)). induction Hs as [|a l S IH Fa]; cbn; [constructor|]. destruct a as [|w]; [exact IH|]. constructor; [exact IH|].
    rewrite Forall_forall in Fa |- *. intros z Hz. apply nonnull_in in Hz. apply (Fa (Val z) Hz w z eq_refl eq_refl). }
  assert (N : NoDup us). { apply nonnull_NoDup, (Permutation_NoDup (Hp _)), unique_spec. }
  clearbody us. assert (G : forall n, In (u, j) (combine us (seq n (length us))) -> In (v, k) (combine us (seq n (length us))) -> (j < k)%nat -> lt u v).
  { induction us as [|w us IH]; intros n; cbn; [intros []|]. inversion S as [|? ? S' Fw]; subst. inversion N as [|? ? Nw N']; subst. rewrite Forall_forall in Fw.
    intros [E1|E1] [E2|E2] Hjk.
    - injection E1 as -> ->. injection E2 as -> ->. lia.
    - injection E1 as <- <-. assert (Hv : In v us) by (apply in_combine_l in E2; exact E2). destruct (Fw v Hv) as [->|L]; [contradiction|exact L].
    - injection E2 as <- <-. apply in_combine_r, in_seq in E1. lia.
    - apply (IH S' N' (Datatypes.S n) E1 E2 Hjk). }
  apply G.
Qed.
Print Assumptions C65_sorted.

(** A schema that is read gives for each column not ignored, in order, its name, index, class
    and data: the data themselves, or their codes by the numbering in valmap. *)
Theorem C65_schema : forall U F (udec : forall a b : U, {a = b} + {a <> b}) na sort (float : text -> option F), (forall l, Permutation l (sort l)) ->
  forall schema frame p, parse_schema udec na sort float schema frame = Ok p ->
  p_columns p = map (fun '(c, _, _) => c) (kept schema) /\ p_cctypes p = map (fun '(_, s, _) => s) (kept schema) /\ p_outputs p = map snd (kept schema) /\
  length (p_T p) = length (kept schema) /\ length (p_distargs p) = length (kept schema) /\
  forall j c s i, nth_error (kept schema) j = Some (c, s, i) -> exists x y k, kget text_dec c frame = Some x /\ nth_error (p_T p) j = Some y /\ nth_error (p_distargs p) j = Some k /\
    (discrete s -> exists m, kget text_dec c (p_valmap p) = Some m /\ numbering na x m /\ Forall2 (encodes na m) x y) /\
    (~ discrete s -> Forall2 (same na) x y) /\
    (s = s_bernoulli -> distinct na x 2) /\
    (s = s_categorical -> ~ In "("%char c -> exists n, k = Some n /\ distinct na x n) /\
    (s <> s_categorical -> k = None).
Proof.
  intros U F udec na sort float Hp schema frame p H. unfold parse_schema in H. destruct (read_columns udec na sort float frame schema) as [l|e] eqn:E; [|discriminate]. cbn [rbind] in H.
  apply (read_columns_spec udec na sort float Hp) in E. assert (H' : p = Parsed (map e_data l) (map e_index l) (map e_cctype l) (map e_k l) (valmaps l []) (map e_column l)) by (destruct l; congruence). clear H. subst p. cbn.
  assert (L : length (kept schema) = length l) by (clear - E; induction E; cbn; [reflexivity|f_equal; assumption]).
  assert (M1 : map e_column l = map (fun '(c, _, _) => c) (kept schema) /\ map e_cctype l = map (fun '(_, s, _) => s) (kept schema) /\ map e_index l = map snd (kept schema)).
  { clear L. induction E as [|[[c s] i] e ks l He E [I1 [I2 I3]]]; [auto|]. destruct He as [A [B [C _]]]. cbn. rewrite I1, I2, I3, A, B, C. auto. }
  destruct M1 as [M1 [M2 M3]]. split; [exact M1|]. split; [exact M2|]. split; [exact M3|]. rewrite !map_length. split; [auto|]. split; [auto|].
  intros j c s i Hj. destruct (Forall2_nth _ _ _ E j _ Hj) as [e [He Ee]]. pose proof Ee as [A [B [C [x [Hx [D1 [D2 [D3 [D4 D5]]]]]]]]].
  exists x, (e_data e), (e_k e). split; [exact Hx|]. split; [rewrite nth_error_map, He; reflexivity|]. split; [rewrite nth_error_map, He; reflexivity|].
  split; [|split; [intros K; apply D2, K|split; [exact D3|split; [exact D4|exact D5]]]].
  intros K. destruct (D1 K) as [D11 D12]. set (G := fun c => match kget text_dec c frame with Some x => build_valmap udec sort (map (missing udec na) x) | None => [] end).
  exists (G c). assert (Gc : G c = build_valmap udec sort (map (missing udec na) x)) by (unfold G; rewrite Hx; reflexivity). split; [|split; [rewrite Gc; apply valmap_numbering, Hp|rewrite Gc; exact D12]].
  rewrite (valmaps_get l G).
  - assert (Ex : existsb (fun e => match e_map e with Some _ => if text_dec (e_column e) c then true else false | None => false end) l = true).
    { apply existsb_exists. exists e. split; [apply (nth_error_In _ j), He|]. rewrite D11, A. destruct (text_dec c c); congruence. }
    rewrite Ex. reflexivity.
  - intros e' f Hin Hf. apply (In_nth_error) in Hin. destruct Hin as [j' Hj']. assert (Hk : exists s', nth_error (kept schema) j' = Some s').
    { destruct (nth_error (kept schema) j') as [s'|] eqn:Q; [eauto|]. apply nth_error_None in Q. assert (j' < length l)%nat by (apply nth_error_Some; congruence). lia. }
    destruct Hk as [[[c' s'] i'] Hk]. destruct (Forall2_nth _ _ _ E j' _ Hk) as [e2 [He2 Ok2]]. rewrite Hj' in He2. injection He2 as <-. destruct Ok2 as [A' [_ [_ [x' [Hx' [D1' [D2' _]]]]]]].
    rewrite A'. unfold G. rewrite Hx'. assert (Dec : discrete s' \/ ~ discrete s'). { unfold discrete. destruct (text_dec s' s_bernoulli), (text_dec s' s_categorical); tauto. }
    destruct Dec as [Y|Nn]; [destruct (D1' Y) as [Q _]; congruence|destruct (D2' Nn) as [Q _]; congruence].
  - intros c' f Q. discriminate.
Qed.
Print Assumptions C65_schema.

(** A schema is read when some column is kept, all kept columns are in the table, the binary
    ones have two values and the names of the categorical ones have no parenthesis. *)
Theorem C65_accepts : forall U F (udec : forall a b : U, {a = b} + {a <> b}) na sort (float : text -> option F), (forall l, Permutation l (sort l)) ->
  forall schema frame,
  (kept schema <> [] -> (forall c s i, In (c, s, i) (kept schema) -> exists x, kget text_dec c frame = Some x /\ (s = s_bernoulli -> distinct na x 2) /\ (s = s_categorical -> ~ In "("%char c)) ->
    exists p, parse_schema udec na sort float schema frame = Ok p) /\
  ((exists c s i, In (c, s, i) (kept schema) /\ (kget text_dec c frame = None \/ exists x, kget text_dec c frame = Some x /\ s = s_bernoulli /\ ~ distinct na x 2)) ->
    forall p, parse_schema udec na sort float schema frame <> Ok p).
Proof.
  intros U F udec na sort float Hp schema frame. split.
  - intros Hne H. unfold parse_schema. assert (R : exists l, read_columns udec na sort float frame schema = Ok l /\ length l = length (kept schema)).
    { clear Hne. induction schema as [|[[c s] i] schema IH]; [exists []; split; reflexivity|]. unfold kept in *. cbn [filter] in H |- *. cbn [read_columns]. fold (kept schema) in *. cbn [read_column].
      destruct (text_dec s s_ignore) as [->|N]; [destruct (IH H) as [l [-> L]]; exists l; split; [reflexivity|exact L]|].
      destruct IH as [l [El L]]; [intros c' s' i' Hin; apply (H c' s' i'); right; exact Hin|]. destruct (H c s i (or_introl eq_refl)) as [x [Hx [Hb Hc]]]. rewrite Hx.
      pose proof (valmap_numbering udec na sort Hp x) as Num. set (m := build_valmap udec sort (map (missing udec na) x)) in *.
      destruct (text_dec s s_bernoulli) as [->|Nb].
      - rewrite (distinct_fun na x (length m) 2 (numbering_distinct na x m Num) (Hb eq_refl)). cbn [Nat.eqb rbind]. rewrite El. cbn. eexists. split; [reflexivity|]. cbn. rewrite L. reflexivity.
      - destruct (text_dec s s_categorical) as [->|Nc].
        + cbn [parse_distargs]. unfold parse_one. rewrite (search_none c (Hc eq_refl)). cbn [rbind]. rewrite El. cbn. eexists. split; [reflexivity|]. cbn. rewrite L. reflexivity.
        + cbn [rbind]. rewrite El. cbn. eexists. split; [reflexivity|]. cbn. rewrite L. reflexivity. }
    destruct R as [l [-> L]]. cbn [rbind]. destruct l; [destruct (kept schema); [congruence|discriminate]|eauto].
  - intros [c [s [i [Hin Hbad]]]] p H. apply In_nth_error in Hin. destruct Hin as [j Hj].
    destruct (C65_schema U F udec na sort float Hp schema frame p H) as [_ [_ [_ [_ [_ Q]]]]]. destruct (Q j c s i Hj) as [x [y [k [Hx [_ [_ [_ [_ [D _]]]]]]]]].
    destruct Hbad as [E|[x' [E [Es Hd]]]]; [congruence|]. rewrite Hx in E. injection E as <-. apply Hd, D, Es.
Qed.
Print Assumptions C65_accepts.

(* ------------------------------------------------------------------ *)
(** ** Cases *)
From Coq Require String.
Import String.StringSyntax.
Delimit Scope string_scope with string.
Definition txt (s : String.string) : text := String.list_ascii_of_string s.
(** One digit. *)
Definition ex_float (t : text) : option nat := match t with [a] => if (48 <=? nat_of_ascii a)%nat && (nat_of_ascii a <=? 57)%nat then Some (nat_of_ascii a - 48)%nat else None | _ => None end.
Definition ex_items : list (text * option (list (text * text))) :=
  [(txt "normal", None); (txt "categorical", Some [(txt "k", txt "8")]); (txt "normal_trunc", Some [(txt "l", txt "0"); (txt "h", txt "5"); (txt "l", txt "1")])]%string.
Lemma word_txt t : existsb (fun a => existsb (Ascii.eqb a) special) t = false -> word t.
Proof.
  intros H. apply Forall_forall. intros a Ha K. assert (Q : existsb (fun a => existsb (Ascii.eqb a) special) t = true).
  { apply existsb_exists. exists a. split; [exact Ha|]. apply existsb_exists. exists a. split; [exact K|apply Ascii.eqb_refl]. }
  congruence.
Qed.
Lemma noparen_txt t : existsb (Ascii.eqb "("%char) t = false -> ~ In "("%char t.
Proof. intros H K. assert (Q : existsb (Ascii.eqb "("%char) t = true) by (apply existsb_exists; exists "("%char; split; [exact K|reflexivity]). congruence. Qed.
Example ex_parse : Forall (legible ex_float) ex_items /\
  parse_distargs ex_float [txt "normal"; txt "categorical(k=8)"; txt "normal_trunc(l=0,h=5,l=1)"]%string =
    Ok ([txt "normal"; txt "categorical"; txt "normal_trunc"]%string, [None; Some [(txt "k"%string, 8%nat)]; Some [(txt "l"%string, 1%nat); (txt "h"%string, 5%nat)]]).
Proof.
  assert (L : forall name args, existsb (Ascii.eqb "("%char) name = false -> args <> [] ->
    forallb (fun kv => negb (existsb (fun a => existsb (Ascii.eqb a) special) (fst kv)) && negb (existsb (fun a => existsb (Ascii.eqb a) special) (snd kv)) && match ex_float (snd kv) with Some _ => true | None => false end) args = true ->
    legible ex_float (name, Some args)).
  { intros name args H1 H2 H3. split; [apply noparen_txt, H1|]. cbn [snd]. intros args' [= <-]. split; [exact H2|]. intros k v Hin. rewrite forallb_forall in H3. specialize (H3 _ Hin). cbn [fst snd] in H3.
    apply andb_true_iff in H3. destruct H3 as [H3 H4]. apply andb_true_iff in H3. destruct H3 as [H3 H5]. apply negb_true_iff in H3, H5.
    split; [apply word_txt, H3|]. split; [apply word_txt, H5|]. destruct (ex_float v); [discriminate|discriminate]. }
  split; [|reflexivity]. unfold ex_items. constructor; [split; [apply noparen_txt; reflexivity|discriminate]|]. constructor; [apply L; [reflexivity|discriminate|reflexivity]|].
  constructor; [apply L; [reflexivity|discriminate|reflexivity]|constructor].
Qed.
Example ex_refuses : parse_distargs ex_float [txt "categorical(k)"]%string = Err ValueError /\ parse_distargs ex_float [txt "categorical(k=x)"]%string = Err ValueError /\
  parse_distargs ex_float [txt "categorical()"]%string = Err ValueError.
Proof. repeat split. Qed.

Definition ex_frame : list (text * list (cell nat)) :=
  [(txt "id", [Val 1; Val 2; Val 3]); (txt "age", [Val 30; Val 9; Val 7]); (txt "gender", [Val 5; Val 4; Val 5]); (txt "country", [Val 8; Null; Val 6])]%string%nat.
Definition ex_schema : list (text * text * Z) := [(txt "id", txt "ignore", 0%Z); (txt "age", txt "normal", 3%Z); (txt "gender", txt "bernoulli", 1%Z); (txt "country", txt "categorical", 2%Z)]%string.
(** 9 is 'NA'; the values are left in the order in which they come. *)
Definition ex_read := parse_schema Nat.eq_dec 9%nat (fun l => l) ex_float.
Example ex_schema_read : ex_read ex_schema ex_frame = Ok (Parsed
  [[Raw (Val 30); Raw Null; Raw (Val 7)]; [Code 0; Code 1; Code 0]; [Code 0; Raw Null; Code 1]]%nat [3; 1; 2]%Z [txt "normal"; txt "bernoulli"; txt "categorical"]%string [None; None; Some 2%nat]
  [(txt "gender"%string, [(5, 0); (4, 1)]%nat); (txt "country"%string, [(8, 0); (6, 1)]%nat)] [txt "age"; txt "gender"; txt "country"]%string).
Proof. reflexivity. Qed.
(** Sorting by insertion, missing values first. *)
Fixpoint ins (x : cell nat) (l : list (cell nat)) : list (cell nat) :=
  match l with
  | [] => [x]
  | y :: l' => match x, y with Null, _ => x :: l | Val _, Null => y :: ins x l' | Val a, Val b => if (a <=? b)%nat then x :: l else y :: ins x l' end
  end.
Definition ex_sort (l : list (cell nat)) : list (cell nat) := fold_right ins [] l.
Lemma ins_perm x l : Permutation (x :: l) (ins x l).
Proof.
  induction l as [|y l IH]; [reflexivity|]. cbn. destruct x as [|a]; [reflexivity|]. destruct y as [|b]; [|destruct (a <=? b)%nat; [reflexivity|]]; (etransitivity; [apply perm_swap|constructor; exact IH]).
Qed.
Definition cell_le (a b : cell nat) : Prop := forall u v, a = Val u -> b = Val v -> u = v \/ (u < v)%nat.
Definition lower (a b : cell nat) : Prop := match a, b with Null, _ => True | Val _, Null => False | Val u, Val v => (u <= v)%nat end.
Lemma ins_sorted x l : StronglySorted lower l -> StronglySorted lower (ins x l).
Proof.
  induction 1 as [|y l S IH Fy]; [repeat constructor|]. cbn.
  assert (Hin : forall z, In z (ins x l) -> z = x \/ In z l). { intros z Hz. apply (Permutation_in _ (Permutation_sym (ins_perm x l))) in Hz. destruct Hz; auto. }
  rewrite Forall_forall in Fy. destruct x as [|a].
  - constructor; [constructor; [exact S|apply Forall_forall; exact Fy]|]. apply Forall_forall. intros z _. exact I.
  - destruct y as [|b].
    + constructor; [exact IH|]. apply Forall_forall. intros z _. exact I.
    + destruct (Nat.leb_spec a b) as [L|L].
      * constructor; [constructor; [exact S|apply Forall_forall; exact Fy]|]. constructor; [exact L|]. apply Forall_forall. intros z Hz. specialize (Fy z Hz). destruct z; cbn in *; [exact Fy|lia].
      * constructor; [exact IH|]. apply Forall_forall. intros z Hz. destruct (Hin z Hz) as [->|K]; [cbn; lia|apply Fy, K].
Qed.
Example ex_sort_sorts : (forall l, Permutation l (ex_sort l)) /\ (forall l, StronglySorted cell_le (ex_sort l)).
Proof.
  split; intros l.
  - induction l as [|x l IH]; [reflexivity|]. cbn. etransitivity; [constructor; exact IH|apply ins_perm].
  - assert (S : StronglySorted lower (ex_sort l)) by (induction l as [|x l IH]; [constructor|apply ins_sorted, IH]).
    induction S as [|a l' S IH Fa]; constructor; [exact IH|]. eapply Forall_impl; [|exact Fa]. intros b Hb u v -> ->. cbn in Hb. lia.
Qed.
Example ex_codes_sorted : build_valmap Nat.eq_dec ex_sort [Val 8; Null; Val 6; Val 8]%nat = [(6, 0); (8, 1)]%nat.
Proof. reflexivity. Qed.

(** "For categorical datatypes, it is permitted to specify the number of components": the column
    is then not coded, has no argument, and its class is the whole text. *)
Theorem C65_k_refuted : exists frame p,
  ex_read [(txt "country", txt "categorical(k=2)", 0%Z)]%string frame = Ok p /\ p_cctypes p <> [txt "categorical"%string] /\ p_distargs p = [None] /\ p_valmap p = [] /\ p_T p = [[Raw (Val 8); Raw (Val 6)]]%nat.
Proof. exists [(txt "country"%string, [Val 8; Val 6]%nat)]. eexists. split; [reflexivity|]. split; [discriminate|repeat split]. Qed.
Print Assumptions C65_k_refuted.

(** "Columns may have any name": parentheses in the name of a categorical column are read as
    arguments, so that the number of categories is lost, or the schema is refused. *)
Theorem C65_name_refuted : exists x : list (cell nat),
  (exists p, ex_read [(txt "x(k=3)", txt "categorical", 0%Z)]%string [(txt "x(k=3)"%string, x)] = Ok p /\ p_distargs p = [None]) /\
  ex_read [(txt "size (m)", txt "categorical", 0%Z)]%string [(txt "size (m)"%string, x)] = Err ValueError /\
  (exists p, ex_read [(txt "size", txt "categorical", 0%Z)]%string [(txt "size"%string, x)] = Ok p /\ p_distargs p = [Some 2%nat]).
Proof. exists [Val 8; Val 6]%nat. split; [eexists; split; reflexivity|]. split; [reflexivity|]. eexists. split; reflexivity. Qed.
Print Assumptions C65_name_refuted.

(** A schema that keeps no column raises IndexError. *)
Theorem C65_empty : forall U F udec (na : U) sort (float : text -> option F) schema frame, kept schema = [] -> parse_schema udec na sort float schema frame = Err IndexError.
Proof.
  intros U F udec na sort float schema frame H. unfold parse_schema. assert (E : read_columns udec na sort float frame schema = Ok []); [|rewrite E; reflexivity].
  induction schema as [|[[c s] i] schema IH]; [reflexivity|]. unfold kept in H. cbn [filter] in H. cbn [read_columns read_column]. destruct (text_dec s s_ignore); [|discriminate]. cbn [rbind]. rewrite (IH H). reflexivity.
Qed.
Print Assumptions C65_empty.

(** Arguments do not extend over lines: if a line ends between every opening parenthesis and
    every later closing one, there are none. *)
Lemma greedy_inv t : forall w, greedy t = Some w -> (exists c, t = w ++ ")"%char :: c) /\ ~ In newline w.
Proof.
  induction t as [|a t IH]; intros w H; [discriminate|]. cbn [greedy] in H. destruct (Ascii.eqb_spec a newline) as [->|N]; [discriminate|].
  destruct (greedy t) as [w'|].
  - injection H as <-. destruct (IH w' eq_refl) as [[c ->] Hn]. split; [exists c; reflexivity|]. intros [->|K]; [congruence|exact (Hn K)].
  - destruct (Ascii.eqb_spec a rpar) as [->|N']; [|discriminate]. injection H as <-. split; [exists t; reflexivity|intros []].
Qed.
Theorem C65_lines : forall F (float : text -> option F) t, (forall a b c, t = a ++ "("%char :: b ++ ")"%char :: c -> In newline b) ->
  parse_distargs float [t] = Ok ([t], [None]).
Proof.
  intros F float t H. assert (E : search t = None).
  { induction t as [|a t IH]; [reflexivity|]. assert (Ht : search t = None) by (apply IH; intros x b c ->; apply (H (a :: x) b c); reflexivity). cbn [search].
    destruct (Ascii.eqb_spec a lpar) as [->|N]; [|exact Ht]. destruct (greedy t) as [w|] eqn:G; [|exact Ht]. destruct (greedy_inv t w G) as [[c ->] Hn]. exfalso. apply Hn, (H [] w c). reflexivity. }
  cbn [parse_distargs]. unfold parse_one. rewrite E. reflexivity.
Qed.
Print Assumptions C65_lines.
Example ex_lines : parse_distargs ex_float [txt "normal(k=" ++ newline :: txt "2)"]%string = Ok ([txt "normal(k=" ++ newline :: txt "2)"]%string, [None]).
Proof. reflexivity. Qed.
