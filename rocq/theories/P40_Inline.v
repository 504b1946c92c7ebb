(** C64: an inline Venturescript cgpm counts the arguments of its expression, and answers with
    the expression applied to its inputs in order. *)
From Coq Require Import Ascii.
From Verif Require Import VsInline BaseFacts.

(* ------------------------------------------------------------------ *)
(** ** Specification *)
Definition blank (a : ascii) : Prop := In (nat_of_ascii a) [9; 10; 11; 12; 13; 32]%nat \/ (128 <= nat_of_ascii a)%nat.
(** [e] is [core] with blanks put anywhere. *)
Inductive spread : text -> text -> Prop :=
| spread_nil : spread [] []
| spread_keep a e core : ~ blank a -> spread e core -> spread (a :: e) (a :: core)
| spread_skip a e core : blank a -> spread e core -> spread (a :: e) core.
(** Characters of a name. *)
Definition letter (a : ascii) : Prop := ~ blank a /\ ~ In a [","; "("; ")"; "~"]%char.
Definition name (t : text) : Prop := t <> [] /\ Forall letter t.
(** Texts with commas between. *)
Definition commas (l : list text) : text :=
  match l with [] => [] | t :: l' => fold_left (fun acc u => acc ++ ","%char :: u) l' t end.
(** "(a,b,c)~>body". *)
Definition lambda (names : list text) (body : text) : text := "("%char :: commas names ++ [")"; "~"; ">"]%char ++ body.

Section Answers.
Context {V D : Type} (show : V -> text) (density : text -> text -> V -> option D) (sample : text -> text -> nat -> option V).
Definition idle (c : inl) : Prop := i_live c = [] /\ exists o, i_out c = [o].
(** The inputs are given, all and no other. *)
Definition exactly (names : list Z) (inputs : dict V) : Prop := forall i, In i names <-> In i (dkeys inputs).
(** The text of the arguments. *)
Definition applied (c : inl) (inputs : dict V) (args : text) : Prop :=
  exists xs, Forall2 (fun i v => dget i inputs = Some v) (i_in c) xs /\ args = commas (map show xs).
Definition jammed (c : inl) (l : label) (n : nat) : inl := Inl (i_out c) (i_in c) (i_expr c) [l] n.
Definition counted (c : inl) (n : nat) : inl := Inl (i_out c) (i_in c) (i_expr c) (i_live c) n.
Definition none {A} (d : option (dict A)) : Prop := d = None \/ d = Some [].
End Answers.

(* ------------------------------------------------------------------ *)
(** ** Texts *)
Lemma blank_spec a : is_ascii a && negb (is_space a) = true <-> ~ blank a.
Proof.
  unfold is_ascii, is_space, blank. rewrite andb_true_iff, Nat.ltb_lt, negb_true_iff, orb_false_iff, andb_false_iff, Nat.leb_gt, Nat.leb_gt, Nat.eqb_neq. cbn [In].
  lia.
Qed.
Lemma strip_spread e core : spread e core -> strip e = core.
Proof.
  unfold strip. induction 1 as [|a e core H S IH|a e core H S IH]; cbn [filter]; [reflexivity| |].
  - rewrite (proj2 (blank_spec a) H), IH. reflexivity.
  - destruct (is_ascii a && negb (is_space a)) eqn:E; [apply blank_spec in E; contradiction|exact IH].
Qed.
Lemma commas_join l : commas l = join l.
Proof.
  destruct l as [|t l]; [reflexivity|]. cbn [commas]. revert t. induction l as [|u l IH]; intros t; [reflexivity|]. cbn [fold_left]. rewrite IH.
  cbn [join]. destruct l; cbn; rewrite <- ?app_assoc; reflexivity.
Qed.
Definition notilde (a : ascii) : Prop := a <> "~"%char.
Lemma before_arrow_app t body : Forall notilde t -> before_arrow (t ++ ["~"; ">"]%char ++ body) = t.
Proof.
  induction t as [|a t IH]; intros H; [reflexivity|]. inversion H as [|? ? Ha Ht]; subst. specialize (IH Ht).
  assert (E : before_arrow (a :: (t ++ ["~"; ">"]%char ++ body)) = a :: before_arrow (t ++ ["~"; ">"]%char ++ body)).
  { cbn [before_arrow]. destruct (t ++ ["~"; ">"]%char ++ body) as [|b rest] eqn:Et; [destruct t; discriminate|].
    destruct (Ascii.eqb_spec a tilde) as [->|N]; [exfalso; apply Ha; reflexivity|]. reflexivity. }
  rewrite <- app_comm_cons, E, IH. reflexivity.
Qed.
Definition nocomma (a : ascii) : Prop := a <> ","%char.
Lemma split_one t : Forall nocomma t -> split_comma t = [t].
Proof.
  induction t as [|a t IH]; intros H; [reflexivity|]. inversion H as [|? ? Ha Ht]; subst. cbn. destruct (Ascii.eqb_spec a comma) as [->|N]; [exfalso; apply Ha; reflexivity|].
  rewrite IH by exact Ht. reflexivity.
Qed.
Lemma split_cons t u : Forall nocomma t -> split_comma (t ++ comma :: u) = t :: split_comma u.
Proof.
  induction t as [|a t IH]; intros H; [reflexivity|]. inversion H as [|? ? Ha Ht]; subst. cbn [app split_comma]. destruct (Ascii.eqb_spec a comma) as [->|N]; [exfalso; apply Ha; reflexivity|].
  rewrite IH by exact Ht. reflexivity.
Qed.
Lemma split_join l : l <> [] -> Forall (Forall nocomma) l -> split_comma (join l) = l.
Proof.
  induction l as [|t l IH]; intros Hne H; [congruence|]. inversion H as [|? ? Ht Hl]; subst. destruct l as [|u l].
  - apply split_one, Ht.
  - change (join (t :: u :: l)) with (t ++ comma :: join (u :: l)). rewrite split_cons by exact Ht. rewrite IH by (congruence || exact Hl). reflexivity.
Qed.
Lemma name_parts l : Forall name l -> Forall (Forall nocomma) l /\ Forall notilde (join l) /\
  Forall (fun a => a <> "("%char /\ a <> ")"%char) (join l) /\ Forall (fun a => ~ blank a) (join l) /\ filter nonempty l = l.
Proof.
  assert (Hc : ~ blank ","%char) by (unfold blank; cbn; lia).
  induction l as [|t l IH]; intros H; [repeat split; constructor|]. inversion H as [|? ? [Hne Ht] Hl]; subst. destruct (IH Hl) as [I1 [I2 [I3 [I4 I5]]]].
  assert (Q : Forall nocomma t /\ Forall notilde t /\ Forall (fun a => a <> "("%char /\ a <> ")"%char) t /\ Forall (fun a => ~ blank a) t).
  { repeat split; eapply Forall_impl; try exact Ht; intros a [A1 A2]; cbn in A2; unfold nocomma, notilde; try (split; intros ->; apply A2; auto 6); try (intros ->; apply A2; auto 6); exact A1. }
  destruct Q as [Q1 [Q2 [Q3 Q4]]]. split; [constructor; assumption|].
  assert (J : join (t :: l) = match l with [] => t | _ => t ++ comma :: join l end) by (destruct l; reflexivity). rewrite J.
  split; [destruct l; [exact Q2|apply Forall_app; split; [exact Q2|constructor; [discriminate|exact I2]]]|].
  split; [destruct l; [exact Q3|apply Forall_app; split; [exact Q3|constructor; [split; discriminate|exact I3]]]|].
  split; [destruct l; [exact Q4|apply Forall_app; split; [exact Q4|constructor; [exact Hc|exact I4]]]|].
  cbn. destruct t; [congruence|]. cbn. rewrite I5. reflexivity.
Qed.
Lemma filter_id {A} (f : A -> bool) l : (forall x, In x l -> f x = true) -> filter f l = l.
Proof. induction l as [|a l IH]; intros H; [reflexivity|]. cbn. rewrite (H a (or_introl eq_refl)). f_equal. apply IH. intros x Hx. apply H. right; exact Hx. Qed.

(** The arguments of an expression "(a,b,c) ~> body", spaced in any way, are its names. *)
Theorem C64_arguments : forall names body e, Forall name names -> spread e (lambda names body) -> arguments e = names.
Proof.
  intros names body e H S. unfold arguments. rewrite (strip_spread _ _ S). unfold lambda. rewrite commas_join.
  destruct (name_parts names H) as [I1 [I2 [I3 [I4 I5]]]].
  change ("("%char :: join names ++ [")"; "~"; ">"]%char ++ body) with (("("%char :: join names) ++ [")"; "~"; ">"]%char ++ body).
  replace (("("%char :: join names) ++ [")"; "~"; ">"]%char ++ body) with (("("%char :: join names ++ [")"%char]) ++ ["~"; ">"]%char ++ body) by (cbn; rewrite <- app_assoc; reflexivity).
  rewrite before_arrow_app by (constructor; [discriminate|apply Forall_app; split; [exact I2|repeat constructor; discriminate]]).
  change ("("%char :: join names ++ [")"%char]) with (["("%char] ++ join names ++ [")"%char]). rewrite !filter_app.
  assert (E : filter (fun a => negb (Ascii.eqb a lpar || Ascii.eqb a rpar)) (join names) = join names).
  { apply filter_id. intros a Ha. rewrite Forall_forall in I3. destruct (I3 a Ha) as [A1 A2]. apply negb_true_iff, orb_false_iff. split; apply Ascii.eqb_neq; assumption. }
  rewrite E. cbn [filter Ascii.eqb lpar rpar Bool.eqb orb negb app]. change (negb _) with false. change (negb (_ || _)) with false. cbn [app]. rewrite app_nil_r. destruct names as [|t names]; [reflexivity|]. rewrite split_join by (discriminate || exact I1). exact I5.
Qed.
Print Assumptions C64_arguments.

Lemma iunique_spec l : iunique l = true <-> NoDup l.
Proof.
  unfold iunique. rewrite Nat.eqb_eq. split.
  - intros E. assert (K : forall l', incl l' l' -> (length (nodup Z.eq_dec l') <= length l')%nat /\ (length (nodup Z.eq_dec l') = length l' -> NoDup l')).
    { clear. intros l' _. induction l' as [|a l' [IH1 IH2]]; cbn; [split; [lia|constructor]|]. destruct (in_dec Z.eq_dec a l'); cbn; split; try lia. intros Q. constructor; [assumption|apply IH2; lia]. }
    apply (K l (incl_refl l)), E.
  - intros H. rewrite nodup_fixed_point by exact H. reflexivity.
Qed.

(** The cgpm is made when there is one output, the inputs are distinct from it and from each
    other, and the expression has as many arguments as there are inputs. *)
Theorem C64_init : forall outs ins e names body, Forall name names -> spread e (lambda names body) ->
  ((exists o, outs = [o] /\ ~ In o ins) /\ NoDup ins -> length names = length ins -> inl_new outs ins (Some e) = Ok (Inl outs ins e [] 0)) /\
  ((exists o, outs = [o] /\ ~ In o ins) /\ NoDup ins -> length names <> length ins -> inl_new outs ins (Some e) = Err AssertionError) /\
  (~ ((exists o, outs = [o] /\ ~ In o ins) /\ NoDup ins) -> inl_new outs ins (Some e) = Err ValueError) /\
  inl_new outs ins None = Err ValueError.
Proof.
  intros outs ins e names body Hn S. pose proof (C64_arguments names body e Hn S) as Ea. unfold inl_new. rewrite Ea.
  destruct (Nat.eqb_spec (length outs) 1) as [E1|E1]; cbn [negb].
  2: { assert (K : ~ ((exists o, outs = [o] /\ ~ In o ins) /\ NoDup ins)) by (intros [[o [-> _]] _]; apply E1; reflexivity). repeat split; tauto. }
  destruct (iunique ins) eqn:E2; cbn [negb].
  2: { assert (K : ~ ((exists o, outs = [o] /\ ~ In o ins) /\ NoDup ins)) by (intros [_ K]; apply iunique_spec in K; congruence). repeat split; tauto. }
  apply iunique_spec in E2. destruct outs as [|o [|? ?]]; try discriminate. cbn [forallb]. rewrite andb_true_r.
  destruct (zmem o ins) eqn:E3; cbn [negb].
  { assert (K : ~ ((exists o', [o] = [o'] /\ ~ In o' ins) /\ NoDup ins)) by (intros [[o' [[= <-] K]] _]; apply zmem_in in E3; contradiction). repeat split; tauto. }
  rewrite (proj2 (forallb_forall _ ins)).
  2: { intros i Hi. apply negb_true_iff, zmem_false. intros [->|[]]. apply zmem_false in E3. contradiction. }
  cbn [negb]. apply zmem_false in E3. assert (K : (exists o', [o] = [o'] /\ ~ In o' ins) /\ NoDup ins) by (split; [exists o; auto|exact E2]).
  destruct (Nat.eqb_spec (length names) (length ins)) as [E4|E4]; repeat split; intros; try reflexivity; tauto.
Qed.
Print Assumptions C64_init.

(* ------------------------------------------------------------------ *)
(** ** Queries *)
Section Queries.
Context {V D : Type} (show : V -> text) (density : text -> text -> V -> option D) (sample : text -> text -> nat -> option V).

Lemma iset_eq_spec a b : iset_eq a b = true <-> forall i, In i a <-> In i b.
Proof.
  unfold iset_eq. rewrite andb_true_iff, !forallb_forall. split.
  - intros [H1 H2] i. split; intros Hi; [apply zmem_in, H1, Hi|apply zmem_in, H2, Hi].
  - intros H. split; intros i Hi; apply zmem_in, H, Hi.
Qed.
Lemma values_spec names (inputs : dict V) : exactly names inputs -> exists xs, values names inputs = Ok xs /\ Forall2 (fun i v => dget i inputs = Some v) names xs.
Proof.
  intros H. assert (K : forall i, In i names -> In i (dkeys inputs)) by (intros i Hi; apply H, Hi). clear H.
  induction names as [|i names IH]; [exists []; split; [reflexivity|constructor]|]. destruct (in_dkeys_Some i inputs (K i (or_introl eq_refl))) as [v Hv].
  destruct IH as [xs [E F]]; [intros j Hj; apply K; right; exact Hj|]. exists (v :: xs). cbn. rewrite Hv, E. split; [reflexivity|constructor; assumption].
Qed.
Definition opt {A} (d : option (dict A)) : dict A := match d with Some d => d | None => [] end.

Lemma none_plain {A} (d : option (dict A)) : plain d = true <-> none d.
Proof. unfold none. destruct d as [[|? ?]|]; cbn; split; auto; try discriminate; intros [K|K]; discriminate. Qed.

(** logpdf of a value. *)
Lemma logpdf_ok c o v constraints inputs : i_live c = [] -> i_out c = [o] -> none constraints -> exactly (i_in c) (opt inputs) ->
  exists args, applied show c (opt inputs) args /\
    inl_logpdf show density c [(o, v)] constraints inputs =
      match density (i_expr c) args v with Some d => (c, Ok d) | None => (jammed c ExprAssume (i_drawn c), Err RuntimeError) end.
Proof.
  intros Hl Ho Hc Hi. destruct (values_spec _ _ Hi) as [xs [E F]]. exists (commas (map show xs)). split; [exists xs; auto|].
  unfold inl_logpdf. fold (opt inputs). rewrite (proj2 (iset_eq_spec _ _)) by (intros i; symmetry; apply Hi). cbn [negb]. rewrite Ho. cbn [dkeys map fst].
  destruct (list_eq_dec Z.eq_dec [o] [o]) as [_|N]; [|congruence]. cbn [negb]. rewrite (proj2 (none_plain constraints) Hc). cbn [negb].
  unfold assume. rewrite Hl. cbn [existsb app andthen]. unfold retrieve_args, set_live. cbn [i_in i_out i_expr i_live i_drawn]. rewrite E. cbn [rbind]. rewrite Ho. cbn [dget]. rewrite Z.eqb_refl.
  unfold observe. cbn [i_live i_expr existsb label_eqb orb]. rewrite commas_join. destruct (density (i_expr c) (join (map show xs)) v) as [d|]; [|unfold jammed; rewrite Ho; reflexivity].
  cbn. destruct c as [outs ins ex live n]; cbn in *; subst; reflexivity.
Qed.
Lemma simulate_ok c o constraints inputs : i_live c = [] -> i_out c = [o] -> none constraints -> exactly (i_in c) (opt inputs) ->
  exists args, applied show c (opt inputs) args /\
    inl_simulate1 show sample c [o] constraints inputs =
      match sample (i_expr c) args (i_drawn c) with Some v => (counted c (S (i_drawn c)), Ok [(o, v)]) | None => (jammed c Expr (S (i_drawn c)), Err RuntimeError) end.
Proof.
  intros Hl Ho Hc Hi. destruct (values_spec _ _ Hi) as [xs [E F]]. exists (commas (map show xs)). split; [exists xs; auto|].
  unfold inl_simulate1. fold (opt inputs). rewrite (proj2 (iset_eq_spec _ _)) by (intros i; symmetry; apply Hi). cbn [negb]. rewrite Ho.
  destruct (list_eq_dec Z.eq_dec [o] [o]) as [_|N]; [|congruence]. cbn [negb]. rewrite (proj2 (none_plain constraints) Hc). cbn [negb].
  unfold assume. rewrite Hl. cbn [existsb app andthen]. unfold retrieve_args, set_live. cbn [i_in i_out i_expr i_live i_drawn]. rewrite E. cbn [rbind]. rewrite Ho.
  unfold rsample. cbn [i_out i_in i_live i_expr i_drawn]. rewrite commas_join. destruct (sample (i_expr c) (join (map show xs)) (i_drawn c)) as [d|]; [|unfold jammed; rewrite Ho; reflexivity].
  cbn. destruct c as [outs ins ex live n]; cbn in *; subst; reflexivity.
Qed.
Lemma applied_fun c inputs a b : applied (V := V) show c inputs a -> applied show c inputs b -> a = b.
Proof.
  intros [xs [H1 ->]] [ys [H2 ->]]. f_equal. f_equal. revert ys H2. induction H1; intros ys H2; inversion H2; subst; [reflexivity|]. f_equal; [congruence|]. apply IHForall2. assumption.
Qed.
End Queries.

(** A density query answers with the density of the expression applied to the inputs, in the
    order of the cgpm, and leaves nothing behind unless Venture raises. *)
Theorem C64_logpdf_partial : forall V D show (density : text -> text -> V -> option D) c o targets constraints inputs,
  i_live c = [] -> i_out c = [o] ->
  (none constraints /\ exactly (i_in c) (opt inputs) /\ dkeys targets = [o] ->
    exists args v, applied show c (opt inputs) args /\ targets = [(o, v)] /\
      (forall d, density (i_expr c) args v = Some d -> inl_logpdf show density c targets constraints inputs = (c, Ok d)) /\
      (density (i_expr c) args v = None -> inl_logpdf show density c targets constraints inputs = (jammed c ExprAssume (i_drawn c), Err RuntimeError))) /\
  (~ (none constraints /\ exactly (i_in c) (opt inputs) /\ dkeys targets = [o]) ->
    inl_logpdf show density c targets constraints inputs = (c, Err AssertionError)).
Proof.
  intros V D show density c o targets constraints inputs Hl Ho. split.
  - intros [Hc [Hi Ht]]. destruct targets as [|[o' v] [|? ?]]; try discriminate. injection Ht as ->.
    destruct (logpdf_ok show density c o v constraints inputs Hl Ho Hc Hi) as [args [Ha E]]. exists args, v. split; [exact Ha|]. split; [reflexivity|].
    rewrite E. split; [intros d ->; reflexivity|intros ->; reflexivity].
  - intros H. unfold inl_logpdf. fold (opt inputs). destruct (iset_eq (dkeys (opt inputs)) (i_in c)) eqn:E1; [|reflexivity]. cbn [negb].
    destruct (list_eq_dec Z.eq_dec (dkeys targets) (i_out c)) as [E2|E2]; [|reflexivity]. cbn [negb].
    destruct (plain constraints) eqn:E3; [|reflexivity]. exfalso. apply H. split; [apply none_plain, E3|]. split; [|congruence].
    intros i. symmetry. apply iset_eq_spec. exact E1.
Qed.
Print Assumptions C64_logpdf_partial.

(** N samples are N draws of the expression applied to the inputs. *)
Theorem C64_simulate_partial : forall V show (sample : text -> text -> nat -> option V) c o targets constraints inputs,
  i_live c = [] -> i_out c = [o] ->
  (none constraints /\ exactly (i_in c) (opt inputs) /\ targets = [o] -> exists args, applied show c (opt inputs) args /\
    (forall vs, (forall k v, nth_error vs k = Some v -> sample (i_expr c) args (i_drawn c + k)%nat = Some v) ->
      inl_many show sample c targets constraints inputs (length vs) = (counted c (i_drawn c + length vs), Ok (map (fun v => [(o, v)]) vs))) /\
    (sample (i_expr c) args (i_drawn c) = None -> inl_simulate1 show sample c targets constraints inputs = (jammed c Expr (S (i_drawn c)), Err RuntimeError))) /\
  (~ (none constraints /\ exactly (i_in c) (opt inputs) /\ targets = [o]) ->
    inl_simulate1 show sample c targets constraints inputs = (c, Err AssertionError)).
Proof.
  intros V show sample c o targets constraints inputs Hl Ho. split.
  - intros [Hc [Hi ->]]. destruct (simulate_ok show sample c o constraints inputs Hl Ho Hc Hi) as [args [Ha E]]. exists args. split; [exact Ha|]. split; [|intros K; rewrite E, K; reflexivity].
    intros vs. revert c Hl Ho Hi Ha E. induction vs as [|v vs IH]; intros c Hl Ho Hi Ha E Hs.
    + cbn. rewrite Nat.add_0_r. destruct c; reflexivity.
    + cbn [length inl_many]. rewrite E. assert (E0 : sample (i_expr c) args (i_drawn c) = Some v) by (rewrite <- (Hs 0%nat v eq_refl); f_equal; lia). rewrite E0. cbn [andthen].
      destruct (simulate_ok show sample (counted c (S (i_drawn c))) o constraints inputs Hl Ho Hc Hi) as [args' [Ha' E']].
      assert (args' = args) as -> by (apply (applied_fun show c (opt inputs)); [exact Ha'|exact Ha]).
      rewrite (IH (counted c (S (i_drawn c))) Hl Ho Hi Ha' E').
      * cbn [andthen map]. unfold counted. cbn. f_equal. f_equal. lia.
      * intros k u Hk. cbn. rewrite <- (Hs (S k) u Hk). f_equal. lia.
  - intros H. unfold inl_simulate1. fold (opt inputs). destruct (iset_eq (dkeys (opt inputs)) (i_in c)) eqn:E1; [|reflexivity]. cbn [negb].
    destruct (list_eq_dec Z.eq_dec targets (i_out c)) as [E2|E2]; [|reflexivity]. cbn [negb].
    destruct (plain constraints) eqn:E3; [|reflexivity]. exfalso. apply H. split; [apply none_plain, E3|]. split; [|congruence].
    intros i. symmetry. apply iset_eq_spec. exact E1.
Qed.
Print Assumptions C64_simulate_partial.

(** Once Venture has raised in the middle of a query, no query is answered any more. *)
Inductive iop (V : Type) : Type := ILog (targets : dict V) (constraints inputs : option (dict V)) | ISim (targets : list Z) (constraints inputs : option (dict V)) (n : nat).
Arguments ILog {V}. Arguments ISim {V}.
(** A query, and whether anything is answered (no sample is none). *)
Definition istep {V D} show density sample (c : inl) (o : iop V) : inl * bool :=
  match o with
  | ILog t k i => let '(c', r) := inl_logpdf (V := V) (D := D) show density c t k i in (c', match r with Ok _ => true | Err _ => false end)
  | ISim t k i n => let '(c', r) := inl_many show sample c t k i n in (c', match r with Ok [] => false | Ok _ => true | Err _ => false end)
  end.
Fixpoint irun {V D} show density sample (c : inl) (ops : list (iop V)) : inl * list bool :=
  match ops with
  | [] => (c, [])
  | o :: ops' => let '(c', b) := istep (D := D) show density sample c o in let '(c'', bs) := irun (D := D) show density sample c' ops' in (c'', b :: bs)
  end.
Theorem C64_stuck : forall V D show (density : text -> text -> V -> option D) sample c l n ops, l = ExprAssume \/ l = Expr ->
  irun (D := D) show density sample (jammed c l n) ops = (jammed c l n, map (fun _ => false) ops).
Proof.
  intros V D show density sample c l n ops Hl. induction ops as [|o ops IH]; [reflexivity|]. cbn [irun].
  assert (As : forall l', assume (jammed c l n) l' = (jammed c l n, Err RuntimeError)).
  { intros l'. unfold assume, jammed. cbn. destruct Hl as [-> | ->]; cbn; rewrite ?orb_true_r; reflexivity. }
  assert (Es : istep (D := D) show density sample (jammed c l n) o = (jammed c l n, false)).
  { destruct o as [t k i|t k i m]; cbn [istep].
    - unfold inl_logpdf. destruct (negb (iset_eq _ _)); [reflexivity|]. destruct (negb _); [reflexivity|]. destruct (negb _); [reflexivity|]. rewrite As. reflexivity.
    - destruct m as [|m]; [reflexivity|]. cbn [inl_many].
      assert (E1 : exists e, inl_simulate1 show sample (jammed c l n) t k i = (jammed c l n, Err e)).
      { unfold inl_simulate1. destruct (negb (iset_eq _ _)); [eauto|]. destruct (negb _); [eauto|]. destruct (negb _); [eauto|]. rewrite As. cbn. eauto. }
      destruct E1 as [e ->]. reflexivity. }
  rewrite Es, IH. reflexivity.
Qed.
Print Assumptions C64_stuck.

(** A query of the right form. *)
Definition asked {V} (c : inl) (q : iop V) : Prop :=
  match q with
  | ILog t k i => none k /\ exactly (i_in c) (opt i) /\ dkeys t = i_out c
  | ISim t k i n => none k /\ exactly (i_in c) (opt i) /\ t = i_out c /\ n <> 0%nat
  end.
(** As long as Venture does not raise, the queries of the right form are answered, the others
    are refused, and neither changes the cgpm but for its count of draws. *)
Theorem C64_history_partial : forall V D show (density : text -> text -> V -> option D) sample ops c o,
  (forall e a v, density e a v <> None) -> (forall e a k, sample e a k <> None) -> i_live c = [] -> i_out c = [o] ->
  (exists n, fst (irun show density sample c ops) = counted c n) /\
  Forall2 (fun q b => b = true <-> asked c q) ops (snd (irun show density sample c ops)).
Proof.
  intros V D show density sample ops. induction ops as [|q ops IH]; intros c o Hd Hs Hl Ho; [split; [exists (i_drawn c); destruct c; reflexivity|constructor]|].
  assert (St : exists n b, istep show density sample c q = (counted c n, b) /\ (b = true <-> asked c q)).
  { assert (Hc0 : c = counted c (i_drawn c)) by (destruct c; reflexivity).
    destruct q as [t k i|t k i n]; cbn [istep asked].
    - destruct (C64_logpdf_partial V D show density c o t k i Hl Ho) as [A B]. rewrite Ho.
      assert (Dec : (none k /\ exactly (i_in c) (opt i) /\ dkeys t = [o]) \/ ~ (none k /\ exactly (i_in c) (opt i) /\ dkeys t = [o])).
      { destruct (plain k) eqn:E1; [|right; intros [K _]; apply none_plain in K; congruence]. destruct (iset_eq (i_in c) (dkeys (opt i))) eqn:E2.
        - destruct (list_eq_dec Z.eq_dec (dkeys t) [o]) as [E3|E3]; [left|right; tauto]. split; [apply none_plain, E1|]. split; [exact (proj1 (iset_eq_spec _ _) E2)|exact E3].
        - right. intros [_ [K _]]. apply (iset_eq_spec (i_in c) (dkeys (opt i))) in K. congruence. }
      destruct Dec as [Y|N].
      + destruct (A Y) as [args [v [_ [_ [A1 _]]]]]. destruct (density (i_expr c) args v) as [d|] eqn:E; [|exfalso; apply (Hd _ _ _ E)]. rewrite (A1 d eq_refl). exists (i_drawn c), true. rewrite <- Hc0. tauto.
      + rewrite (B N). exists (i_drawn c), false. rewrite <- Hc0. split; [reflexivity|]. split; [discriminate|contradiction].
    - destruct (C64_simulate_partial V show sample c o t k i Hl Ho) as [A B]. rewrite Ho.
      assert (Dec : (none k /\ exactly (i_in c) (opt i) /\ t = [o]) \/ ~ (none k /\ exactly (i_in c) (opt i) /\ t = [o])).
      { destruct (plain k) eqn:E1; [|right; intros [K _]; apply none_plain in K; congruence]. destruct (iset_eq (i_in c) (dkeys (opt i))) eqn:E2.
        - destruct (list_eq_dec Z.eq_dec t [o]) as [E3|E3]; [left|right; tauto]. split; [apply none_plain, E1|]. split; [exact (proj1 (iset_eq_spec _ _) E2)|exact E3].
        - right. intros [_ [K _]]. apply (iset_eq_spec (i_in c) (dkeys (opt i))) in K. congruence. }
      destruct Dec as [Y|N].
      + destruct (A Y) as [args [_ [A1 _]]].
        assert (W : forall m start, exists vs, length vs = m /\ forall j v, nth_error vs j = Some v -> sample (i_expr c) args (start + j)%nat = Some v).
        { intros m. induction m as [|m IHm]; intros start; [exists []; split; [reflexivity|intros [|j] v; discriminate]|].
          destruct (sample (i_expr c) args start) as [v|] eqn:E; [|exfalso; apply (Hs _ _ _ E)]. destruct (IHm (S start)) as [vs [L Q]]. exists (v :: vs). split; [cbn; rewrite L; reflexivity|].
          intros [|j] u Hu; cbn in Hu; [injection Hu as <-; rewrite Nat.add_0_r; exact E|]. rewrite <- (Q j u Hu). f_equal. lia. }
        destruct (W n (i_drawn c)) as [vs [L Q]]. rewrite <- L, (A1 vs Q). exists (i_drawn c + length vs)%nat. destruct vs as [|v vs]; cbn [map length] in *.
        * exists false. split; [reflexivity|]. split; [discriminate|]. intros [_ [_ [_ K]]]. congruence.
        * exists true. split; [reflexivity|]. split; [|reflexivity]. intros _. destruct Y as [Y1 [Y2 Y3]]. repeat split; auto; apply Y2.
      + destruct n as [|n]; cbn [inl_many].
        * exists (i_drawn c), false. rewrite <- Hc0. split; [reflexivity|]. split; [discriminate|tauto].
        * rewrite (B N). exists (i_drawn c), false. cbn. rewrite <- Hc0. split; [reflexivity|]. split; [discriminate|tauto]. }
  destruct St as [n [b [E Hb]]]. cbn [irun]. rewrite E. destruct (IH (counted c n) o Hd Hs Hl Ho) as [[m Em] F].
  destruct (irun show density sample (counted c n) ops) as [c'' bs]. cbn [fst snd] in *. split; [exists m; exact Em|]. constructor; [exact Hb|exact F].
Qed.
Print Assumptions C64_history_partial.

(** The order in which a dictionary gives the inputs does not matter. *)
Theorem C64_order : forall V D show (density : text -> text -> V -> option D) c o v constraints inputs inputs',
  i_live c = [] -> i_out c = [o] -> none constraints -> exactly (i_in c) inputs -> (forall i, dget i inputs = dget i inputs') ->
  inl_logpdf show density c [(o, v)] constraints (Some inputs) = inl_logpdf show density c [(o, v)] constraints (Some inputs').
Proof.
  intros V D show density c o v constraints inputs inputs' Hl Ho Hc Hi He.
  assert (Hi' : exactly (i_in c) inputs').
  { intros i. rewrite (Hi i). split; intros K; apply in_dkeys_Some in K; destruct K as [u K]; [rewrite He in K|rewrite <- He in K]; apply dget_Some_in in K; exact K. }
  destruct (logpdf_ok show density c o v constraints (Some inputs) Hl Ho Hc Hi) as [a [A ->]]. destruct (logpdf_ok show density c o v constraints (Some inputs') Hl Ho Hc Hi') as [b [B ->]].
  assert (a = b) as ->; [|reflexivity]. apply (applied_fun show c inputs'); [|exact B]. destruct A as [xs [F ->]]. exists xs. split; [|reflexivity]. cbn [opt] in F. clear - F He.
  induction F; constructor; [rewrite <- He; assumption|assumption].
Qed.
Print Assumptions C64_order.

(** The metadata give the cgpm back. *)
Theorem C64_metadata : forall outs ins e c, inl_new outs ins e = Ok c -> inl_from_metadata (inl_to_metadata c) = Ok c.
Proof.
  intros outs ins e c H. pose proof H as K. unfold inl_new in K. repeat match type of K with (if ?b then _ else _) = _ => destruct b eqn:?; [discriminate|] end.
  destruct e as [e|]; [|discriminate]. destruct (Nat.eqb (length (arguments e)) (length ins)); [|discriminate]. injection K as <-. exact H.
Qed.
Print Assumptions C64_metadata.

(* ------------------------------------------------------------------ *)
(** ** Cases *)
From Coq Require String.
Import String.StringSyntax.
Delimit Scope string_scope with string.
Definition txt (s : String.string) : text := String.list_ascii_of_string s.
Definition ex_e : text := txt "( x , sigma ) ~> { normal(x, sigma) }"%string.
Definition ex_show (v : nat) : text := repeat "1"%char v.
(** A density that Venture knows for positive values only. *)
Definition ex_density (e args : text) (v : nat) : option nat := match v with O => None | S n => Some (n + length args)%nat end.
Definition ex_sample (e args : text) (k : nat) : option nat := if Nat.ltb k 3 then Some k else None.
Definition ex_i : inl := Inl [0%Z] [1%Z; 2%Z] ex_e [] 0.

Example ex_spread : Forall name [txt "x"; txt "sigma"]%string /\ spread ex_e (lambda [txt "x"; txt "sigma"]%string (txt "{normal(x,sigma)}"%string)).
Proof.
  assert (L : forall a, is_ascii a && negb (is_space a) && negb (existsb (Ascii.eqb a) [","; "("; ")"; "~"]%char) = true -> letter a).
  { intros a E. apply andb_true_iff in E. destruct E as [E1 E2]. split; [apply blank_spec, E1|]. apply negb_true_iff in E2. intros K.
    assert (Q : existsb (Ascii.eqb a) [","; "("; ")"; "~"]%char = true) by (apply existsb_exists; exists a; split; [exact K|apply Ascii.eqb_refl]). congruence. }
  split.
  - constructor; [split; [discriminate|cbn; repeat (constructor; [apply L; reflexivity|]); constructor]|]. constructor; [|constructor].
    split; [discriminate|cbn; repeat (constructor; [apply L; reflexivity|]); constructor].
  - cbn. repeat (first [apply spread_nil | apply spread_keep; [apply blank_spec; reflexivity|] | apply spread_skip; [left; cbn; auto 10|]]).
Qed.
Example ex_inline : inl_new [0]%Z [1; 2]%Z (Some ex_e) = Ok ex_i /\ arguments ex_e = [txt "x"; txt "sigma"]%string.
Proof. split; reflexivity. Qed.
Example ex_logpdf : none (A := nat) None /\ exactly (i_in ex_i) (opt (Some [(2, 3); (1, 2)]%Z%nat)) /\
  snd (inl_logpdf ex_show ex_density ex_i [(0%Z, 5%nat)] None (Some [(2%Z, 3%nat); (1%Z, 2%nat)])) = Ok 10%nat /\
  snd (inl_many ex_show ex_sample ex_i [0%Z] None (Some [(2%Z, 3%nat); (1%Z, 2%nat)]) 3) = Ok [[(0%Z, 0%nat)]; [(0%Z, 1%nat)]; [(0%Z, 2%nat)]].
Proof. split; [left; reflexivity|]. split; [intros i; cbn; tauto|]. split; reflexivity. Qed.

Example ex_history : snd (irun ex_show (fun _ _ v => Some v) (fun _ _ k => Some k) ex_i
    [ILog [(0%Z, 5%nat)] None (Some [(2%Z, 3%nat); (1%Z, 2%nat)]); ILog [(0%Z, 5%nat)] None (Some [(2%Z, 3%nat)]); ISim [0%Z] (Some []) (Some [(1%Z, 3%nat); (2%Z, 2%nat)]) 2]) = [true; false; true].
Proof. reflexivity. Qed.

(** "A query that raises leaves the cgpm able to answer": after the density of a value that
    Venture refuses, a query that was answered before is not. *)
Theorem C64_stuck_refuted : exists c v w inputs, idle c /\
  (exists d, snd (inl_logpdf ex_show ex_density c [(0%Z, w)] None inputs) = Ok d) /\
  let c' := fst (inl_logpdf ex_show ex_density c [(0%Z, v)] None inputs) in
  snd (inl_logpdf ex_show ex_density c' [(0%Z, w)] None inputs) = Err RuntimeError.
Proof.
  exists ex_i, 0%nat, 5%nat, (Some [(2%Z, 3%nat); (1%Z, 2%nat)]). split; [split; [reflexivity|exists 0%Z; reflexivity]|]. split; [eexists; reflexivity|reflexivity].
Qed.
Print Assumptions C64_stuck_refuted.

(** "The arguments of the expression are counted": an expression that is not of the form is
    taken too, with its pieces between commas counted. *)
Theorem C64_form_refuted : exists e ins, inl_new [0%Z] ins (Some e) = Ok (Inl [0%Z] ins e [] 0) /\ length ins = 2%nat /\
  forall names body, Forall name names -> ~ spread e (lambda names body).
Proof.
  exists (txt "normal(1,2)"%string), [1; 2]%Z. split; [reflexivity|]. split; [reflexivity|]. intros names body H S.
  apply strip_spread in S. unfold lambda in S. discriminate.
Qed.
Print Assumptions C64_form_refuted.
