(** Which schemas can be built, and what is built. *)
From Coq Require Import List NArith ZArith Bool Lia.
From Verif Require Import Base Float64 IntParse Numbers BytesCodec Values VState LookupKey Collections Child Inputs Scalars Literal Wrappers Union TaggedUnion Tuple ModelFields TypedDict Assign Arguments Classes Interp InterpSpec SerOf Core CoreSpec CoreProofs.
Import ListNotations.
Open Scope nat_scope.

(** ** Triples: when a step succeeds, what it mentions, what it gives *)
Definition names (n : known) : list nat := map fst (kn_defs n).
Definition okay (M : list mention) (s : schema) : Prop := sound s /\ match s with SRef k => In (Uses k) M | _ => True end.
Definition fine (M : list mention) (s : schema) : Prop := everywhere (okay M) s.
Definition after (M : list mention) (n n' : known) : Prop :=
  exists new, kn_defs n' = kn_defs n ++ new /\ map fst new = declared M /\ (NoDup (names n) -> NoDup (names n')) /\
    kn_refs n' = rev (used M) ++ kn_refs n /\ Forall (fun d => fine M (snd d)) new.
Definition triple {A} (m : B A) (P : Prop) (M : list mention) (Q : A -> Prop) : Prop :=
  (forall n a n', m n = Built (a, n') -> P /\ after M n n' /\ Q a) /\
  (forall n, P -> NoDup (names n ++ declared M) -> exists a n', m n = Built (a, n')).

Lemma fine_more : forall M M' s, incl M M' -> fine M s -> fine M' s.
Proof.
  intros M M' s I F. induction F as [s [S K] C IH]. constructor; [|exact IH]. split; [exact S|]. destruct s; auto.
Qed.
Lemma declared_app : forall a b, declared (a ++ b) = declared a ++ declared b.
Proof. intros a b. unfold declared. apply flat_map_app. Qed.
Lemma used_app : forall a b, used (a ++ b) = used a ++ used b.
Proof. intros a b. unfold used. apply flat_map_app. Qed.
Lemma names_after : forall M n n', after M n n' -> names n' = names n ++ declared M.
Proof. intros M n n' (new & D & N & _). unfold names. now rewrite D, map_app, N. Qed.
Lemma after_nil : forall n, after [] n n.
Proof. intros n. exists []. rewrite app_nil_r. repeat split; auto. Qed.
Lemma after_app : forall M M' n n1 n2, after M n n1 -> after M' n1 n2 -> after (M ++ M') n n2.
Proof.
  intros M M' n n1 n2 (w & D & N & U & R & F) (w' & D' & N' & U' & R' & F').
  exists (w ++ w'). split; [now rewrite D', D, app_assoc|]. split; [now rewrite map_app, N, N', declared_app|]. split; [auto|].
  split; [now rewrite R', R, used_app, rev_app_distr, app_assoc|].
  apply Forall_app. split; [eapply Forall_impl; [|exact F]|eapply Forall_impl; [|exact F']]; intros d K; (eapply fine_more; [|exact K]); intros x X; apply in_or_app; auto.
Qed.

Lemma triple_ret : forall A (a : A) (Q : A -> Prop), Q a -> triple (ret a) True [] Q.
Proof. intros A a Q K. split; [|intros n _ _; now exists a, n]. intros n b n' [= <- <-]. split; [exact I|]. split; [apply after_nil|exact K]. Qed.
Lemma triple_fail : forall A (Q : A -> Prop), triple fail False [] Q.
Proof. intros A Q. split; [intros n a n'; discriminate|contradiction]. Qed.
Lemma triple_panic : forall A (Q : A -> Prop), triple panic False [] Q.
Proof. intros A Q. split; [intros n a n'; discriminate|contradiction]. Qed.
Lemma triple_bind : forall A C (m : B A) (f : A -> B C) P M Q P' M' Q', triple m P M Q -> (forall a, Q a -> triple (f a) P' M' Q') -> triple (bind m f) (P /\ P') (M ++ M') Q'.
Proof.
  intros A C m f P M Q P' M' Q' [H1 H2] K. split.
  - intros n c n' E. unfold bind in E. destruct (m n) as [[a n1]| |] eqn:Em; try discriminate E. cbn in E.
    destruct (H1 _ _ _ Em) as (p & af & q). destruct (proj1 (K a q) _ _ _ E) as (p' & af' & q').
    split; [now split|]. split; [eapply after_app; eauto|exact q'].
  - intros n [p p'] U. rewrite declared_app in U.
    destruct (H2 n p) as (a & n1 & E). { rewrite app_assoc in U. revert U. generalize (names n ++ declared M). intros l U. clear - U. induction l as [|x l IH]; [constructor|]. inversion U; subst. constructor; [intros I; apply H1; apply in_or_app; now left|now apply IH]. }
    destruct (H1 _ _ _ E) as (_ & af & q). destruct (proj2 (K a q) n1 p') as (c & n2 & E2).
    { rewrite (names_after _ _ _ af), <- app_assoc. exact U. }
    exists c, n2. unfold bind. rewrite E. exact E2.
Qed.
Lemma triple_weak : forall A (m : B A) P P' M M' (Q Q' : A -> Prop), triple m P M Q -> (P <-> P') -> M = M' -> (forall a, Q a -> Q' a) -> triple m P' M' Q'.
Proof.
  intros A m P P' M M' Q Q' [H1 H2] I -> W. split.
  - intros n a n' E. destruct (H1 _ _ _ E) as (p & af & q). split; [now apply I|]. split; auto.
  - intros n p U. apply H2; [now apply I|exact U].
Qed.
Lemma triple_map : forall A C (f : A -> B C) P M Q (l : list A), Forall (fun a => triple (f a) (P a) (M a) (Q a)) l ->
  triple (mapB f l) (Forall P l) (flat_map M l) (fun r => Forall2 Q l r).
Proof.
  intros A C f P M Q l F. induction F as [|a l E F IH].
  - cbn. eapply triple_weak; [apply (triple_ret _ _ (fun r => Forall2 Q [] r))| |reflexivity|auto]; [constructor|]. split; [constructor|trivial].
  - cbn [mapB flat_map]. eapply triple_weak.
    + eapply triple_bind; [exact E|]. intros c q. eapply triple_bind; [exact IH|]. intros r R. apply (triple_ret _ (c :: r) (fun r => Forall2 Q (a :: l) r)). now constructor.
    + split; [intros (p & p' & _); now constructor|]. intros G. inversion G; auto.
    + now rewrite app_nil_r.
    + auto.
Qed.
Lemma triple_opt : forall (f : core -> B schema) P M Q (o : option core), all_opt (fun a => triple (f a) (P a) (M a) (Q a)) o ->
  triple (optB f o) (forall c, o = Some c -> P c) (match o with Some c => M c | None => [] end)
    (fun r => match o, r with Some c, Some s => Q c s | None, None => True | _, _ => False end).
Proof.
  intros f P M Q [c|] E; cbn in *.
  - eapply triple_weak.
    + eapply triple_bind; [exact E|]. intros s q. apply (triple_ret _ (Some s) (fun r => match r with Some s => Q c s | None => False end)). exact q.
    + split; [intros [p _] ? [= <-]; exact p|]. intros p. split; [now apply p|exact I].
    + apply app_nil_r.
    + auto.
  - eapply triple_weak; [now apply (triple_ret _ _ (fun r => match r with None => True | Some _ => False end))|split; [discriminate|trivial]|reflexivity|auto].
Qed.
Lemma triple_if : forall A (b : bool) (m m' : B A) P M Q, triple m False [] Q -> (b = false -> triple m' P M Q) -> triple (if b then m else m') (b = false /\ P) M Q.
Proof.
  intros A [] m m' P M Q [H1 _] K; split.
  - intros n a n' E. now destruct (H1 _ _ _ E).
  - now intros n [p _].
  - destruct (K eq_refl) as [K1 _]. intros n a n' E. destruct (K1 _ _ _ E) as (p & af & q). auto.
  - destruct (K eq_refl) as [_ K2]. intros n [_ p]. now apply K2.
Qed.
Lemma fine_node : forall M s, okay M s -> (forall c, In c (children s) -> fine M c) -> fine M s.
Proof. intros M s O C. now constructor. Qed.

(** ** Parts *)
Definition result (c : core) (s : schema) : Prop := fine (mentions c) s /\ has_default s = defaulted c /\ omits s = omitting c.
Lemma result_fine : forall M c s, incl (mentions c) M -> result c s -> fine M s.
Proof. intros M c s I [F _]. eapply fine_more; eauto. Qed.
Lemma results_fine : forall A X (h : A -> core) (j : X -> schema) M l r, Forall2 (fun a x => result (h a) (j x)) l r -> incl (flat_map (fun a => mentions (h a)) l) M ->
  forall s, In s (map j r) -> fine M s.
Proof.
  intros A X h j M l r F. induction F as [|a x l r E F IH]; cbn; intros I s []; [subst s|].
  - eapply result_fine; [|exact E]. intros m J. apply I, in_or_app. now left.
  - apply IH; [|assumption]. intros m J. apply I, in_or_app. now right.
Qed.
Definition opt_result (o : option core) (r : option schema) : Prop := match o, r with Some c, Some s => result c s | None, None => True | _, _ => False end.
Lemma opt_fine : forall M o r, opt_result o r -> incl (match o with Some c => mentions c | None => [] end) M -> forall s, In s (opt_list r) -> fine M s.
Proof. intros M [c|] [s|] R I x X; cbn in *; try contradiction. destruct X as [<-|[]]. eapply result_fine; eauto. Qed.
Lemma unwrap_fine : forall M o r, opt_result o r -> incl (match o with Some c => mentions c | None => [] end) M -> fine M (unwrap_or r SAny).
Proof.
  intros M o [s|] R I; cbn; [eapply opt_fine; [exact R|exact I|now left]|]. constructor; [split; exact Logic.I|]. intros c [].
Qed.
Lemma no_parts : forall (c : core) s, okay (mentions c) s -> children s = [] -> has_default s = defaulted c -> omits s = omitting c -> result c s.
Proof. intros c s O C D H. split; [|now split]. apply fine_node; [exact O|]. rewrite C. intros x []. Qed.
Lemma node_result : forall c s, okay (mentions c) s -> (forall x, In x (children s) -> fine (mentions c) x) -> has_default s = defaulted c -> omits s = omitting c -> result c s.
Proof. intros c s O C D H. split; [now apply fine_node|now split]. Qed.
Lemma in_parts : forall A (h : A -> core) (g : option config) (Q : option config -> core -> Prop) l, (forall p, In p (map (fun a => (g, h a)) l) -> Q (fst p) (snd p)) <-> Forall (fun a => Q g (h a)) l.
Proof.
  intros A h g Q l. rewrite Forall_forall. split.
  - intros H a I. apply (H (g, h a)). apply in_map_iff. now exists a.
  - intros H p I. apply in_map_iff in I. destruct I as (a & <- & I). now apply H.
Qed.
Lemma in_parts_opt : forall (g : option config) (Q : option config -> core -> Prop) o, (forall p, In p (map (pair g) (opt_list o)) -> Q (fst p) (snd p)) <-> (forall c, o = Some c -> Q g c).
Proof.
  intros g Q [c|]; cbn; split.
  - intros H ? [= <-]. apply (H (g, c)). now left.
  - intros H p [<-|[]]. now apply H.
  - discriminate.
  - intros _ p [].
Qed.
Lemma in_parts_app : forall (Q : option config -> core -> Prop) a b, (forall p, In p (a ++ b) -> Q (fst p) (snd p)) <-> (forall p, In p a -> Q (fst p) (snd p)) /\ (forall p, In p b -> Q (fst p) (snd p)).
Proof. intros Q a b. split; [intros H; split; intros p I; apply H, in_or_app; auto|]. intros [H K] p I. apply in_app_or in I. destruct I; auto. Qed.
Lemma in_parts_one : forall (Q : option config -> core -> Prop) g c, (forall p, In p [(g, c)] -> Q (fst p) (snd p)) <-> Q g c.
Proof. intros Q g c. split; [intros H; apply (H (g, c)); now left|]. intros H p [<-|[]]. exact H. Qed.

(** ** Words *)
Lemma setting_said : forall A own g (f : config -> option A), setting own g f = said own (in_config g f).
Proof. intros A [a|] [g|] f; reflexivity. Qed.
Ltac word w x E := destruct (str_eqb w x) eqn:E; [apply str_eqb_eq in E; subst w|apply str_eqb_neq in E].
Lemma only_if : forall (P : Prop), P -> (True <-> P). Proof. tauto. Qed.
Lemma never : forall (P : Prop), ~ P -> (False <-> P). Proof. tauto. Qed.
Lemma triple_bytes : forall g, triple (bytes_of g) (a_word (in_config g g_bytes) [lit "utf8"; lit "base64"; lit "hex"]) [] (fun _ => True).
Proof.
  intros g. unfold bytes_of. change (get g g_bytes) with (in_config g g_bytes). destruct (in_config g g_bytes) as [w|].
  2: { eapply triple_weak; [now apply (triple_ret _ _ (fun _ => True))|apply only_if; intros t [=]|reflexivity|auto]. }
  word w (lit "utf8") E1; [|word w (lit "base64") E2; [|word w (lit "hex") E3]];
    try (eapply triple_weak; [now apply (triple_ret _ _ (fun _ => True))|apply only_if; intros t [= <-]; cbn; tauto|reflexivity|auto]).
  eapply triple_weak; [apply triple_fail with (Q := fun _ => True)|apply never; intros H; specialize (H _ eq_refl); cbn [In] in H; intuition congruence|reflexivity|auto].
Qed.
Lemma triple_mode : forall w, triple (mode_of w) (a_word w [lit "smart"; lit "left_to_right"]) [] (fun _ => True).
Proof.
  intros [w|]; unfold mode_of.
  2: { eapply triple_weak; [now apply (triple_ret _ _ (fun _ => True))|apply only_if; intros t [=]|reflexivity|auto]. }
  word w (lit "smart") E1; [|word w (lit "left_to_right") E2];
    try (eapply triple_weak; [now apply (triple_ret _ _ (fun _ => True))|apply only_if; intros t [= <-]; cbn; tauto|reflexivity|auto]).
  eapply triple_weak; [apply triple_fail with (Q := fun _ => True)|apply never; intros H; specialize (H _ eq_refl); cbn [In] in H; intuition congruence|reflexivity|auto].
Qed.
Lemma triple_unpacked : forall w, triple (unpacked_of w) (a_word w [lit "uniform"; lit "unpacked-typed-dict"]) [] (fun u => u = true <-> w = Some (lit "unpacked-typed-dict")).
Proof.
  intros [w|]; unfold unpacked_of.
  2: { eapply triple_weak; [apply (triple_ret _ _ (fun u => u = false)); reflexivity|apply only_if; intros t [=]|reflexivity|]. intros u ->. split; discriminate. }
  word w (lit "uniform") E1; [|word w (lit "unpacked-typed-dict") E2].
  - eapply triple_weak; [apply (triple_ret _ _ (fun u => u = false)); reflexivity|apply only_if; intros t [= <-]; cbn; tauto|reflexivity|]. intros u ->. split; discriminate.
  - eapply triple_weak; [apply (triple_ret _ _ (fun u => u = true)); reflexivity|apply only_if; intros t [= <-]; cbn; tauto|reflexivity|]. intros u ->. tauto.
  - eapply triple_weak; [apply triple_fail with (Q := fun _ => False)|apply never; intros H; specialize (H _ eq_refl); cbn [In] in H; intuition congruence|reflexivity|intros ? []].
Qed.
Lemma triple_revalidate : forall own g, triple (revalidate_of own g) (a_word (said own (in_config g g_revalidate)) [lit "always"; lit "never"; lit "subclass-instances"]) [] (fun _ => True).
Proof.
  intros own g. unfold revalidate_of. rewrite setting_said. destruct (said own (in_config g g_revalidate)) as [w|].
  2: { eapply triple_weak; [now apply (triple_ret _ _ (fun _ => True))|apply only_if; intros t [=]|reflexivity|auto]. }
  word w (lit "always") E1; [|word w (lit "never") E2; [|word w (lit "subclass-instances") E3]];
    try (eapply triple_weak; [now apply (triple_ret _ _ (fun _ => True))|apply only_if; intros t [= <-]; cbn; tauto|reflexivity|auto]).
  eapply triple_weak; [apply triple_fail with (Q := fun _ => True)|apply never; intros H; specialize (H _ eq_refl); cbn [In] in H; intuition congruence|reflexivity|auto].
Qed.
Lemma triple_extra : forall own g d, d <> ExtraAllow ->
  triple (extra_of own g d) (a_word (extra_word own g) extra_words) [] (fun e => e = ExtraAllow <-> extra_word own g = Some (lit "allow")).
Proof.
  intros own g d D. unfold extra_of, extra_word. rewrite setting_said.
  destruct (said own (in_config g g_extra)) as [[w|]|].
  - word w (lit "allow") E1; [|word w (lit "ignore") E2; [|word w (lit "forbid") E3]].
    + eapply triple_weak; [apply (triple_ret _ _ (fun u => u = ExtraAllow)); reflexivity|apply only_if; intros t [= <-]; cbn; tauto|reflexivity|]. intros u ->. tauto.
    + eapply triple_weak; [apply (triple_ret _ _ (fun u => u = ExtraIgnore)); reflexivity|apply only_if; intros t [= <-]; cbn; tauto|reflexivity|]. intros u ->. split; discriminate.
    + eapply triple_weak; [apply (triple_ret _ _ (fun u => u = ExtraForbid)); reflexivity|apply only_if; intros t [= <-]; cbn; tauto|reflexivity|]. intros u ->. split; discriminate.
    + eapply triple_weak; [apply triple_fail with (Q := fun _ => False)|apply never; intros H; specialize (H _ eq_refl); unfold extra_words in H; cbn [In] in H; intuition congruence|reflexivity|intros ? []].
  - eapply triple_weak; [apply (triple_ret _ _ (fun u => u = d)); reflexivity|apply only_if; intros t [=]|reflexivity|]. intros u ->. split; [contradiction|discriminate].
  - eapply triple_weak; [apply (triple_ret _ _ (fun u => u = d)); reflexivity|apply only_if; intros t [=]|reflexivity|]. intros u ->. split; [contradiction|discriminate].
Qed.
Lemma triple_keys : forall a n, triple (keys_of a n) (alias_ok a n) [] (fun _ => True).
Proof.
  intros a n. unfold keys_of, alias_ok. destruct (collection_new a n) as [k|].
  - eapply triple_weak; [now apply (triple_ret _ _ (fun _ => True))|apply only_if; now exists k|reflexivity|auto].
  - eapply triple_weak; [apply triple_fail with (Q := fun _ => True)|apply never; intros (k & E); discriminate|reflexivity|auto].
Qed.
Lemma triple_default : forall k, triple (default_of k) (hk_default k = None \/ hk_factory k = None) [] (fun d => d = DNone <-> hk_default k = None /\ hk_factory k = None).
Proof.
  intros k. unfold default_of. destruct (hk_default k) as [v|], (hk_factory k) as [f|].
  - eapply triple_weak; [apply triple_fail with (Q := fun _ => False)|apply never; intros [E|E]; discriminate|reflexivity|intros ? []].
  - eapply triple_weak; [apply (triple_ret _ _ (fun d => d = DValue v)); reflexivity|apply only_if; auto|reflexivity|]. intros u ->. split; [discriminate|intros []; discriminate].
  - eapply triple_weak; [apply (triple_ret _ _ (fun d => d = DFactory f (unwrap_or (hk_takes_data k) false))); reflexivity|apply only_if; auto|reflexivity|]. intros u ->. split; [discriminate|intros []; discriminate].
  - eapply triple_weak; [apply (triple_ret _ _ (fun d => d = DNone)); reflexivity|apply only_if; auto|reflexivity|]. intros u ->. tauto.
Qed.
(** ** The order of parameters *)
Section Ordered.
Variables (A : Type) (def kwo : A -> bool).
Fixpoint ordered (d kw : bool) (l : list A) : Prop :=
  match l with
  | [] => True
  | p :: l => d && negb (def p) && negb (kw || kwo p) = false /\ ordered (d || def p) (kw || kwo p) l
  end.
Lemma ordered_iff : forall l d kw, ordered d kw l <->
  (forall before p after, l = before ++ p :: after -> d = true \/ (exists q, In q before /\ def q = true) -> def p = false -> kw = true \/ exists q, In q (before ++ [p]) /\ kwo q = true).
Proof.
  induction l as [|x l IH]; intros d kw; cbn [ordered].
  - split; [|trivial]. intros _ [|b before] p after E; discriminate E.
  - rewrite IH. split.
    + intros [H K] [|b before] p after E D N; cbn in E; injection E as -> ->.
      * destruct D as [->|(q & [] & _)]. rewrite N in H. cbn in H. destruct kw; [now left|right]. exists p. split; [now left|]. destruct (kwo p); [reflexivity|discriminate].
      * destruct (K before p after eq_refl) as [W|(q & I & W)]; [|exact N| |].
        -- destruct D as [->|(q & [<-|I] & D)]; [now left|left; rewrite D; apply orb_true_r|right; eauto].
        -- destruct kw; [now left|right]. exists b. split; [now left|exact W].
        -- right. exists q. split; [now right|exact W].
    + intros H. split.
      * destruct d; [|reflexivity]. destruct (def x) eqn:D; [reflexivity|]. destruct (H [] x l eq_refl (or_introl eq_refl) D) as [->|(q & [<-|[]] & W)]; [reflexivity|]. rewrite W, orb_true_r. reflexivity.
      * intros before p after -> D N. destruct (H (x :: before) p after eq_refl) as [->|(q & [<-|I] & W)]; [|exact N|now left| |].
        -- destruct D as [D|(q & I & D)]; [apply orb_true_iff in D; destruct D as [->|D]; [now left|right; exists x; split; [now left|exact D]]|]. right. exists q. split; [now right|exact D].
        -- left. rewrite W. apply orb_true_r.
        -- right. eauto.
Qed.
End Ordered.
Section Build.
Variable name_of : schema -> str.
Variable compile : bool -> str -> option (str -> bool + pyexc).
Notation build := (build name_of compile).
Notation good := (good compile).
Notation good_node := (good_node compile).

Lemma good_iff : forall g c, good g c <-> good_node g c /\ forall p, In p (parts g c) -> good (fst p) (snd p).
Proof. intros g c. split; [intros G; now inversion G|]. intros [G K]. now constructor. Qed.
Lemma triple_pattern : forall k g, triple (pattern_of compile k g) (good_node g (KStr k)) [] (fun _ => True).
Proof.
  intros k g. unfold pattern_of. cbn [CoreSpec.good_node]. destruct (sk_pattern k) as [[t|m]|].
  - rewrite setting_said.
    assert (T : forall m, triple (match m with Some m => ret (Some m) | None => fail end) (m <> None) [] (fun _ : option (str -> bool + pyexc) => True)).
    { intros [m|]; [eapply triple_weak; [now apply (triple_ret _ _ (fun _ => True))|apply only_if; discriminate|reflexivity|auto]|].
      eapply triple_weak; [apply triple_fail with (Q := fun _ => True)|apply never; auto|reflexivity|auto]. }
    destruct (said (sk_regex k) (in_config g g_regex)) as [e|]; cbn [unwrap_or].
    + word e (lit "rust-regex") E1; [|word e (lit "python-re") E2].
      * eapply triple_weak; [apply T| |reflexivity|auto]. split; [auto|]. intros [[_ H]|[H _]]; [exact H|discriminate H].
      * eapply triple_weak; [apply T| |reflexivity|auto]. split; [auto|]. intros [[H _]|[_ H]]; [discriminate H|exact H].
      * eapply triple_weak; [apply triple_fail with (Q := fun _ => True)|apply never; tauto|reflexivity|auto].
    + change (str_eqb (lit "rust-regex") (lit "rust-regex")) with true. apply T.
  - eapply triple_weak; [now apply (triple_ret _ _ (fun _ => True))|tauto|reflexivity|auto].
  - eapply triple_weak; [now apply (triple_ret _ _ (fun _ => True))|tauto|reflexivity|auto].
Qed.
Lemma triple_extras : forall (f : core -> B schema) P e w o, (e = ExtraAllow <-> w = Some (lit "allow")) -> all_opt (fun c => triple (f c) (P c) (mentions c) (result c)) o ->
  triple (extras_B f e o) (extras_need w o /\ forall c, o = Some c -> P c) (match o with Some c => mentions c | None => [] end) (fun r => opt_result o r /\ (e <> ExtraAllow -> r = None)).
Proof.
  intros f P e w [c|] W E; cbn in *.
  - destruct e.
    + eapply triple_weak.
      * eapply triple_bind; [exact E|]. intros s q. apply (triple_ret _ (Some s) (fun r => opt_result (Some c) r)). exact q.
      * split; [intros [p _]; split; [intros _; tauto|intros ? [= <-]; exact p]|]. intros [_ p]. split; [now apply p|exact I].
      * apply app_nil_r.
      * intros r R. split; [exact R|]. intros H. now destruct H.
    + split; [intros n a n'; discriminate|]. intros n [p _]. specialize (p ltac:(discriminate)). apply W in p. discriminate.
    + split; [intros n a n'; discriminate|]. intros n [p _]. specialize (p ltac:(discriminate)). apply W in p. discriminate.
  - eapply triple_weak; [apply (triple_ret _ None (fun r => opt_result None r /\ (e <> ExtraAllow -> r = None))); now split| |reflexivity|auto].
    apply only_if. split; [now intros H|discriminate].
Qed.

Definition meets (c : core) : Prop := forall g, triple (build g c) (good g c) (mentions c) (result c).
Lemma triple_model_field : forall g p, meets (snd p) ->
  triple (model_field_B (build g) p) (good g (snd p) /\ alias_ok (ek_alias (fst p)) (ek_name (fst p))) (mentions (snd p)) (fun x => result (snd p) (snd x)).
Proof.
  intros g p T. unfold model_field_B. eapply triple_weak.
  - eapply triple_bind; [apply T|]. intros s R. eapply triple_bind; [apply triple_keys|]. intros ks _.
    apply (triple_ret _ _ (fun x : finfo * schema => result (snd p) (snd x))). exact R.
  - tauto.
  - now rewrite app_nil_r.
  - auto.
Qed.
Lemma triple_dataclass_field : forall g p, meets (snd p) ->
  triple (dataclass_field_B (build g) p) (good g (snd p) /\ alias_ok (ck_alias (fst p)) (ck_name (fst p)) /\ omitting (snd p) = false) (mentions (snd p))
    (fun x => result (snd p) (snd x) /\ omits (snd x) = false).
Proof.
  intros g p T. unfold dataclass_field_B. eapply triple_weak.
  - eapply triple_bind; [apply T|]. intros s R. rewrite (proj2 (proj2 R)). eapply triple_if with (Q := fun x : dinfo * schema => result (snd p) (snd x) /\ omits (snd x) = false).
    + apply triple_fail.
    + intros O. eapply triple_bind; [apply triple_keys|]. intros ks _. apply triple_ret. split; [exact R|]. cbn. now rewrite (proj2 (proj2 R)).
  - tauto.
  - now rewrite app_nil_r.
  - auto.
Qed.
Lemma triple_typed_dict_field : forall g total p, meets (snd p) ->
  triple (typed_dict_field_B (build g) total p)
    (good g (snd p) /\ (alias_ok (ek_alias (fst p)) (ek_name (fst p)) /\ ~ (ek_required (fst p) = Some true /\ defaulted (snd p) = true) /\ (omitting (snd p) = true -> unwrap_or (ek_required (fst p)) total = false))) (mentions (snd p))
    (fun x => result (snd p) (snd x) /\ (fi_required (fst x) = true -> omits (snd x) = false)).
Proof.
  intros g total p T. unfold typed_dict_field_B. eapply triple_weak.
  - eapply triple_bind; [apply T|]. intros s R. rewrite (proj2 (proj2 R)), (proj1 (proj2 R)).
    eapply triple_if with (Q := fun x : finfo * schema => result (snd p) (snd x) /\ (fi_required (fst x) = true -> omits (snd x) = false)); [apply triple_fail|].
    intros O. eapply triple_if; [apply triple_fail|]. intros O'.
    eapply triple_bind; [apply triple_keys|]. intros ks _. apply triple_ret. split; [exact R|]. cbn. rewrite (proj2 (proj2 R)). intros E. now rewrite E in O'.
  - split.
    + intros (G & E & E' & A & _). split; [exact G|]. split; [exact A|]. split; [intros [F D]; rewrite F in E; congruence|].
      intros O. rewrite O, andb_true_r in E'. exact E'.
    + intros (G & A & N & O). split; [exact G|]. split; [destruct (ek_required (fst p)) as [[]|]; try reflexivity; destruct (defaulted (snd p)); tauto|].
      split; [|tauto]. destruct (omitting (snd p)); [rewrite O by reflexivity; reflexivity|apply andb_false_r].
  - now rewrite app_nil_r.
  - auto.
Qed.
Definition kw_param (p : param_keys * core) : bool := is_kw_only (param_mode p).
Lemma triple_params : forall g l, Forall (fun p => meets (snd p)) l -> forall d kw,
  triple (params_B (build g) d kw l)
    (Forall (fun p => good g (snd p)) l /\ (Forall (fun p => alias_ok (qk_alias (fst p)) (qk_name (fst p)) /\ omitting (snd p) = false) l /\
      ordered _ (fun p => defaulted (snd p)) kw_param d kw l)) (flat_map (fun p => mentions (snd p)) l)
    (fun r => Forall2 (fun p x => result (snd p) (snd x) /\ pi_mode (fst x) = param_mode p) l r /\ Forall (fun x => omits (snd x) = false) r).
Proof.
  intros g l F. induction F as [|p l T F IH]; intros d kw; cbn [params_B flat_map ordered].
  - eapply triple_weak; [apply triple_ret with (Q := fun r : list (pinfo * schema) => Forall2 (fun p x => result (snd p) (snd x) /\ pi_mode (fst x) = param_mode p) [] r /\ Forall (fun x => omits (snd x) = false) r); now split| |reflexivity|auto].
    apply only_if. repeat split; constructor.
  - eapply triple_weak.
    + eapply triple_bind; [apply T|]. intros s R. rewrite (proj2 (proj2 R)), (proj1 (proj2 R)).
      eapply triple_if with (Q := fun r => Forall2 (fun p x => result (snd p) (snd x) /\ pi_mode (fst x) = param_mode p) (p :: l) r /\ Forall (fun x => omits (snd x) = false) r); [apply triple_fail|].
      intros O. eapply triple_if; [apply triple_fail|]. intros O'.
      eapply triple_bind; [apply triple_keys|]. intros ks _. eapply triple_bind; [apply IH|]. intros r [R1 R2]. apply triple_ret. split; [|constructor; [|exact R2]].
      * constructor; [|exact R1]. split; [exact R|reflexivity].
      * cbn. now rewrite (proj2 (proj2 R)).
    + split.
      * intros (G & O & E & A & (G' & A' & D') & _). repeat split; try constructor; auto.
      * intros (G & A & E & D). inversion G; subst. inversion A; subst. unfold kw_param in *. unfold param_mode in *. tauto.
    + cbn. now rewrite app_nil_r.
    + auto.
Qed.

Lemma leaf : forall g c, parts g c = [] -> good g c <-> good_node g c.
Proof. intros g c E. rewrite good_iff, E. split; [tauto|]. intros H. split; [exact H|]. intros p []. Qed.
Lemma one_part : forall g g' c c', parts g c = [(g', c')] -> good g c <-> good_node g c /\ good g' c'.
Proof. intros g g' c c' E. rewrite good_iff, E. rewrite (in_parts_one good). reflexivity. Qed.
Lemma wrapped : forall c c' s s', mentions c = mentions c' -> sound s -> children s = [s'] -> (forall k, s <> SRef k) -> has_default s = defaulted c -> omits s = omitting c -> result c' s' -> result c s.
Proof.
  intros c c' s s' M S C N D O R. apply node_result; auto.
  - split; [exact S|]. destruct s; auto. now destruct (N k).
  - rewrite C, M. intros x [<-|[]]. apply R.
Qed.
Lemma build_leaves : forall c, match c with KAny | KNone | KBool _ | KInt _ _ | KFloat _ | KStr _ | KBytes _ _ _ | KLiteral _ | KIsInstance _ | KPlain _ _ | KRef _ => True | _ => False end -> meets c.
Proof.
  intros c H g; destruct c; try contradiction; cbn [Core.build mentions];
    try (match goal with |- triple (ret _) _ _ (result ?c) => eapply triple_weak; [apply triple_ret with (Q := result c); now apply no_parts|rewrite leaf by reflexivity; split; intros; exact I|reflexivity|intros a A; exact A] end).
  - eapply triple_weak; [eapply triple_bind; [apply triple_pattern|]; intros m _; apply triple_ret with (Q := result (KStr k)); now apply no_parts| |reflexivity|auto].
    rewrite leaf by reflexivity. tauto.
  - eapply triple_weak; [eapply triple_bind; [apply triple_bytes|]; intros m _; apply triple_ret with (Q := result (KBytes strict mn mx)); now apply no_parts| |reflexivity|auto].
    rewrite leaf by reflexivity. tauto.
  - destruct expected as [|x l].
    + eapply triple_weak; [apply triple_fail with (Q := result (KLiteral []))|rewrite leaf by reflexivity; cbn; tauto|reflexivity|auto].
    + eapply triple_weak; [apply triple_ret with (Q := result (KLiteral (x :: l))); apply no_parts; try reflexivity; now split|rewrite leaf by reflexivity; apply only_if; discriminate|reflexivity|auto].
  - split.
    + intros n a n' [= <- <-]. split; [rewrite leaf by reflexivity; exact I|]. split; [|apply no_parts; try reflexivity; split; [exact I|now left]].
      exists []. rewrite app_nil_r. repeat split; auto.
    + intros n _ _. eexists _, _. reflexivity.
Qed.

Lemma triple_fmap : forall A C (m : B A) (h : A -> C) P M Q (Q' : C -> Prop), triple m P M Q -> (forall a, Q a -> Q' (h a)) -> triple (bind m (fun a => ret (h a))) P M Q'.
Proof.
  intros A C m h P M Q Q' T H. eapply triple_weak; [eapply triple_bind; [exact T|]; intros a q; apply triple_ret with (Q := Q'); now apply H|tauto|apply app_nil_r|auto].
Qed.
Lemma triple_meets_opt : forall g o, all_opt meets o -> triple (optB (build g) o) (forall c, o = Some c -> good g c) (match o with Some c => mentions c | None => [] end) (opt_result o).
Proof. intros g o H. apply triple_opt. destruct o; [apply H|exact I]. Qed.
Lemma triple_meets_extras : forall g e w o, (e = ExtraAllow <-> w = Some (lit "allow")) -> all_opt meets o ->
  triple (extras_B (build g) e o) (extras_need w o /\ forall c, o = Some c -> good g c) (match o with Some c => mentions c | None => [] end) (fun r => opt_result o r /\ (e <> ExtraAllow -> r = None)).
Proof. intros g e w o W H. apply triple_extras; [exact W|]. destruct o; [apply H|exact I]. Qed.

Lemma Forall2_length : forall A C (R : A -> C -> Prop) l l', Forall2 R l l' -> length l = length l'.
Proof. intros A C R l l' F. induction F; cbn; congruence. Qed.
Lemma build_list : forall k o, all_opt meets o -> meets (KList k o).
Proof.
  intros k o H g. cbn [Core.build]. eapply triple_weak; [eapply triple_fmap with (Q' := result (KList k o)); [apply triple_meets_opt, H|]| |reflexivity|auto].
  - intros r R. apply node_result; try reflexivity.
    + split; [|exact I]. cbn. destruct r as [[]|]; discriminate.
    + cbn [children mentions]. intros x X. eapply opt_fine; [exact R|apply incl_refl|]. destruct r as [[]|]; first [exact X|destruct X].
  - rewrite good_iff. cbn [parts]. rewrite (in_parts_opt g good). cbn. tauto.
Qed.
Lemma build_set : forall f k o, all_opt meets o -> meets (KSet f k o).
Proof.
  intros f k o H g. cbn [Core.build]. eapply triple_weak; [eapply triple_fmap with (Q' := result (KSet f k o)); [apply triple_meets_opt, H|]| |reflexivity|auto].
  - intros r R. apply node_result; try reflexivity; [now split|].
    cbn [children mentions]. intros x [<-|[]]. eapply unwrap_fine; [exact R|apply incl_refl].
  - rewrite good_iff. cbn [parts]. rewrite (in_parts_opt g good). cbn. tauto.
Qed.
Lemma build_tuple : forall k v l, Forall meets l -> meets (KTuple k v l).
Proof.
  intros k v l H g. cbn [Core.build]. eapply triple_weak.
  - eapply triple_bind. { apply triple_map with (P := good g) (M := mentions) (Q := result). eapply Forall_impl; [|exact H]. intros c M. apply M. }
    intros r R. rewrite <- (Forall2_length _ _ _ _ _ R). eapply triple_if; [apply triple_panic with (Q := result (KTuple k v l))|].
    intros E. apply triple_ret. apply node_result; try reflexivity.
    + split; [|exact I]. cbn. intros i ->. apply Nat.leb_gt in E. now rewrite <- (Forall2_length _ _ _ _ _ R).
    + cbn [children mentions]. intros x X. eapply (results_fine _ _ (fun c => c) (fun s => s)); [exact R|apply incl_refl|]. now rewrite map_id.
  - rewrite good_iff. cbn [parts CoreSpec.good_node]. rewrite (in_parts _ (fun c => c) g good). destruct v as [i|].
    + rewrite Nat.leb_gt. split; [intros (F & L & _); split; [intros ? [= <-]; exact L|exact F]|]. intros [L F]. auto.
    + split; [intros (F & _); split; [discriminate|exact F]|]. tauto.
  - apply app_nil_r.
  - auto.
Qed.
Lemma build_dict : forall k a b, all_opt meets a -> all_opt meets b -> meets (KDict k a b).
Proof.
  intros k a b Ha Hb g. cbn [Core.build]. eapply triple_weak.
  - eapply triple_bind; [apply triple_meets_opt, Ha|]. intros r R. eapply triple_fmap with (Q' := result (KDict k a b)); [apply triple_meets_opt, Hb|].
    intros r' R'. apply node_result; try reflexivity; [now split|].
    cbn [children mentions]. intros x [<-|[<-|[]]]; [eapply unwrap_fine; [exact R|apply incl_appl, incl_refl]|eapply unwrap_fine; [exact R'|apply incl_appr, incl_refl]].
  - rewrite good_iff. cbn [parts]. rewrite map_app, (in_parts_app good), !(in_parts_opt g good). cbn. tauto.
  - reflexivity.
  - auto.
Qed.
Lemma build_wrappers : forall c c', match c with KNullable x | KBefore _ _ x | KAfter _ _ x | KWrap _ _ x => x = c' | KCustomError t x => t <> None /\ x = c' | _ => False end -> meets c' -> meets c.
Proof.
  intros c c' H T g. destruct c; try contradiction; try subst c.
  1, 3, 4, 5: cbn [Core.build]; match goal with |- triple _ _ _ (result ?c) => eapply triple_weak; [eapply triple_fmap with (Q' := result c); [apply T|]| |reflexivity|auto] end;
    [intros s R; apply (wrapped _ c' _ s); try reflexivity; [discriminate|exact R]|symmetry; etransitivity; [apply (one_part g g _ c'); reflexivity|cbn; intuition congruence]].
  destruct H as [N ->]. destruct t as [t|]; [|contradiction].
  cbn [Core.build]; match goal with |- triple _ _ _ (result ?c) => eapply triple_weak; [eapply triple_fmap with (Q' := result c); [apply T|]| |reflexivity|auto] end;
    [intros s R; apply (wrapped _ c' _ s); try reflexivity; [discriminate|exact R]|symmetry; etransitivity; [apply (one_part g g _ c'); reflexivity|cbn; intuition congruence]].
Qed.
Lemma build_custom_error_none : forall c, meets (KCustomError None c).
Proof.
  intros c g. cbn [Core.build]. split; [intros n a n'; discriminate|]. intros n G. apply good_iff in G. destruct G as [[] _]. reflexivity.
Qed.

Lemma build_default : forall k c, meets c -> meets (KDefault k c).
Proof.
  intros k c T g. cbn [Core.build]. eapply triple_weak.
  - eapply triple_bind; [apply triple_default|]. intros d D.
    assert (N : negb (wd_build_ok d (unwrap_or (hk_on_error k) OnRaise)) = match hk_on_error k with Some OnDefault => match hk_default k, hk_factory k with None, None => true | _, _ => false end | _ => false end).
    { revert D. destruct (hk_on_error k) as [[]|], d, (hk_default k), (hk_factory k); cbn; intros D; try reflexivity; first [destruct (proj1 D eq_refl); discriminate|discriminate (proj2 D (conj eq_refl eq_refl))]. }
    cbv zeta. rewrite N. eapply triple_if; [apply triple_fail with (Q := result (KDefault k c))|]. intros F.
    eapply triple_fmap; [apply T|]. intros s R. rewrite <- N in F. apply (wrapped _ c _ s); try reflexivity; [|discriminate| | |exact R].
    + cbn [sound]. intros E E'. rewrite E, E' in F. discriminate F.
    + clear N F. unfold defaulted. cbn. revert D. destruct d, (hk_default k), (hk_factory k); cbn; intros D; try reflexivity; first [destruct (proj1 D eq_refl); discriminate|discriminate (proj2 D (conj eq_refl eq_refl))].
    + unfold omitting. cbn. destruct (hk_on_error k) as [[]|], d; reflexivity.
  - symmetry; etransitivity; [apply (one_part g g _ c); reflexivity|]. cbn.
    destruct (hk_on_error k) as [[]|], (hk_default k), (hk_factory k); intuition (try congruence; try discriminate).
  - reflexivity.
  - auto.
Qed.
Lemma steps_fine : forall M s, fine M s -> steps_of s <> [] /\ forall x, In x (steps_of s) -> fine M x /\ forall l', x <> SChain l'.
Proof.
  intros M s F. destruct s; cbn; try (split; [discriminate|]; intros x [<-|[]]; split; [exact F|discriminate]).
  inversion F as [? [S _] C]; subst. cbn in S. destruct S as [L N]. split; [destruct steps; [cbn in L; lia|discriminate]|]. intros x X. split; [now apply C|now apply N].
Qed.
Lemma build_chain : forall l, Forall meets l -> meets (KChain l).
Proof.
  intros l H g. cbn [Core.build]. eapply triple_weak.
  - eapply triple_bind. { apply triple_map with (P := good g) (M := mentions) (Q := result). eapply Forall_impl; [|exact H]. intros c M. apply M. }
    intros r R.
    assert (S : forall x, In x (flat_map steps_of r) -> fine (flat_map mentions l) x /\ forall l', x <> SChain l').
    { intros x X. apply in_flat_map in X. destruct X as (s & I & X). apply (steps_fine _ s); [|exact X]. eapply (results_fine _ _ (fun c => c) (fun s => s)); [exact R|apply incl_refl|]. now rewrite map_id. }
    assert (C : 2 <= length (flat_map steps_of r) -> (forall c, l = [c] -> has_default (SChain []) = defaulted c /\ omits (SChain []) = omitting c) -> result (KChain l) (SChain (flat_map steps_of r))).
    { intros L K. assert (amounts_to_default (KChain l) = None \/ exists c, l = [c]) as [E|(c & ->)]; [destruct l as [|? [|]]; eauto| |].
      - apply node_result; [split; [split; [exact L|apply S]|exact I]|intros x X; now apply S| |]; unfold defaulted, omitting; now rewrite E.
      - destruct (K c eq_refl) as [K1 K2]. apply node_result; [split; [split; [exact L|apply S]|exact I]|intros x X; now apply S|exact K1|exact K2]. }
    assert (T : triple (match flat_map steps_of r with [] => fail | [s] => ret s | _ => ret (SChain (flat_map steps_of r)) end) (l <> []) [] (result (KChain l))).
    { inversion R as [|c s l' r' E E']; subst.
      - cbn. eapply triple_weak; [apply triple_fail with (Q := result (KChain []))|tauto|reflexivity|auto].
      - inversion E' as [|c2 s2 l2 r2 E2 E2']; subst.
        + cbn [flat_map] in *. rewrite app_nil_r in *. destruct s; cbn [steps_of] in *;
            try (eapply triple_weak; [apply triple_ret with (Q := result c); exact E|apply only_if; discriminate|reflexivity|]; intros a (F & D & O); split; [cbn; rewrite app_nil_r; exact F|split; [exact D|exact O]]).
          destruct E as (F & D & O). inversion F as [? [L _] _]; subst. cbn in L. apply proj1 in L. destruct steps as [|x [|y steps]]; cbn in L; [lia|lia|].
          eapply triple_weak; [apply triple_ret with (Q := result (KChain [c])); apply C; [cbn; lia|]|apply only_if; discriminate|reflexivity|auto]. intros ? [= <-]. now split.
        + destruct (steps_fine _ s (proj1 E)) as [N1 _]. destruct (steps_fine _ s2 (proj1 E2)) as [N2 _].
          assert (L : 2 <= length (flat_map steps_of (s :: s2 :: r2))). { cbn. rewrite !app_length. destruct (steps_of s), (steps_of s2); try contradiction. cbn. lia. }
          destruct (flat_map steps_of (s :: s2 :: r2)) as [|x [|y t]]; cbn in L; [lia|lia|].
          eapply triple_weak; [apply triple_ret with (Q := result (KChain (c :: c2 :: l2))); apply C; [cbn; lia|discriminate]|apply only_if; discriminate|reflexivity|auto]. }
    revert T. destruct (flat_map steps_of r) as [|x [|y t]]; intros T; exact T.
  - rewrite good_iff. cbn [parts CoreSpec.good_node]. rewrite (in_parts _ (fun c => c) g good). tauto.
  - apply app_nil_r.
  - auto.
Qed.
Lemma build_two : forall c a b, match c with KJsonOrPython x y | KLaxOrStrict _ x y => x = a /\ y = b | _ => False end -> meets a -> meets b -> meets c.
Proof.
  intros c a b H Ta Tb g. destruct c; try contradiction; destruct H; subst; cbn [Core.build];
  (match goal with |- triple _ _ _ (result ?c) =>
     eapply triple_weak; [eapply triple_bind; [apply Ta|]; intros s R; eapply triple_fmap with (Q' := result c); [apply Tb|]; intros s' R'; apply node_result; try reflexivity; [now split|]|
       |reflexivity|auto] end;
  [cbn [children mentions]; intros x [<-|[<-|[]]]; [eapply result_fine; [|exact R]; apply incl_appl, incl_refl|eapply result_fine; [|exact R']; apply incl_appr, incl_refl]|
   symmetry; etransitivity; [apply good_iff|]; symmetry; cbn [parts CoreSpec.good_node]; split; [intros [G1 G2]; split; [exact I|]; intros p [<-|[<-|[]]]; cbn; [exact G1|exact G2]|intros [_ K]; split; [apply (K (g, a)); now left|apply (K (g, b)); right; now left]]]).
Qed.

Lemma triple_members : forall A C (h : A -> core) (lab : A -> schema -> C) (f : C -> schema) g l, (forall a s, f (lab a s) = s) -> Forall (fun a => meets (h a)) l ->
  triple (mapB (fun a => bind (build g (h a)) (fun s => ret (lab a s))) l) (Forall (fun a => good g (h a)) l) (flat_map (fun a => mentions (h a)) l) (fun r => Forall2 (fun a x => result (h a) (f x)) l r).
Proof.
  intros A C h lab f g l L H. apply triple_map with (P := fun a => good g (h a)) (M := fun a => mentions (h a)) (Q := fun a x => result (h a) (f x)).
  eapply Forall_impl; [|exact H]. intros a M. eapply triple_fmap; [apply M|]. intros s R. cbn. now rewrite L.
Qed.
Lemma build_union : forall m col cu l, Forall (fun p => meets (fst p)) l -> meets (KUnion m col cu l).
Proof.
  intros m col cu l H g. cbn [Core.build]. eapply triple_weak.
  - eapply triple_bind. { apply triple_members with (h := fst) (lab := fun p s => (s, unwrap_or (snd p) (name_of s))) (f := fst); [reflexivity|exact H]. }
    intros r R. cbn beta in R. eapply triple_bind; [apply triple_mode|]. intros u _.
    assert (C : (forall x, l = [x] -> match col with Some false => false | _ => true end = false) -> r <> [] -> result (KUnion m col cu l) (SUnion u cu r)).
    { intros K N. assert (E : amounts_to_default (KUnion m col cu l) = None).
      { destruct l as [|[c o] [|]]; try reflexivity. cbn [amounts_to_default]. now rewrite (K _ eq_refl). }
      apply node_result; [split; [exact N|exact I]| |unfold defaulted; now rewrite E|unfold omitting; now rewrite E].
      cbn [children mentions]. intros x X. eapply (results_fine _ _ fst fst); [exact R|apply incl_refl|exact X]. }
    assert (T : triple (match r with [] => fail | [p] => if unwrap_or col true then ret (fst p) else ret (SUnion u cu r) | _ => ret (SUnion u cu r) end) (l <> []) [] (result (KUnion m col cu l))).
    { inversion R as [|c s l' r' E E']; subst.
      - eapply triple_weak; [apply triple_fail with (Q := result (KUnion m col cu []))|tauto|reflexivity|auto].
      - inversion E' as [|c2 s2 l2 r2 E2 E2']; subst.
        + destruct (unwrap_or col true) eqn:U.
          * eapply triple_weak; [apply triple_ret with (Q := result (fst c)); exact E|apply only_if; discriminate|reflexivity|].
            intros a (F & D & O). destruct c as [c o]. split; [cbn; rewrite app_nil_r; exact F|]. unfold defaulted, omitting in *. cbn [amounts_to_default]. destruct col as [[]|]; try discriminate U; now split.
          * eapply triple_weak; [apply triple_ret with (Q := result (KUnion m col cu [c])); apply C; [|discriminate]|apply only_if; discriminate|reflexivity|auto].
            intros x _. destruct col as [[]|]; try discriminate U. reflexivity.
        + eapply triple_weak; [apply triple_ret with (Q := result (KUnion m col cu (c :: c2 :: l2))); apply C; discriminate|apply only_if; discriminate|reflexivity|auto]. }
    revert T. destruct r as [|x [|y t]]; intros T; exact T.
  - rewrite good_iff. cbn [parts CoreSpec.good_node]. rewrite (in_parts _ fst g good). tauto.
  - cbn. now rewrite app_nil_r.
  - auto.
Qed.
Lemma build_tagged : forall d fa cu l, Forall (fun p => meets (snd p)) l -> meets (KTagged d fa cu l).
Proof.
  intros d fa cu l H g. cbn [Core.build]. eapply triple_weak.
  - eapply triple_fmap with (Q' := result (KTagged d fa cu l)). { apply triple_members with (h := snd) (lab := fun p s => (fst p, s)) (f := snd); [reflexivity|exact H]. }
    intros r R. apply node_result; try reflexivity; [now split|]. cbn [children mentions]. intros x X. eapply (results_fine _ _ snd snd); [exact R|apply incl_refl|exact X].
  - rewrite good_iff. cbn [parts CoreSpec.good_node]. rewrite (in_parts _ snd g good). tauto.
  - reflexivity.
  - auto.
Qed.
Lemma build_model : forall own k c, meets c -> meets (KModel own k c).
Proof.
  intros own k c T g. cbn [Core.build]. eapply triple_weak.
  - eapply triple_bind; [apply (T own)|]. intros s R. eapply triple_fmap with (Q' := result (KModel own k c)); [apply triple_revalidate|].
    intros r _. apply (wrapped _ c _ s); try reflexivity; [discriminate|exact R].
  - symmetry; etransitivity; [apply (one_part g own _ c); reflexivity|]. cbn. tauto.
  - apply app_nil_r.
  - auto.
Qed.
Lemma build_dataclass : forall own k c, meets c -> meets (KDataclass own k c).
Proof.
  intros own k c T g. cbn [Core.build]. eapply triple_weak.
  - eapply triple_bind; [apply (T own)|]. intros s R. eapply triple_fmap with (Q' := result (KDataclass own k c)); [apply triple_revalidate|].
    intros r _. apply (wrapped _ c _ s); try reflexivity; [discriminate|exact R].
  - symmetry; etransitivity; [apply (one_part g own _ c); reflexivity|]. cbn. tauto.
  - apply app_nil_r.
  - auto.
Qed.

Lemma in_fields : forall A (h : A -> core) g (Q : A -> Prop) l, Forall (fun a => good g (h a) /\ Q a) l <-> Forall (fun a => good g (h a)) l /\ forall a, In a l -> Q a.
Proof.
  intros A h g Q l. rewrite !Forall_forall. split; [intros H; split; intros a I; now apply H|]. intros [H K] a I. split; auto.
Qed.
Lemma omits_leaves : forall s, omits s = false -> ~ leaves_out s.
Proof. intros s O (k & v & x & ->). cbn in O. destruct k; discriminate O. Qed.
Lemma build_model_fields : forall k l a b, Forall (fun p => meets (snd p)) l -> all_opt meets a -> all_opt meets b -> meets (KModelFields k l a b).
Proof.
  intros k l a b H Ha Hb g. cbn [Core.build]. eapply triple_weak.
  - eapply triple_bind; [apply triple_extra; discriminate|]. intros e E.
    eapply triple_bind; [apply triple_meets_extras; [exact E|exact Ha]|]. intros ra [Ra Na].
    eapply triple_bind; [apply triple_meets_extras; [exact E|exact Hb]|]. intros rb [Rb Nb].
    eapply triple_fmap with (Q' := result (KModelFields k l a b)).
    { eapply triple_map with (M := fun p => mentions (snd p)) (Q := fun p x => result (snd p) (snd x)). eapply Forall_impl; [|exact H]. intros p T. apply triple_model_field, T. }
    intros r R. apply node_result; try reflexivity.
    + split; [|exact I]. cbn. auto.
    + cbn [children mentions]. intros x X. apply in_app_or in X. destruct X as [X|X]; [|apply in_app_or in X; destruct X as [X|X]].
      * eapply (results_fine _ _ snd snd); [exact R| |exact X]. apply incl_appr, incl_appr, incl_refl.
      * eapply opt_fine; [exact Ra| |exact X]. apply incl_appl, incl_refl.
      * eapply opt_fine; [exact Rb| |exact X]. apply incl_appr, incl_appl, incl_refl.
  - rewrite good_iff. cbn [parts CoreSpec.good_node]. rewrite map_app, !(in_parts_app good), !(in_parts_opt g good), (in_parts _ snd g good), (in_fields _ snd). tauto.
  - reflexivity.
  - auto.
Qed.
Lemma build_typed_dict : forall own k l a, Forall (fun p => meets (snd p)) l -> all_opt meets a -> meets (KTypedDict own k l a).
Proof.
  intros own k l a H Ha g. cbn [Core.build]. eapply triple_weak.
  - eapply triple_bind; [apply triple_extra; discriminate|]. intros e E.
    eapply triple_bind; [apply triple_meets_extras; [exact E|exact Ha]|]. intros ra [Ra Na].
    eapply triple_fmap with (Q' := result (KTypedDict own k l a)).
    { eapply triple_map with (M := fun p => mentions (snd p)) (Q := fun p x => result (snd p) (snd x) /\ (fi_required (fst x) = true -> omits (snd x) = false)). eapply Forall_impl; [|exact H]. intros p T. apply triple_typed_dict_field, T. }
    intros r R. apply node_result; try reflexivity.
    + split; [|exact I]. cbn. split; [auto|]. intros f F Q. apply omits_leaves. clear - R F Q. induction R as [|? ? ? ? [_ K] R IH]; [destruct F|]. destruct F as [->|F]; auto.
    + cbn [children mentions]. intros x X. apply in_app_or in X. destruct X as [X|X].
      * eapply (results_fine _ _ snd snd); [|apply incl_appr, incl_refl|exact X]. clear - R. induction R as [|? ? ? ? [K _] R IH]; constructor; auto.
      * eapply opt_fine; [exact Ra| |exact X]. apply incl_appl, incl_refl.
  - rewrite good_iff. cbn [parts CoreSpec.good_node]. rewrite !(in_parts_app good), !(in_parts_opt own good), (in_parts _ snd own good), (in_fields _ snd).
    assert (J : forall p : field_keys * core, (omitting (snd p) = true -> unwrap_or (ek_required (fst p)) (unwrap_or (setting (rk_total k) own g_total) true) = false) <->
      (omitting (snd p) = true -> said (ek_required (fst p)) (said (rk_total k) (in_config own g_total)) = Some false)).
    { intros p. rewrite setting_said. destruct (ek_required (fst p)) as [[]|], (rk_total k) as [[]|], (in_config own g_total) as [[]|]; cbn; intuition discriminate. }
    split.
    + intros (W & (N & G) & F & K). split; [|split; [exact F|exact G]]. split; [exact W|split; [exact N|]]. intros f X. destruct (K f X) as (A & D & O). split; [exact A|split; [exact D|now apply J]].
    + intros ((W & N & K) & F & G). split; [exact W|]. split; [split; [exact N|exact G]|]. split; [exact F|]. intros f X. destruct (K f X) as (A & D & O). split; [exact A|split; [exact D|now apply J]].
  - reflexivity.
  - auto.
Qed.
Lemma build_dataclass_args : forall k l a, Forall (fun p => meets (snd p)) l -> all_opt meets a -> meets (KDataclassArgs k l a).
Proof.
  intros k l a H Ha g. cbn [Core.build]. eapply triple_weak.
  - eapply triple_bind; [apply triple_extra; discriminate|]. intros e E.
    eapply triple_bind; [apply triple_meets_extras; [exact E|exact Ha]|]. intros ra [Ra Na].
    eapply triple_fmap with (Q' := result (KDataclassArgs k l a)).
    { eapply triple_map with (M := fun p => mentions (snd p)) (Q := fun p x => result (snd p) (snd x) /\ omits (snd x) = false). eapply Forall_impl; [|exact H]. intros p T. apply triple_dataclass_field, T. }
    intros r R. apply node_result; try reflexivity.
    + split; [|exact I]. cbn. split; [auto|]. intros f F. apply omits_leaves. clear - R F. induction R as [|? ? ? ? [_ K] R IH]; [destruct F|]. destruct F as [->|F]; auto.
    + cbn [children mentions]. intros x X. apply in_app_or in X. destruct X as [X|X].
      * eapply (results_fine _ _ snd snd); [|apply incl_appr, incl_refl|exact X]. clear - R. induction R as [|? ? ? ? [K _] R IH]; constructor; auto.
      * eapply opt_fine; [exact Ra| |exact X]. apply incl_appl, incl_refl.
  - rewrite good_iff. cbn [parts CoreSpec.good_node]. rewrite !(in_parts_app good), !(in_parts_opt g good), (in_parts _ snd g good), (in_fields _ snd). tauto.
  - reflexivity.
  - auto.
Qed.
End Build.
