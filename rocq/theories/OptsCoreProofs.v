(** Proofs for options of a call and configs. *)
From Coq Require Import List NArith ZArith Bool Lia.
From Verif Require Import Base Float64 IntParse Numbers BytesCodec Values VState LookupKey Collections Child Inputs Scalars Literal Wrappers Union TaggedUnion Tuple ModelFields TypedDict Assign Arguments Classes Interp InterpSpec SerOf Core CoreSpec CoreProofs CoreProofs2 CoreProofs3 CoreProofs4 OptsSpec OptsCoreSpec.
Import ListNotations.
Open Scope nat_scope.

Section Configured.
Variable o : call_opts.
Variable name_of : schema -> str.
Variable compile : bool -> str -> option (str -> bool + pyexc).
Hypothesis named : forall s, name_of (over o s) = name_of s.
Notation build := (build name_of compile).
Notation wo := (fun g => Some (with_options o g)).

Definition ovk (n : known) : known := {| kn_defs := map (fun p => (fst p, over o (snd p))) (kn_defs n); kn_refs := kn_refs n |}.
Definition sim {A A'} (f : A -> A') (m : B A) (m' : B A') : Prop :=
  forall n, m' (ovk n) = match m n with Built (a, n') => Built (f a, ovk n') | SchemaError => SchemaError | Panics => Panics end.
Lemma sim_ret A A' (f : A -> A') a a' : a' = f a -> sim f (ret a) (ret a').
Proof. intros -> n. reflexivity. Qed.
Lemma sim_fail A A' (f : A -> A') : sim f fail fail.
Proof. intros n. reflexivity. Qed.
Lemma sim_panic A A' (f : A -> A') : sim f panic panic.
Proof. intros n. reflexivity. Qed.
Lemma sim_bind A A' C C' (f : A -> A') (h : C -> C') m m' k k' : sim f m m' -> (forall a, sim h (k a) (k' (f a))) -> sim h (bind m k) (bind m' k').
Proof. intros M K n. unfold bind. rewrite M. destruct (m n) as [[a n']| |]; cbn [bbind fst snd]; [apply K|reflexivity|reflexivity]. Qed.
Lemma sim_map A A' C C' (e : A -> A') (h : C -> C') (f : A -> B C) (f' : A' -> B C') l : Forall (fun a => sim h (f a) (f' (e a))) l -> sim (map h) (mapB f l) (mapB f' (map e l)).
Proof.
  induction 1 as [|a l F _ IH]; cbn [mapB map]; [now apply sim_ret|]. eapply sim_bind; [exact F|]. intros c. eapply sim_bind; [exact IH|]. intros r. now apply sim_ret.
Qed.
Lemma sim_opt (f f' : core -> B schema) e x : all_opt (fun a => sim (over o) (f a) (f' (e a))) x -> sim (option_map (over o)) (optB f x) (optB f' (option_map e x)).
Proof. destruct x as [a|]; cbn; intros F; [|now apply sim_ret]. eapply sim_bind; [exact F|]. intros c. now apply sim_ret. Qed.
Lemma sim_extras (f f' : core -> B schema) e b x : all_opt (fun a => sim (over o) (f a) (f' (e a))) x -> sim (option_map (over o)) (extras_B f b x) (extras_B f' b (option_map e x)).
Proof. destruct x as [a|]; cbn; intros F; [|now apply sim_ret]. destruct b; try apply sim_fail. eapply sim_bind; [exact F|]. intros c. now apply sim_ret. Qed.
(** Steps that are the same and do not touch what is known. *)
Definition still {A} (m : B A) : Prop := forall n, match m n with Built (a, n') => n' = n /\ forall n2, m n2 = Built (a, n2) | SchemaError => forall n2, m n2 = SchemaError | Panics => forall n2, m n2 = Panics end.
Lemma sim_still A (m : B A) : still m -> sim (fun a => a) m m.
Proof. intros S n. specialize (S n). destruct (m n) as [[a n']| |]; [destruct S as [-> S]|..]; apply S. Qed.
Ltac still := let n := fresh in intros n; repeat match goal with |- context [if ?x then _ else _] => destruct x end; cbn; auto.
Lemma still_extra own g d : still (extra_of own g d).
Proof. unfold extra_of. destruct (setting own g g_extra) as [[w|]|]; still. Qed.
Lemma still_bytes g : still (bytes_of g).
Proof. unfold bytes_of. destruct (get g g_bytes); still. Qed.
Lemma still_mode w : still (mode_of w).
Proof. unfold mode_of. destruct w; still. Qed.
Lemma still_unpacked w : still (unpacked_of w).
Proof. unfold unpacked_of. destruct w; still. Qed.
Lemma still_revalidate own g : still (revalidate_of own g).
Proof. unfold revalidate_of. destruct (setting own g g_revalidate); still. Qed.
Lemma still_keys a n : still (keys_of a n).
Proof. unfold keys_of. destruct (collection_new a n); still. Qed.
Lemma still_default k : still (default_of k).
Proof. unfold default_of. destruct (hk_default k), (hk_factory k); still. Qed.
Lemma still_pattern k g : still (pattern_of compile k g).
Proof. unfold pattern_of. destruct (sk_pattern k) as [[t|m]|]; [|still|still]. cbv zeta. destruct (str_eqb _ _); [destruct (compile false t); still|]. destruct (str_eqb _ _); [destruct (compile true t); still|still]. Qed.

(** What the options change in a setting. *)
Lemma kept A own g (f : config -> option A) : (forall g, f (with_options o g) = get g f) -> setting own (wo g) f = setting own g f.
Proof. intros K. unfold setting. cbn [get]. now rewrite K. Qed.
Lemma strict_over own g : agrees own (op_strict o) -> is_strict own (wo g) = ruled (op_strict o) (is_strict own g).
Proof.
  unfold is_strict, setting, ruled. cbn [get with_options g_strict]. intros [->|[->| ->]]; cbn.
  - destruct (op_strict o); [reflexivity|]. now destruct g.
  - destruct own; [reflexivity|]. now destruct g.
  - destruct (op_strict o); [reflexivity|]. now destruct g.
Qed.
Lemma attributes_over own g d : agrees own (op_from_attributes o) -> unwrap_or (setting own (wo g) g_from_attributes) d = ruled (op_from_attributes o) (unwrap_or (setting own g g_from_attributes) d).
Proof.
  unfold setting, ruled. cbn [get with_options g_from_attributes]. intros [->|[->| ->]]; cbn.
  - destruct (op_from_attributes o); [reflexivity|]. now destruct g.
  - destruct own; [reflexivity|]. now destruct g.
  - destruct (op_from_attributes o); [reflexivity|]. now destruct g.
Qed.
Lemma alias_over own g : agrees own (op_by_alias o) -> setting own (wo g) g_by_alias = ruled_opt (op_by_alias o) (setting own g g_by_alias).
Proof.
  unfold setting. cbn [get with_options g_by_alias]. intros [->|[->| ->]]; cbn.
  - destruct (op_by_alias o); [reflexivity|]. now destruct g.
  - destruct own; [reflexivity|]. now destruct g.
  - destruct (op_by_alias o); [reflexivity|]. now destruct g.
Qed.
Lemma name_over own g : agrees own (op_by_name o) -> setting own (wo g) g_by_name = ruled_opt (op_by_name o) (setting own g g_by_name).
Proof.
  unfold setting. cbn [get with_options g_by_name]. intros [->|[->| ->]]; cbn.
  - destruct (op_by_name o); [reflexivity|]. now destruct g.
  - destruct own; [reflexivity|]. now destruct g.
  - destruct (op_by_name o); [reflexivity|]. now destruct g.
Qed.
Lemma get_alias g : get (wo g) g_by_alias = ruled_opt (op_by_alias o) (get g g_by_alias).
Proof. apply (alias_over None g). now left. Qed.
Lemma get_name g : get (wo g) g_by_name = ruled_opt (op_by_name o) (get g g_by_name).
Proof. apply (name_over None g). now left. Qed.
Lemma extra_kept own g d : extra_of own (wo g) d = extra_of own g d.
Proof. unfold extra_of. rewrite kept; [reflexivity|]. now intros [?|]. Qed.
Lemma revalidate_kept own g : revalidate_of own (wo g) = revalidate_of own g.
Proof. unfold revalidate_of. rewrite kept; [reflexivity|]. now intros [?|]. Qed.
Lemma bytes_kept g : bytes_of (wo g) = bytes_of g.
Proof. now destruct g. Qed.
Lemma pattern_kept k g : pattern_of compile k (wo g) = pattern_of compile k g.
Proof. unfold pattern_of. rewrite kept; [reflexivity|]. now intros [?|]. Qed.
Lemma loc_kept g : get (wo g) g_loc_by_alias = get g g_loc_by_alias.
Proof. now destruct g. Qed.
Lemma over_default s : has_default (over o s) = has_default s.
Proof. destruct s; try reflexivity; cbn; now destruct d. Qed.
Lemma over_omits s : omits (over o s) = omits s.
Proof. destruct s; reflexivity. Qed.
Lemma over_steps s : steps_of (over o s) = map (over o) (steps_of s).
Proof. destruct s; reflexivity. Qed.

Definition C (c : core) : Prop := forall g, (forall g' x, within g c g' x -> unopposed o x) -> sim (over o) (build g c) (build (wo g) (configured o c)).
Lemma C_list A (h : A -> core) c g l g2 : Forall (fun a => C (h a)) l -> incl (map (fun a => (g2, h a)) l) (parts g c) -> (forall g' x, within g c g' x -> unopposed o x) ->
  Forall (fun a => sim (over o) (build g2 (h a)) (build (wo g2) (configured o (h a)))) l.
Proof.
  intros F I N. rewrite Forall_forall in *. intros a X. apply (F a X). intros g' x W. apply (N g'). eapply WPart; [apply I, in_map_iff; exists a; split; [reflexivity|exact X]|exact W].
Qed.
Lemma C_opt c g x g2 : all_opt C x -> incl (map (pair g2) (opt_list x)) (parts g c) -> (forall g' x, within g c g' x -> unopposed o x) ->
  all_opt (fun a => sim (over o) (build g2 a) (build (wo g2) (configured o a))) x.
Proof. destruct x as [a|]; intros F I N; [|exact Logic.I]. cbn in *. apply F. intros g' x W. apply (N g'). eapply WPart; [apply I; now left|exact W]. Qed.
Lemma C_one c g a g2 : C a -> In (g2, a) (parts g c) -> (forall g' x, within g c g' x -> unopposed o x) -> sim (over o) (build g2 a) (build (wo g2) (configured o a)).
Proof. intros F I N. apply F. intros g' x W. apply (N g'). eapply WPart; [exact I|exact W]. Qed.
Ltac inl := first [apply incl_refl|apply incl_appl; inl|apply incl_appr; inl].
Ltac inparts := cbn [parts]; rewrite ?map_app; inl.
Ltac one N := eapply C_one; [eassumption| |exact N]; cbn [parts]; rewrite ?in_app_iff; cbn [In]; tauto.
Ltac opt N := first [apply sim_opt|apply sim_extras]; eapply C_opt; [eassumption| |exact N]; inparts.
Ltac li h N := eapply (C_list _ h); [eassumption| |exact N]; inparts.
Lemma params_sim g g' l : Forall (fun p => sim (over o) (build g (snd p)) (build g' (configured o (snd p)))) l ->
  forall d kw, sim (map (fun p : pinfo * schema => (fst p, over o (snd p)))) (params_B (build g) d kw l) (params_B (build g') d kw (map (fun p => (fst p, configured o (snd p))) l)).
Proof.
  induction 1 as [|p l F _ IH]; intros d kw; cbn [params_B map]; [now apply sim_ret|]. cbv zeta. cbn [fst snd]. eapply sim_bind; [exact F|]. intros s.
  rewrite over_omits, over_default. destruct (omits s); [apply sim_fail|]. destruct (_ && _); [apply sim_fail|].
  eapply sim_bind; [apply sim_still, still_keys|]. intros ks. eapply sim_bind; [apply IH|]. intros r. now apply sim_ret.
Qed.
Lemma define_sim k s : sim (fun u => u) (define k s) (define k (over o s)).
Proof.
  intros n. unfold define. cbn [ovk kn_defs kn_refs].
  assert (E : find_def k (map (fun p => (fst p, over o (snd p))) (kn_defs n)) = option_map (over o) (find_def k (kn_defs n))).
  { induction (kn_defs n) as [|[j x] l IH]; [reflexivity|]. cbn [map find_def fst snd]. now destruct (k =? j). }
  rewrite E. destruct (find_def k (kn_defs n)); cbn [option_map]; [reflexivity|]. unfold ovk. cbn [kn_defs kn_refs]. now rewrite map_app.
Qed.
Lemma build_configured : forall c, C c.
Proof.
  apply core_induction; intros; intros gg N; pose proof (N _ _ (WSelf _ _)) as U; cbn [unopposed] in U; cbn [Core.build configured].
  all: try (apply sim_ret; reflexivity).
  - apply sim_ret. cbn. now rewrite strict_over.
  - apply sim_ret. cbn. now rewrite strict_over.
  - apply sim_ret. cbn. rewrite strict_over, kept by (assumption || now intros [?|]). reflexivity.
  - rewrite pattern_kept. eapply sim_bind; [apply sim_still, still_pattern|]. intros p. apply sim_ret. cbn. unfold over_str. cbn. rewrite strict_over, !kept by (assumption || now intros [?|]). reflexivity.
  - rewrite bytes_kept. eapply sim_bind; [apply sim_still, still_bytes|]. intros m. apply sim_ret. cbn. unfold over_bytes. cbn. now rewrite strict_over.
  - destruct l; [apply sim_fail|now apply sim_ret].
  - eapply sim_bind; [opt N|]. intros it. apply sim_ret. unfold coll_of. cbn [over]. unfold over_coll. cbn. rewrite strict_over by exact U. destruct it as [[]|]; reflexivity.
  - eapply sim_bind; [opt N|]. intros it. apply sim_ret. unfold coll_of. cbn [over]. unfold over_coll. cbn. rewrite strict_over by exact U. destruct it as [[]|]; reflexivity.
  - eapply sim_bind; [apply sim_map; li (fun c : core => c) N|]. intros r. rewrite map_length. destruct (match v with Some i => _ | None => _ end); [apply sim_panic|].
    apply sim_ret. cbn. unfold over_tuple. cbn. now rewrite strict_over.
  - eapply sim_bind; [opt N|]. intros x. eapply sim_bind; [opt N|]. intros y. apply sim_ret. unfold coll_of. cbn [over]. unfold over_coll. cbn. rewrite strict_over by exact U. now destruct x, y.
  - eapply sim_bind; [one N|]. intros s. now apply sim_ret.
  - cbv zeta. eapply sim_bind; [apply sim_still, still_default|]. intros d. destruct (negb _); [apply sim_fail|]. eapply sim_bind; [one N|]. intros s. apply sim_ret. cbn. rewrite kept by (now intros [?|]). reflexivity.
  - eapply sim_bind; [apply sim_map; li (fun c : core => c) N|]. intros r.
    replace (flat_map steps_of (map (over o) r)) with (map (over o) (flat_map steps_of r)) by (induction r as [|x r IH]; cbn; [reflexivity|now rewrite map_app, IH, over_steps]).
    destruct (flat_map steps_of r) as [|x [|y q]]; [apply sim_fail|now apply sim_ret|now apply sim_ret].
  - eapply sim_bind; [one N|]. intros s. eapply sim_bind; [one N|]. intros s2. now apply sim_ret.
  - eapply sim_bind; [one N|]. intros s. eapply sim_bind; [one N|]. intros s2. apply sim_ret. cbn. now rewrite strict_over.
  - destruct t; [|apply sim_panic]. eapply sim_bind; [one N|]. intros s. now apply sim_ret.
  - eapply sim_bind; [one N|]. intros s. apply sim_ret. cbn. now rewrite U.
  - eapply sim_bind; [one N|]. intros s. apply sim_ret. cbn. now rewrite U.
  - apply sim_ret. cbn. now rewrite U.
  - eapply sim_bind; [one N|]. intros s. apply sim_ret. cbn. now rewrite (proj1 U).
  - eapply (sim_bind _ _ _ _ (map (fun p : schema * str => (over o (fst p), snd p)))).
    + apply sim_map. eapply Forall_impl; [|li (@fst core (option str)) N]. intros p S. cbn beta in S |- *. cbn [fst snd]. eapply sim_bind; [exact S|]. intros s. apply sim_ret. cbn. now rewrite named.
    + intros r. eapply sim_bind; [apply sim_still, still_mode|]. intros w. destruct r as [|p [|q r]]; cbn [map]; [apply sim_fail| |now apply sim_ret]. destruct (unwrap_or col true); now apply sim_ret.
  - eapply (sim_bind _ _ _ _ (map (fun p : pyval * schema => (fst p, over o (snd p))))).
    + apply sim_map. eapply Forall_impl; [|li (@snd pyval core) N]. intros p S. cbn beta in S |- *. cbn [fst snd]. eapply sim_bind; [exact S|]. intros s. now apply sim_ret.
    + intros r. apply sim_ret. cbn. now rewrite attributes_over.
  - rewrite extra_kept. eapply sim_bind; [apply sim_still, still_extra|]. intros e. eapply sim_bind; [opt N|]. intros x. eapply sim_bind; [opt N|]. intros y.
    eapply (sim_bind _ _ _ _ (map (fun p : finfo * schema => (fst p, over o (snd p))))).
    + apply sim_map. eapply Forall_impl; [|li (@snd field_keys core) N]. intros p S. cbn beta in S |- *. unfold model_field_B. cbn [fst snd]. eapply sim_bind; [exact S|]. intros s.
      eapply sim_bind; [apply sim_still, still_keys|]. intros ks. now apply sim_ret.
    + intros r. apply sim_ret. cbn [over]. unfold over_fields. cbn [fo_extra fo_strict fo_from_attributes fo_loc_by_alias fo_by_alias fo_by_name].
      now rewrite strict_over, attributes_over, get_alias, get_name, loc_kept by (apply U).
  - rewrite extra_kept. eapply sim_bind; [apply sim_still, still_extra|]. intros e. eapply sim_bind; [opt N|]. intros x.
    eapply (sim_bind _ _ _ _ (map (fun p : finfo * schema => (fst p, over o (snd p))))).
    + apply sim_map. eapply Forall_impl; [|li (@snd field_keys core) N]. intros p S. cbn beta in S |- *. unfold typed_dict_field_B. cbv zeta. cbn [fst snd]. eapply sim_bind; [exact S|]. intros s.
      rewrite over_omits, over_default, kept by (now intros [?|]). destruct (match ek_required (fst p) with Some true => has_default s | _ => false end); [apply sim_fail|]. destruct (_ && _); [apply sim_fail|].
      eapply sim_bind; [apply sim_still, still_keys|]. intros ks. now apply sim_ret.
    + intros r. apply sim_ret. cbn [over]. unfold over_typed. cbn [fo_extra fo_strict fo_from_attributes fo_loc_by_alias fo_by_alias fo_by_name].
      now rewrite strict_over, get_alias, get_name, loc_kept by (apply U).
  - eapply sim_bind; [apply params_sim; li (@snd param_keys core) N|]. intros ps. eapply sim_bind; [apply sim_still, still_unpacked|]. intros u. eapply sim_bind; [opt N|]. intros vk.
    replace (match option_map (over o) vk with None => true | _ => false end) with (match vk with None => true | _ => false end) by (now destruct vk).
    destruct (_ && _); [apply sim_fail|]. eapply sim_bind; [opt N|]. intros va. rewrite extra_kept. eapply sim_bind; [apply sim_still, still_extra|]. intros e.
    apply sim_ret. cbn [over]. unfold over_params. cbn [po_unpacked po_extra po_loc_by_alias po_by_alias po_by_name]. now rewrite alias_over, name_over, loc_kept by (apply U).
  - rewrite extra_kept. eapply sim_bind; [apply sim_still, still_extra|]. intros e. eapply sim_bind; [opt N|]. intros x.
    eapply (sim_bind _ _ _ _ (map (fun p : dinfo * schema => (fst p, over o (snd p))))).
    + apply sim_map. eapply Forall_impl; [|li (@snd dcf_keys core) N]. intros p S. cbn beta in S |- *. unfold dataclass_field_B. cbn [fst snd]. eapply sim_bind; [exact S|]. intros s.
      rewrite over_omits. destruct (omits s); [apply sim_fail|]. eapply sim_bind; [apply sim_still, still_keys|]. intros ks. now apply sim_ret.
    + intros r. apply sim_ret. cbn [over]. unfold over_dc. cbn [do_collect do_extra do_loc_by_alias do_by_alias do_by_name]. now rewrite get_alias, get_name, loc_kept.
  - eapply sim_bind; [one N|]. intros s. rewrite revalidate_kept. eapply sim_bind; [apply sim_still, still_revalidate|]. intros r. now apply sim_ret.
  - eapply sim_bind; [one N|]. intros s. rewrite revalidate_kept. eapply sim_bind; [apply sim_still, still_revalidate|]. intros r. apply sim_ret. cbn [over]. unfold over_dataclass.
    cbn [da_cls da_origin da_revalidate da_strict da_names da_slots da_post_init]. now rewrite strict_over by exact U.
  - eapply (sim_bind _ _ _ _ (map (fun u : unit => u))).
    + apply sim_map. eapply Forall_impl; [|li (@snd nat core) N]. intros p S. cbn beta in S |- *. cbn [fst snd]. eapply sim_bind; [exact S|]. intros s. apply define_sim.
    + intros _. one N.
  - eapply (sim_bind _ _ _ _ (fun u : unit => u)); [intros n; reflexivity|]. intros u. now apply sim_ret.
Qed.

(** ** What is built can be said *)
Notation S := (everywhere (sayable o)).
Definition keeps {A} (Q : A -> Prop) (m : B A) : Prop :=
  forall n a n', m n = Built (a, n') -> Forall (fun p => S (snd p)) (kn_defs n) -> Q a /\ Forall (fun p => S (snd p)) (kn_defs n').
Lemma keeps_ret A (Q : A -> Prop) a : Q a -> keeps Q (ret a).
Proof. intros H n b n' [= <- <-] D. auto. Qed.
Lemma keeps_fail A (Q : A -> Prop) : keeps Q fail.
Proof. intros n b n' E. discriminate E. Qed.
Lemma keeps_panic A (Q : A -> Prop) : keeps Q panic.
Proof. intros n b n' E. discriminate E. Qed.
Lemma keeps_bind A D (Q : A -> Prop) (R : D -> Prop) m k : keeps Q m -> (forall a, Q a -> keeps R (k a)) -> keeps R (bind m k).
Proof. intros M K n d n' E F. unfold bind in E. destruct (m n) as [[a n1]| |] eqn:Em; try discriminate E. cbn in E. destruct (M _ _ _ Em F) as [H F1]. eapply K; eassumption. Qed.
Lemma keeps_still A (m : B A) : still m -> keeps (fun _ => True) m.
Proof. intros H n a n' E F. specialize (H n). rewrite E in H. destruct H as [-> _]. auto. Qed.
Lemma keeps_map A D (Q : D -> Prop) (f : A -> B D) l : Forall (fun a => keeps Q (f a)) l -> keeps (Forall Q) (mapB f l).
Proof.
  induction 1 as [|a l F _ IH]; cbn [mapB]; [apply keeps_ret; constructor|]. eapply keeps_bind; [exact F|]. intros c Hc. eapply keeps_bind; [exact IH|]. intros r Hr. apply keeps_ret. now constructor.
Qed.
Lemma keeps_opt (f : core -> B schema) x : all_opt (fun a => keeps S (f a)) x -> keeps (all_opt S) (optB f x).
Proof. destruct x as [a|]; cbn; intros F; [|now apply keeps_ret]. eapply keeps_bind; [exact F|]. intros c H. now apply keeps_ret. Qed.
Lemma keeps_extras (f : core -> B schema) b x : all_opt (fun a => keeps S (f a)) x -> keeps (all_opt S) (extras_B f b x).
Proof. destruct x as [a|]; cbn; intros F; [|now apply keeps_ret]. destruct b; try apply keeps_fail. eapply keeps_bind; [exact F|]. intros c H. now apply keeps_ret. Qed.
Lemma keeps_params g l : Forall (fun p => keeps S (build g (snd p))) l -> forall d kw, keeps (Forall (fun p : pinfo * schema => S (snd p))) (params_B (build g) d kw l).
Proof.
  induction 1 as [|p l F _ IH]; intros d kw; cbn [params_B]; [apply keeps_ret; constructor|]. cbv zeta. eapply keeps_bind; [exact F|]. intros s H.
  destruct (omits s); [apply keeps_fail|]. destruct (_ && _); [apply keeps_fail|]. eapply keeps_bind; [apply keeps_still, still_keys|]. intros ks _. eapply keeps_bind; [apply IH|]. intros r Hr. apply keeps_ret. now constructor.
Qed.
Definition K (c : core) : Prop := forall g, (forall g' x, within g c g' x -> unopposed o x) -> keeps S (build g c).
Lemma K_list A (h : A -> core) c g l g2 : Forall (fun a => K (h a)) l -> incl (map (fun a => (g2, h a)) l) (parts g c) -> (forall g' x, within g c g' x -> unopposed o x) ->
  Forall (fun a => keeps S (build g2 (h a))) l.
Proof.
  intros F I N. rewrite Forall_forall in *. intros a X. apply (F a X). intros g' x W. apply (N g'). eapply WPart; [apply I, in_map_iff; exists a; split; [reflexivity|exact X]|exact W].
Qed.
Lemma K_opt c g x g2 : all_opt K x -> incl (map (pair g2) (opt_list x)) (parts g c) -> (forall g' x, within g c g' x -> unopposed o x) -> all_opt (fun a => keeps S (build g2 a)) x.
Proof. destruct x as [a|]; intros F I N; [|exact Logic.I]. cbn in *. apply F. intros g' x W. apply (N g'). eapply WPart; [apply I; now left|exact W]. Qed.
Lemma K_one c g a g2 : K a -> In (g2, a) (parts g c) -> (forall g' x, within g c g' x -> unopposed o x) -> keeps S (build g2 a).
Proof. intros F I N. apply F. intros g' x W. apply (N g'). eapply WPart; [exact I|exact W]. Qed.
Lemma opt_S x : all_opt S x -> forall c, In c (opt_list x) -> S c.
Proof. destruct x as [a|]; cbn; [|tauto]. intros H c [<-|[]]. exact H. Qed.
Lemma map_S A (h : A -> schema) l : Forall (fun a => S (h a)) l -> forall c, In c (map h l) -> S c.
Proof. intros F c I. apply in_map_iff in I. destruct I as (a & <- & I). rewrite Forall_forall in F. auto. Qed.
Lemma any_S : S SAny.
Proof. constructor; [exact Logic.I|]. intros c []. Qed.
Lemma unwrap_S x : all_opt S x -> S (unwrap_or x SAny).
Proof. destruct x; [auto|]. intros _. apply any_S. Qed.
Ltac kone N := eapply K_one; [eassumption| |exact N]; cbn [parts]; rewrite ?in_app_iff; cbn [In]; tauto.
Ltac kopt N := first [apply keeps_opt|apply keeps_extras]; eapply K_opt; [eassumption| |exact N]; inparts.
Ltac kli h N := eapply (K_list _ h); [eassumption| |exact N]; inparts.
Ltac node := apply keeps_ret; constructor; [try exact Logic.I; cbn [sayable]|cbn [children]; intros ?c ?I].
Ltac ins := repeat match goal with I : In _ (_ ++ _) |- _ => apply in_app_or in I; destruct I as [I|I] | I : In _ (_ :: _) |- _ => destruct I as [<-|I] | I : In _ [] |- _ => destruct I end;
  try assumption; try (eapply opt_S; [|eassumption]; assumption); try (eapply map_S; [|eassumption]; assumption); try (now apply unwrap_S).
Lemma build_said : forall c, K c.
Proof.
  apply core_induction; intros; intros gg N; pose proof (N _ _ (WSelf _ _)) as U; cbn [unopposed] in U; cbn [Core.build].
  - node; ins. - node; ins. - node; ins. - node; ins. - node; ins.
  - eapply keeps_bind; [apply keeps_still, still_pattern|]. intros p _. node; ins.
  - eapply keeps_bind; [apply keeps_still, still_bytes|]. intros p _. node; ins.
  - destruct l; [apply keeps_fail|]. node; ins.
  - node; ins.
  - eapply keeps_bind; [kopt N|]. intros it Q. apply keeps_ret. destruct it as [[]|]; (constructor; [exact Logic.I|]; cbn [children opt_list]; intros c0 I0; ins).
  - eapply keeps_bind; [kopt N|]. intros it Q. node; ins.
  - eapply keeps_bind; [apply (keeps_map _ _ S); kli (fun c : core => c) N|]. intros r Q. destruct (match v with Some i => _ | None => _ end); [apply keeps_panic|]. node. rewrite Forall_forall in Q. auto.
  - eapply keeps_bind; [kopt N|]. intros x Qx. eapply keeps_bind; [kopt N|]. intros y Qy. node; ins.
  - eapply keeps_bind; [kone N|]. intros s Q. node; ins.
  - cbv zeta. eapply keeps_bind; [apply keeps_still, still_default|]. intros d _. destruct (negb _); [apply keeps_fail|]. eapply keeps_bind; [kone N|]. intros s Q. node; ins.
  - eapply keeps_bind; [apply (keeps_map _ _ S); kli (fun c : core => c) N|]. intros r Q.
    assert (Q' : Forall S (flat_map steps_of r)).
    { induction Q as [|x r Hx _ IH]; cbn; [constructor|]. apply Forall_app. split; [|exact IH]. destruct x; cbn [steps_of]; try (constructor; [exact Hx|constructor]). inversion Hx as [x' _ Ch]; subst x'. cbn [children] in Ch. now apply Forall_forall. }
    destruct (flat_map steps_of r) as [|x [|y q]]; [apply keeps_fail|apply keeps_ret; now inversion Q'|]. node. rewrite Forall_forall in Q'. auto.
  - eapply keeps_bind; [kone N|]. intros s Q. eapply keeps_bind; [kone N|]. intros s2 Q2. node; ins.
  - eapply keeps_bind; [kone N|]. intros s Q. eapply keeps_bind; [kone N|]. intros s2 Q2. node; ins.
  - destruct t; [|apply keeps_panic]. eapply keeps_bind; [kone N|]. intros s Q. node; ins.
  - eapply keeps_bind; [kone N|]. intros s Q. node; ins.
  - eapply keeps_bind; [kone N|]. intros s Q. node; ins.
  - node; ins.
  - eapply keeps_bind; [kone N|]. intros s Q. node; [apply U|ins].
  - eapply keeps_bind; [apply (keeps_map _ _ (fun p : schema * str => S (fst p)))|].
    + eapply Forall_impl; [|kli (@fst core (option str)) N]. intros p Q. cbn beta in Q |- *. eapply keeps_bind; [exact Q|]. intros s Qs. now apply keeps_ret.
    + intros r Q. eapply keeps_bind; [apply keeps_still, still_mode|]. intros w _. destruct r as [|p [|q r]]; [apply keeps_fail| |node; ins].
      destruct (unwrap_or col true); [apply keeps_ret; now inversion Q|node; ins].
  - eapply keeps_bind; [apply (keeps_map _ _ (fun p : pyval * schema => S (snd p)))|].
    + eapply Forall_impl; [|kli (@snd pyval core) N]. intros p Q. cbn beta in Q |- *. eapply keeps_bind; [exact Q|]. intros s Qs. now apply keeps_ret.
    + intros r Q. node; [destruct d; apply U|ins].
  - eapply keeps_bind; [apply keeps_still, still_extra|]. intros e _. eapply keeps_bind; [kopt N|]. intros x Qx. eapply keeps_bind; [kopt N|]. intros y Qy.
    eapply keeps_bind; [apply (keeps_map _ _ (fun p : finfo * schema => S (snd p)))|].
    + eapply Forall_impl; [|kli (@snd field_keys core) N]. intros p Q. cbn beta in Q |- *. unfold model_field_B. eapply keeps_bind; [exact Q|]. intros s Qs.
      eapply keeps_bind; [apply keeps_still, still_keys|]. intros ks _. now apply keeps_ret.
    + intros r Q. node; ins.
  - eapply keeps_bind; [apply keeps_still, still_extra|]. intros e _. eapply keeps_bind; [kopt N|]. intros x Qx.
    eapply keeps_bind; [apply (keeps_map _ _ (fun p : finfo * schema => S (snd p)))|].
    + eapply Forall_impl; [|kli (@snd field_keys core) N]. intros p Q. cbn beta in Q |- *. unfold typed_dict_field_B. cbv zeta. eapply keeps_bind; [exact Q|]. intros s Qs.
      destruct (match ek_required (fst p) with Some true => has_default s | _ => false end); [apply keeps_fail|]. destruct (_ && _); [apply keeps_fail|].
      eapply keeps_bind; [apply keeps_still, still_keys|]. intros ks _. now apply keeps_ret.
    + intros r Q. node; ins.
  - eapply keeps_bind; [apply keeps_params; kli (@snd param_keys core) N|]. intros ps Qp. eapply keeps_bind; [apply keeps_still, still_unpacked|]. intros u _. eapply keeps_bind; [kopt N|]. intros vk Qk.
    destruct (_ && _); [apply keeps_fail|]. eapply keeps_bind; [kopt N|]. intros va Qa. eapply keeps_bind; [apply keeps_still, still_extra|]. intros e _. node; ins.
  - eapply keeps_bind; [apply keeps_still, still_extra|]. intros e _. eapply keeps_bind; [kopt N|]. intros x Qx.
    eapply keeps_bind; [apply (keeps_map _ _ (fun p : dinfo * schema => S (snd p)))|].
    + eapply Forall_impl; [|kli (@snd dcf_keys core) N]. intros p Q. cbn beta in Q |- *. unfold dataclass_field_B. eapply keeps_bind; [exact Q|]. intros s Qs.
      destruct (omits s); [apply keeps_fail|]. eapply keeps_bind; [apply keeps_still, still_keys|]. intros ks _. now apply keeps_ret.
    + intros r Q. node; ins.
  - eapply keeps_bind; [kone N|]. intros s Q. eapply keeps_bind; [apply keeps_still, still_revalidate|]. intros r _. node; ins.
  - eapply keeps_bind; [kone N|]. intros s Q. eapply keeps_bind; [apply keeps_still, still_revalidate|]. intros r _. node; ins.
  - eapply keeps_bind; [apply (keeps_map _ _ (fun _ : unit => True))|].
    + eapply Forall_impl; [|kli (@snd nat core) N]. intros p Q. cbn beta in Q |- *. eapply keeps_bind; [exact Q|]. intros s Qs n u n' E F. unfold define in E.
      destruct (find_def _ _); [discriminate E|]. injection E as _ <-. cbn [kn_defs]. split; [exact Logic.I|]. apply Forall_app. split; [exact F|]. constructor; [exact Qs|constructor].
    + intros _ _. kone N.
  - intros n a n' E F. injection E as <- <-. split; [|exact F]. constructor; [exact Logic.I|]. intros c [].
Qed.

Lemma find_over k l : find_def k (map (fun p => (fst p, over o (snd p))) l) = option_map (over o) (find_def k l).
Proof. induction l as [|[j x] l IH]; [reflexivity|]. cbn [map find_def fst snd]. now destruct (k =? j). Qed.
Lemma found_S k l d : Forall (fun p => S (snd p)) l -> find_def k l = Some d -> S d.
Proof. intros F. induction F as [|[j x] l X _ IH]; cbn; [discriminate|]. destruct (k =? j); [intros [= <-]; exact X|exact IH]. Qed.
Theorem validator_configured : forall g c, (forall g' x, within g c g' x -> unopposed o x) ->
  match schema_validator name_of compile g c with
  | Built (s, defs) => holds_of (sayable o) defs s /\
      exists defs', schema_validator name_of compile (wo g) (configured o c) = Built (over o s, defs') /\ forall k, defs' k = option_map (over o) (defs k)
  | SchemaError => schema_validator name_of compile (wo g) (configured o c) = SchemaError
  | Panics => schema_validator name_of compile (wo g) (configured o c) = Panics
  end.
Proof.
  intros g c N. unfold schema_validator. pose proof (build_configured c g N {| kn_defs := []; kn_refs := [] |}) as H. change (ovk {| kn_defs := []; kn_refs := [] |}) with {| kn_defs := []; kn_refs := [] |} in H. rewrite H.
  destruct (build g c _) as [[s n]| |] eqn:E; cbn [bbind fst snd]; [|reflexivity|reflexivity].
  destruct (build_said c g N _ _ _ E (Forall_nil _)) as [Qs Qd].
  assert (R : forallb (fun k => match find_def k (kn_defs (ovk n)) with Some _ => true | None => false end) (kn_refs (ovk n)) = forallb (fun k => match find_def k (kn_defs n) with Some _ => true | None => false end) (kn_refs n)).
  { cbn [ovk kn_refs kn_defs]. induction (kn_refs n) as [|k l IH]; [reflexivity|]. cbn [forallb]. rewrite IH, find_over. now destruct (find_def k (kn_defs n)). }
  rewrite R. destruct (forallb (fun k => match find_def k (kn_defs n) with Some _ => true | None => false end) (kn_refs n)); [|reflexivity]. split; [split; [exact Qs|intros k d; apply found_S, Qd]|]. eexists. split; [reflexivity|]. intros k. apply find_over.
Qed.
End Configured.
