From Coq Require Import List NArith ZArith Bool Lia.
From Verif Require Import Base Float64 IntParse IntParseProofs Numbers NumbersSpec NumbersProofs BytesCodec Values VState LookupKey Collections Child Inputs Scalars Literal Wrappers Union TaggedUnion Tuple ModelFields TypedDict Assign Arguments Classes Interp InterpSpec InterpProofs ConformSpec ConformProofs ConformProofs2 ConformProofs4.
Import ListNotations.
Open Scope nat_scope.

(** ** Typed dicts *)
Section TypedDictOk.
Variable strings : bool.
Variable X : Type.
Variable fld : X -> field.
Variable P : X -> pyval -> Prop.
Variable O : X -> Prop.
Variable c : fields_cfg.
Variable Pe : pyval -> Prop.
Variable Oe : Prop.
Variable xs : list X.
Hypothesis He : forall v, fc_extras c = Some v -> vok strings Pe Oe v.

Definition td_entry (k v : pyval) : Prop :=
  (exists x, In x xs /\ k = PStr (f_name (fld x)) /\ P x v) \/
  (fc_extra c = ExtraAllow /\ (exists n, k = PStr n) /\ (fc_extras c <> None -> Pe v) /\
   (strings = false -> forall x, In x xs -> k = PStr (f_name (fld x)) -> ~ unaliased (f_name (fld x)) (f_keys (fld x)))).
Record tdinv (base : list pyval) (e0 : list line_error) (out : list (pyval * pyval)) (errors : list line_error) : Prop := {
  ti_distinct : distinct fst out;
  ti_entries : forall k v, In (k, v) out -> td_entry k v;
  ti_keep : forall k, In k base -> In k (map fst out);
  ti_errors : e0 <> [] -> errors <> [] }.
Lemma td_strs base e0 out errors : tdinv base e0 out errors -> forall k, In k (map fst out) -> exists n, k = PStr n.
Proof. intros F k K. apply in_map_iff in K. destruct K as ([k' v] & <- & K). destruct (ti_entries _ _ _ _ F _ _ K) as [(x & _ & Q & _)|(_ & Q & _)]; [eauto|exact Q]. Qed.
Lemma tdinv_add base e0 out errors es : tdinv base e0 out errors -> tdinv base e0 out (errors ++ es).
Proof. intros [A B C D]. constructor; auto. intros N. apply add_not_nil. auto. Qed.
Lemma tdinv_put base e0 out errors n v : tdinv base e0 out errors -> td_entry (PStr n) v -> tdinv base e0 (dict_set (PStr n) v out) errors.
Proof.
  intros F H1. pose proof (td_strs _ _ _ _ F) as S. destruct F as [A B C D]. constructor; [now apply dict_set_distinct| | |exact D].
  - intros k w J. apply dict_set_str_entries in J; [|exact S]. destruct J as [J|[-> ->]]; auto.
  - intros k K. apply dict_set_keeps. auto.
Qed.

Lemma td_extras_ok md used last p base e0 es : md_ok strings md -> md_is_attr md = false ->
  (forall x, In x xs -> forall a : facc, fa_used a = used -> used_ok X fld md x a) ->
  Forall (entry_ok strings) es -> (forall en, In en es -> exists all, md_iter md = VOk all /\ In en all) ->
  forall out errors s, tdinv base e0 out errors ->
  vk (fun r => tdinv base e0 (fst r) (snd r)) (fc_extras c <> None /\ Oe) (fst (td_extras c used last p es out errors s)).
Proof.
  intros MD NA US F. induction F as [|en es A F IH]; intros SUB out errors s E; cbn [td_extras]; [exact E|].
  specialize (IH (fun en J => SUB en (or_intror J))). destruct (SUB en (or_introl eq_refl)) as (all & IT & INA).
  destruct en as [key kl value|e]; [|destruct e; try exact I; destruct A]. destruct A as [A1 A2].
  pose proof (key_str_no key) as KN. destruct (key_str key) as [k|[l|x| | |]] eqn:KS; try exact I; try destruct KN; [|apply IH, tdinv_add, E].
  destruct (mem_str k used) eqn:MEM; [apply IH, E|]. destruct (fc_extra c) eqn:FX; [|apply IH, tdinv_add, E|apply IH, E].
  assert (NU : strings = false -> forall x, In x xs -> PStr k = PStr (f_name (fld x)) -> ~ unaliased (f_name (fld x)) (f_keys (fld x))).
  { intros ST x Xx [= EQ] U. destruct (mo_found _ _ MD ST NA _ _ _ _ _ IT INA KS) as [j G]. rewrite EQ in G.
    pose proof (US x Xx {| fa_dict := []; fa_errors := []; fa_set := []; fa_used := used |} eq_refl U _ _ G) as Q. cbn in Q. apply (mem_false _ _ MEM). now rewrite EQ. }
  destruct (fc_extras c) as [v|] eqn:FE.
  - match goal with |- context [v value ?s0] => pose proof (He v eq_refl value s0 A2) as V; destruct (v value s0) as [[x|[l|x| | |]] s1] end; try exact I.
    + apply IH. apply tdinv_put; [exact E|]. right. split; [exact FX|]. split; [eauto|]. split; [auto|exact NU].
    + destruct (last_is last kl); [apply IH, E|apply IH, tdinv_add, E].
    + split; [discriminate|exact V].
  - apply IH. apply tdinv_put; [exact E|]. right. split; [exact FX|]. split; [eauto|]. split; [intros Q; now rewrite FE in Q|exact NU].
Qed.

Lemma typed_dict_ok vd : children_ok strings X fld P O xs -> fc_fields c = map fld xs ->
  (forall b i md, allowed strings i -> vd b i = VOk md -> md_ok strings md /\ md_is_attr md = false) -> (forall b i, no (vd b i)) -> (forall b i md, vd b i = VOk md -> mdne md) ->
  vok strings (fun v => exists d, v = PDict d /\ distinct fst d /\ (forall k v, In (k, v) d -> td_entry k v) /\
     (strings = false -> forall f, In f xs -> f_required (fld f) = true -> In (PStr (f_name (fld f))) (map fst d) \/ O f))
   (fc_extras c <> None /\ Oe) (typed_dict_validate c vd).
Proof.
  intros HC EF HM HN HMN i s A. unfold typed_dict_validate. 
  match goal with |- context [vd ?b i] => specialize (HM b i); specialize (HN b i); specialize (HMN b i); destruct (vd b i) as [md|e] end; [|destruct e; try exact I; destruct HN].
  destruct (HM _ A eq_refl) as [MD NA]. specialize (HMN _ eq_refl). cbv zeta. unfold rebind. rewrite EF.
  set (last := if is_active (st_partial s) then md_last_key md else None). set (s1 := set_extra _ s).
  pose proof (td_loop_ok strings X fld P O (fun x => f_required (fld x) = true /\ strings = false) md MD HMN c i last (st_partial s) (validate_by_alias_or s (fc_by_alias c)) (validate_by_name_or s (fc_by_name c)) xs HC (fun _ _ Q => Q) NA [] fa_init s1 (finv_init _ _ _ _ _ _)) as L.
  destruct (td_loop c md i last _ _ _ (map fld xs) fa_init s1) as [[a|e] s2]; [|destruct e; try exact I; destruct L]. cbn [vk fst app] in L.
  destruct L as [L1 L2 L3 L4 L5].
  assert (FIN : forall out errors (s' : state), tdinv (map fst (fa_dict a)) (fa_errors a) out errors ->
     vk (fun v => exists d, v = PDict d /\ distinct fst d /\ (forall k v, In (k, v) d -> td_entry k v) /\
     (strings = false -> forall f, In f xs -> f_required (fld f) = true -> In (PStr (f_name (fld f))) (map fst d) \/ O f))
   (fc_extras c <> None /\ Oe) (fst (if is_nil errors then (VOk (PDict out), s') else (VErr (LineErrors errors), s')))).
  { intros out errors s' [T1 T2 T3 T4]. destruct errors as [|x l]; cbn [is_nil]; [|exact I]. exists out. split; [reflexivity|]. split; [exact T1|]. split; [exact T2|].
    intros ST f Ff R. destruct (L3 f Ff (conj R ST)) as [Z|[Z|Z]]; [left; apply T3, Z|auto|]. now apply T4 in Z. }
  assert (T0 : tdinv (map fst (fa_dict a)) (fa_errors a) (fa_dict a) (fa_errors a)). { constructor; auto. intros k v J. left. destruct (L2 _ _ J) as (x & ? & ? & ?). eauto. }
  destruct (_ || _).
  - now apply FIN.
  - pose proof (mo_iter _ _ MD) as IT. destruct (md_iter md) as [es|e] eqn:MI; [|destruct e; try exact I; destruct IT]. cbn in IT.
    match goal with |- context [td_extras c (fa_used a) last ?p es (fa_dict a) (fa_errors a) ?s3] => 
      pose proof (fun U => td_extras_ok md (fa_used a) last p (map fst (fa_dict a)) (fa_errors a) es MD NA U IT) as L end.
    assert (U : forall x, In x xs -> forall a0 : facc, fa_used a0 = fa_used a -> used_ok X fld md x a0). { intros x Xx a0 EQ U p j G. rewrite EQ. exact (L5 x Xx U p j G). }
    specialize (L U). rewrite MI in L. specialize (L (fun en J => ex_intro _ es (conj eq_refl J)) (fa_dict a) (fa_errors a)).
    match goal with |- context [td_extras c (fa_used a) last ?p es (fa_dict a) (fa_errors a) ?s3] => specialize (L s3 T0); destruct (td_extras c (fa_used a) last p es (fa_dict a) (fa_errors a) s3) as [[[out errors]|e] s4] end; [|destruct e; try exact I; exact L].
    now apply FIN.
Qed.
End TypedDictOk.
