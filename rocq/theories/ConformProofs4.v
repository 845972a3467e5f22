From Coq Require Import List NArith ZArith Bool Lia.
From Verif Require Import Base Float64 IntParse IntParseProofs Numbers NumbersSpec NumbersProofs BytesCodec Values VState LookupKey Collections Child Inputs Scalars Literal Wrappers Union TaggedUnion Tuple ModelFields TypedDict Assign Arguments Classes Interp InterpSpec InterpProofs ConformSpec ConformProofs ConformProofs2.
Import ListNotations.
Open Scope nat_scope.

Lemma str_key_eq a b : py_eq (PStr a) (PStr b) = true -> a = b.
Proof. cbn. apply str_eqb_eq. Qed.
Lemma str_key_refl a : py_eq (PStr a) (PStr a) = true.
Proof. cbn. now apply str_eqb_eq. Qed.
Lemma dict_set_str_in k v d : (forall a, In a (map fst d) -> exists n, a = PStr n) -> In (PStr k) (map fst (dict_set (PStr k) v d)).
Proof.
  induction d as [|[a b] d IH]; intros H; cbn; [now left|]. destruct (py_eq a (PStr k)) eqn:Q; cbn.
  - left. destruct (H a (or_introl eq_refl)) as [n ->]. f_equal. now apply str_key_eq.
  - right. apply IH. intros x X. apply H. now right.
Qed.
Lemma dict_set_str_entries k v d a b : (forall a, In a (map fst d) -> exists n, a = PStr n) -> In (a, b) (dict_set (PStr k) v d) -> In (a, b) d \/ (a = PStr k /\ b = v).
Proof.
  intros H J. apply dict_set_in in J. destruct J as [J|[-> [->|[Q [b' J]]]]]; [auto|auto|]. right. split; [|reflexivity].
  destruct (H a) as [n ->]; [apply in_map_iff; now exists (a, b')|]. f_equal. now apply str_key_eq.
Qed.
Lemma in_keys A B (k : A) (v : B) d : In (k, v) d -> In k (map fst d).
Proof. intros J. apply in_map_iff. now exists (k, v). Qed.
Lemma dict_set_strs k v d : (forall a, In a (map fst d) -> exists n, a = PStr n) -> forall a, In a (map fst (dict_set (PStr k) v d)) -> exists n, a = PStr n.
Proof. intros H a J. destruct (dict_set_keys (PStr k) v d) as [E|[E _]]; rewrite E in J; [auto|]. apply in_app_or in J. destruct J as [J|[<-|[]]]; eauto. Qed.
Lemma name_set_in y l : In y (name_set l) -> exists n, y = PStr n /\ In n l.
Proof.
  unfold name_set. assert (G : forall acc, In y (fold_left (fun s k => set_add (PStr k) s) l acc) -> In y acc \/ exists n, y = PStr n /\ In n l).
  { induction l as [|n l IH]; intros acc; cbn; [auto|]. intros J. destruct (IH _ J) as [K|(m & -> & M)]; [|eauto]. apply set_add_in in K. destruct K as [->|K]; eauto. }
  intros J. destruct (G _ J) as [[]|X]. exact X.
Qed.
Lemma add_not_nil (l m : list line_error) : l <> [] -> l ++ m <> []. Proof. destruct l; [easy|discriminate]. Qed.
Lemma mem_false k l : mem_str k l = false -> ~ In k l.
Proof. intros H J. apply Bool.not_true_iff_false in H. apply H. unfold mem_str in *. apply existsb_exists. exists k. split; [exact J|now apply str_eqb_eq]. Qed.

Section FieldsOk.
Variable strings : bool.
Variable X : Type.
Variable fld : X -> field.
Variable P : X -> pyval -> Prop.
Variable O : X -> Prop.
Variable must : X -> Prop.
Variable md : mdict.

Definition used_ok (x : X) (a : facc) : Prop := unaliased (f_name (fld x)) (f_keys (fld x)) -> forall p i, md_get md (Simple (path_from_str (f_name (fld x)))) = VOk (Some (p, i)) -> In (lp_first p) (fa_used a).
Record finv (l : list X) (a : facc) : Prop := {
  fi_distinct : distinct fst (fa_dict a);
  fi_entries : forall k v, In (k, v) (fa_dict a) -> exists x, In x l /\ k = PStr (f_name (fld x)) /\ P x v;
  fi_present : forall x, In x l -> must x -> In (PStr (f_name (fld x))) (map fst (fa_dict a)) \/ O x \/ fa_errors a <> [];
  fi_set : forall n, In n (fa_set a) -> In (PStr n) (map fst (fa_dict a));
  fi_used : forall x, In x l -> used_ok x a }.

Lemma fi_strs l a : finv l a -> forall k, In k (map fst (fa_dict a)) -> exists n, k = PStr n.
Proof. intros F k K. apply in_map_iff in K. destruct K as ([k' v] & <- & K). destruct (fi_entries _ _ F _ _ K) as (x & _ & E & _). eauto. Qed.
Lemma finv_init : finv [] fa_init.
Proof. constructor; cbn; try easy. constructor. Qed.
Lemma finv_use l k a : finv l a -> finv l (fa_use k a).
Proof. intros [A B C D E]. constructor; auto. intros x J U p i G. right. exact (E x J U p i G). Qed.
Lemma finv_put l x v a : finv l a -> P x v -> used_ok x a -> finv (l ++ [x]) (fa_put (f_name (fld x)) v a).
Proof.
  intros F PV U. pose proof (fi_strs _ _ F) as S. destruct F as [A B C D E]. constructor; cbn [fa_put fa_dict fa_errors fa_set fa_used].
  - now apply dict_set_distinct.
  - intros k w J. apply dict_set_str_entries in J; [|exact S]. destruct J as [J|[-> ->]]; [destruct (B _ _ J) as (y & Y & Q); exists y; split; [apply in_or_app; now left|exact Q]|exists x; split; [apply in_or_app; right; now left|auto]].
  - intros y Y M. apply in_app_or in Y. destruct Y as [Y|[<-|[]]]; [|left; now apply dict_set_str_in]. destruct (C y Y M) as [Q|Q]; [left; now apply dict_set_keeps|right; exact Q].
  - intros n N. apply dict_set_keeps. auto.
  - intros y Y. apply in_app_or in Y. destruct Y as [Y|[<-|[]]]; [exact (E y Y)|exact U].
Qed.
Lemma finv_mark l n a : finv l a -> In (PStr n) (map fst (fa_dict a)) -> finv l (fa_mark n a).
Proof. intros [A B C D E] J. constructor; auto. cbn. intros m M. apply in_app_or in M. destruct M as [M|[<-|[]]]; auto. Qed.
Lemma finv_errs l x es a : finv l a -> used_ok x a -> es <> [] -> finv (l ++ [x]) (fa_add_errors es a).
Proof.
  intros [A B C D E] U N. constructor; auto; cbn [fa_add_errors fa_dict fa_errors fa_set fa_used].
  - intros k v J. destruct (B _ _ J) as (y & Y & Q). exists y. split; [apply in_or_app; now left|exact Q].
  - intros y Y M. right. right. now apply app_not_nil.
  - intros y Y. apply in_app_or in Y. destruct Y as [Y|[<-|[]]]; [exact (E y Y)|exact U].
Qed.
Lemma finv_skip l x a : finv l a -> used_ok x a -> (must x -> O x) -> finv (l ++ [x]) a.
Proof.
  intros [A B C D E] U N. constructor; auto.
  - intros k v J. destruct (B _ _ J) as (y & Y & Q). exists y. split; [apply in_or_app; now left|exact Q].
  - intros y Y M. apply in_app_or in Y. destruct Y as [Y|[<-|[]]]; auto.
  - intros y Y. apply in_app_or in Y. destruct Y as [Y|[<-|[]]]; [exact (E y Y)|exact U].
Qed.
Lemma used_found x a key ba bn p i : collection_select (f_keys (fld x)) ba bn = BOk key -> md_get md key = VOk (Some (p, i)) -> used_ok x (fa_use (lp_first p) a).
Proof.
  intros K G U q j H. unfold unaliased in U. rewrite U in K. assert (K' : key = Simple (path_from_str (f_name (fld x)))) by (destruct ba, bn; cbn in K; congruence).
  subst key. rewrite G in H. injection H as -> ->. now left.
Qed.
Lemma used_none x a key ba bn : collection_select (f_keys (fld x)) ba bn = BOk key -> (forall p i, md_get md key <> VOk (Some (p, i))) -> used_ok x a.
Proof.
  intros K G U q j H. unfold unaliased in U. rewrite U in K. assert (K' : key = Simple (path_from_str (f_name (fld x)))) by (destruct ba, bn; cbn in K; congruence).
  subst key. now apply G in H.
Qed.

Lemma put_in l x v a : finv l a -> In (PStr (f_name (fld x))) (map fst (fa_dict (fa_put (f_name (fld x)) v a))).
Proof. intros F. apply dict_set_str_in. exact (fi_strs _ _ F). Qed.

Definition children_ok (xs : list X) : Prop := forall x, In x xs -> vok strings (P x) (O x) (cv_validate (f_cv (fld x))) /\ (exists D : Prop, dok (P x) (O x) D (cv_default (f_cv (fld x)))) /\ cvne (f_cv (fld x)).
Hypothesis MD : md_ok strings md.
Hypothesis MN : mdne md.

Lemma fields_loop_ok c i ba bn xs : children_ok xs -> forall l a s, finv l a ->
  vk (finv (l ++ xs)) False (fst (fields_loop c md i ba bn (map fld xs) a s)).
Proof.
  induction xs as [|x xs IH]; intros H l a s F; cbn [fields_loop map]; [rewrite app_nil_r; exact F|].
  assert (H' : children_ok xs) by (intros y Y; apply H; now right). specialize (IH H').
  assert (K : forall a s, finv (l ++ [x]) a -> vk (finv (l ++ x :: xs)) False (fst (fields_loop c md i ba bn (map fld xs) a s))).
  { intros a0 s0 F0. specialize (IH (l ++ [x]) a0 s0 F0). now rewrite <- app_assoc in IH. }
  destruct (H x (or_introl eq_refl)) as (HV & (D & HD) & HN & HDN).
  cbv zeta. set (s0 := set_extra _ s). destruct (collection_select _ ba bn) as [key|] eqn:SEL; [|exact I].
  pose proof (mo_get _ _ MD key) as G. pose proof (proj1 MN key) as N. destruct (md_get md key) as [[[path value]|]|e] eqn:GET; cbn in G, N.
  - specialize (G _ _ eq_refl). unfold rebind. set (s1 := set_extra _ s0). pose proof (HV value s1 G) as V. pose proof (HN value s1) as VN.
    pose proof (used_found x a _ _ _ _ _ SEL GET) as U. pose proof (finv_use l (lp_first path) a F) as F1.
    destruct (cv_validate (f_cv (fld x)) value s1) as [[v|[es|e| | |]] s2]; cbn in V, VN; try exact I; apply K.
    + apply finv_mark; [now apply finv_put|]. exact (put_in _ _ _ _ F1).
    + apply finv_errs; [exact F1|exact U|now apply map_not_nil].
    + now apply finv_skip.
  - assert (U : used_ok x a) by (apply (used_none x a _ _ _ SEL); rewrite GET; discriminate).
    pose proof (HD (Some (LStr (f_name (fld x)))) s0) as V. pose proof (HDN (Some (LStr (f_name (fld x)))) s0) as VN.
    destruct (cv_default _ _ s0) as [[[v|]|[es|e| | |]] s2]; cbn in V, VN; try exact I.
    + apply K. apply finv_put; [exact F|apply V|exact U].
    + destruct (key_error _ _ _ _ _) as [e|]; [|exact I]. apply K. apply finv_errs; [exact F|exact U|discriminate].
    + apply K. now apply finv_errs.
    + apply K. now apply finv_skip.
  - destruct e as [es|e| | |]; try exact I; try destruct G. apply K. apply finv_errs; [exact F| |now apply map_not_nil].
    apply (used_none x a _ _ _ SEL). rewrite GET. discriminate.
Qed.

Lemma td_loop_ok c i last p ba bn xs : children_ok xs -> (forall x, In x xs -> must x -> f_required (fld x) = true /\ strings = false) -> md_is_attr md = false -> forall l a s, finv l a ->
  vk (finv (l ++ xs)) False (fst (td_loop c md i last p ba bn (map fld xs) a s)).
Proof.
  intros H HM NA. revert H HM. induction xs as [|x xs IH]; intros H HM l a s F; cbn [td_loop map]; [rewrite app_nil_r; exact F|].
  assert (H' : children_ok xs) by (intros y Y; apply H; now right). specialize (IH H' (fun y Y => HM y (or_intror Y))).
  assert (K : forall a s, finv (l ++ [x]) a -> vk (finv (l ++ x :: xs)) False (fst (td_loop c md i last p ba bn (map fld xs) a s))).
  { intros a0 s0 F0. specialize (IH (l ++ [x]) a0 s0 F0). now rewrite <- app_assoc in IH. }
  destruct (H x (or_introl eq_refl)) as (HV & (D & HD) & HN & HDN). specialize (HM x (or_introl eq_refl)).
  cbv zeta. set (s0 := set_extra _ s). destruct (collection_select _ ba bn) as [key|] eqn:SEL; [|exact I].
  pose proof (mo_get _ _ MD key) as G. pose proof (proj1 MN key) as N. destruct (md_get md key) as [[[path value]|]|e] eqn:GET; cbn in G, N.
  - specialize (G _ _ eq_refl). unfold rebind. set (s1 := set_extra _ (set_partial _ s0)). pose proof (HV value s1 G) as V. pose proof (HN value s1) as VN.
    pose proof (used_found x a _ _ _ _ _ SEL GET) as U. pose proof (finv_use l (lp_first path) a F) as F1.
    destruct (cv_validate (f_cv (fld x)) value s1) as [[v|[es|e| | |]] s2]; cbn in V, VN; try exact I; apply K.
    + apply finv_mark; [now apply finv_put|]. exact (put_in _ _ _ _ F1).
    + destruct (f_required (fld x)) eqn:RQ.
      * rewrite orb_true_r. apply finv_errs; [exact F1|exact U|now apply map_not_nil].
      * rewrite orb_false_r. destruct (negb _); [apply finv_errs; [exact F1|exact U|now apply map_not_nil]|]. apply finv_skip; [exact F1|exact U|]. intros M. destruct (HM M). congruence.
    + now apply finv_skip.
  - assert (U : used_ok x a) by (apply (used_none x a _ _ _ SEL); rewrite GET; discriminate).
    pose proof (HD (Some (LStr (f_name (fld x)))) s0) as V. pose proof (HDN (Some (LStr (f_name (fld x)))) s0) as VN.
    destruct (cv_default _ _ s0) as [[[v|]|[es|e| | |]] s2]; cbn in V, VN; try exact I.
    + apply K. apply finv_put; [exact F|apply V|exact U].
    + destruct (f_required (fld x)) eqn:RQ.
      * destruct (key_error _ _ _ _ _) as [e|]; [|exact I]. apply K. apply finv_errs; [exact F|exact U|discriminate].
      * apply K. apply finv_skip; [exact F|exact U|]. intros M. destruct (HM M). congruence.
    + apply K. now apply finv_errs.
    + apply K. now apply finv_skip.
  - destruct e as [es|e| | |]; try exact I; try destruct G.
    assert (U : used_ok x a) by (apply (used_none x a _ _ _ SEL); rewrite GET; discriminate). apply K. destruct (last_is _ _).
    + apply finv_errs; [exact F|exact U|now apply map_not_nil].
    + apply finv_skip; [exact F|exact U|]. intros M. destruct (HM M) as [_ ST]. destruct (mo_total _ _ MD ST NA key). congruence.
Qed.
End FieldsOk.

(** ** Extras *)
Section ExtrasOk.
Variable strings : bool.
Variable c : fields_cfg.
Variables Pe Pk : pyval -> Prop.
Variables Oe Ok : Prop.
Hypothesis He : forall v, fc_extras c = Some v -> vok strings Pe Oe v.
Hypothesis Hk : forall v, fc_extras_keys c = Some v -> vok strings Pk Ok v.
Definition extras_omit : Prop := (fc_extras c <> None /\ Oe) \/ (fc_extras_keys c <> None /\ Ok).

Record einv (base : list pyval) (e0 : list line_error) (out : list (pyval * pyval)) (errors : list line_error) (fset : list str) : Prop := {
  ei_distinct : distinct fst out;
  ei_entries : forall k v, In (k, v) out -> exists n, k = PStr n /\ (fc_extras c <> None -> Pe v) /\ (fc_extras_keys c <> None -> exists w, Pk w /\ as_str w = Some n);
  ei_errors : e0 <> [] -> errors <> [];
  ei_set : forall n, In n fset -> In (PStr n) base \/ In (PStr n) (map fst out) }.
Lemma einv_strs base e0 out errors fset : einv base e0 out errors fset -> forall k, In k (map fst out) -> exists n, k = PStr n.
Proof. intros F k K. apply in_map_iff in K. destruct K as ([k' v] & <- & K). destruct (ei_entries _ _ _ _ _ F _ _ K) as (n & E & _). eauto. Qed.
Lemma einv_add base e0 out errors fset es : einv base e0 out errors fset -> einv base e0 out (errors ++ es) fset.
Proof. intros [A B C D]. constructor; auto. intros N. apply add_not_nil. auto. Qed.
Lemma einv_put base e0 out errors fset n v : einv base e0 out errors fset -> (fc_extras c <> None -> Pe v) -> (fc_extras_keys c <> None -> exists w, Pk w /\ as_str w = Some n) ->
  einv base e0 (dict_set (PStr n) v out) errors (fset ++ [n]).
Proof.
  intros F H1 H2. pose proof (einv_strs _ _ _ _ _ F) as S. destruct F as [A B C D]. constructor.
  - now apply dict_set_distinct.
  - intros k w J. apply dict_set_str_entries in J; [|exact S]. destruct J as [J|[-> ->]]; [auto|]. eauto.
  - exact C.
  - intros m M. apply in_app_or in M. destruct M as [M|[<-|[]]]; [|right; now apply dict_set_str_in]. destruct (D m M); [auto|right; now apply dict_set_keeps].
Qed.
Lemma key_str_no i : no (key_str i). Proof. unfold key_str. destruct i as [v|j|k|v]; [destruct (as_str v)|destruct j| |destruct (as_str v)]; exact I. Qed.

Lemma extras_loop_ok used base e0 es : Forall (entry_ok strings) es -> forall out errors fset s, einv base e0 out errors fset ->
  vk (fun r => einv base e0 (fst (fst r)) (snd (fst r)) (snd r)) extras_omit (fst (extras_loop c used es out errors fset s)).
Proof.
  induction 1 as [|en es A F IH]; intros out errors fset s E; cbn [extras_loop]; [exact E|].
  destruct en as [key kl value|e]; [|destruct e; try exact I; destruct A]. destruct A as [A1 A2].
  pose proof (key_str_no key) as KN. destruct (key_str key) as [k|[l|x| | |]]; try exact I; try destruct KN; [|apply IH, einv_add, E].
  destruct (mem_str k used); [apply IH, E|]. destruct (fc_extra c); [|apply IH, einv_add, E|apply IH, E].
  assert (W : forall n s, (fc_extras_keys c <> None -> exists w, Pk w /\ as_str w = Some n) ->
     vk (fun r => einv base e0 (fst (fst r)) (snd (fst r)) (snd r)) extras_omit (fst (
       match fc_extras c with
       | Some v =>
           match v value s with
           | (VOk x, s') => extras_loop c used es (dict_set (PStr n) x out) errors (fset ++ [n]) s'
           | (VErr (LineErrors l), s') => extras_loop c used es out (errors ++ map (with_outer kl) l) fset s'
           | (VErr e, s') => (VErr e, s')
           end
       | None => extras_loop c used es (dict_set (PStr n) (input_object value) out) errors (fset ++ [n]) s
       end))).
  { intros n s0 HK. destruct (fc_extras c) as [v|] eqn:FE.
    - pose proof (He v eq_refl value s0 A2) as V. destruct (v value s0) as [[x|[l|x| | |]] s1]; try exact I.
      + apply IH. apply einv_put; [exact E|intros _; exact V|exact HK].
      + apply IH, einv_add, E.
      + left. split; [rewrite FE; discriminate|exact V].
    - apply IH. apply einv_put; [exact E|intros Q; now rewrite FE in Q|exact HK]. }
  destruct (fc_extras_keys c) as [v|] eqn:FK.
  - pose proof (Hk v eq_refl key s A1) as V. destruct (v key s) as [[x|[l|x| | |]] s1]; try exact I.
    + cbn in V. destruct (as_str x) as [n|] eqn:AS; [|exact I]. apply W. intros _. eauto.
    + apply IH, einv_add, E.
    + right. split; [rewrite FK; discriminate|exact V].
  - apply W. intros Q. now destruct Q.
Qed.

End ExtrasOk.

Lemma model_fields_ok strings X (fld : X -> field) (P : X -> pyval -> Prop) (O : X -> Prop) c vm (Pe Pk : pyval -> Prop) (Oe Ok : Prop) xs :
  children_ok strings X fld P O xs -> fc_fields c = map fld xs ->
  (forall v, fc_extras c = Some v -> vok strings Pe Oe v) -> (forall v, fc_extras_keys c = Some v -> vok strings Pk Ok v) ->
  (forall a b i md, allowed strings i -> vm a b i = VOk md -> md_ok strings md) -> (forall a b i, no (vm a b i)) -> (forall a b i md, vm a b i = VOk md -> mdne md) ->
  vok strings (fun v => exists d x fs, v = PTuple [PDict d; x; PSet fs] /\ distinct fst d /\
     (forall k v, In (k, v) d -> exists f, In f xs /\ k = PStr (f_name (fld f)) /\ P f v) /\
     (forall f, In f xs -> In (PStr (f_name (fld f))) (map fst d) \/ O f) /\
     (fc_extra c <> ExtraAllow -> x = PNone) /\
     (fc_extra c = ExtraAllow -> exists e, x = PDict e /\ distinct fst e /\
        forall k v, In (k, v) e -> exists n, k = PStr n /\ (fc_extras c <> None -> Pe v) /\ (fc_extras_keys c <> None -> exists w, Pk w /\ as_str w = Some n)) /\
     (forall y, In y fs -> In y (map fst d) \/ exists e, x = PDict e /\ In y (map fst e)))
   ((fc_extras c <> None /\ Oe) \/ (fc_extras_keys c <> None /\ Ok)) (model_fields_validate c vm).
Proof.
  intros HC EF HE HK HM HN HMN i s A. unfold model_fields_validate. cbv zeta. set (s0 := set_partial PartialOff s).
  match goal with |- context [vm ?a ?b i] => specialize (HM a b i); specialize (HN a b i); specialize (HMN a b i); destruct (vm a b i) as [md|e] end; [|destruct e; try exact I; destruct HN].
  specialize (HM _ A eq_refl). specialize (HMN _ eq_refl). unfold rebind. rewrite EF. set (s1 := set_extra _ s0).
  pose proof (fields_loop_ok strings X fld P O (fun _ => True) md HM HMN c i (validate_by_alias_or s0 (fc_by_alias c)) (validate_by_name_or s0 (fc_by_name c)) xs HC [] fa_init s1 (finv_init _ _ _ _ _ _)) as L.
  destruct (fields_loop c md i _ _ (map fld xs) fa_init s1) as [[a|e] s2]; [|destruct e; try exact I; destruct L]. cbn [vk fst app] in L.
  destruct L as [L1 L2 L3 L4 L5].
  assert (FIN : forall ed errors fset s', (fa_errors a <> [] -> errors <> []) -> 
     (forall e, ed = Some e -> distinct fst e /\ (fc_extra c = ExtraAllow \/ e = []) /\ forall k v, In (k, v) e -> exists n, k = PStr n /\ (fc_extras c <> None -> Pe v) /\ (fc_extras_keys c <> None -> exists w, Pk w /\ as_str w = Some n)) ->
     (forall n, In n fset -> In (PStr n) (map fst (fa_dict a)) \/ exists e, ed = Some e /\ In (PStr n) (map fst e)) ->
     vk (fun v => exists d x fs, v = PTuple [PDict d; x; PSet fs] /\ distinct fst d /\
     (forall k v, In (k, v) d -> exists f, In f xs /\ k = PStr (f_name (fld f)) /\ P f v) /\
     (forall f, In f xs -> In (PStr (f_name (fld f))) (map fst d) \/ O f) /\
     (fc_extra c <> ExtraAllow -> x = PNone) /\
     (fc_extra c = ExtraAllow -> exists e, x = PDict e /\ distinct fst e /\
        forall k v, In (k, v) e -> exists n, k = PStr n /\ (fc_extras c <> None -> Pe v) /\ (fc_extras_keys c <> None -> exists w, Pk w /\ as_str w = Some n)) /\
     (forall y, In y fs -> In y (map fst d) \/ exists e, x = PDict e /\ In y (map fst e)))
   ((fc_extras c <> None /\ Oe) \/ (fc_extras_keys c <> None /\ Ok)) (fst (if is_nil errors then (VOk (PTuple [PDict (fa_dict a); match fc_extra c with ExtraAllow => PDict (unwrap_or ed []) | _ => PNone end; PSet (name_set fset)]), add_fields_set (length (fa_set a)) s') else (VErr (LineErrors errors), s')))).
  { intros ed errors fset s' HE1 HE2 HE3. destruct errors as [|x l]; cbn [is_nil]; [|exact I]. cbn [fst vk]. eexists _, _, _. split; [reflexivity|]. split; [exact L1|]. split; [exact L2|].
    split. { intros f Ff. destruct (L3 f Ff I) as [Z|[Z|Z]]; [auto|auto|]. now apply HE1 in Z. }
    split. { intros NA. destruct (fc_extra c); [congruence|reflexivity|reflexivity]. }
    split.
    { intros ->. exists (unwrap_or ed []). split; [reflexivity|]. destruct ed as [e|]; [|split; [constructor|intros ? ? []]]. destruct (HE2 e eq_refl) as (Z1 & _ & Z2). now split. }
    intros y Y. apply name_set_in in Y. destruct Y as (n & -> & Y). destruct (HE3 _ Y) as [Z|(e & -> & Z)]; [now left|]. right.
    destruct (HE2 e eq_refl) as (_ & [Q|Q] & _); [rewrite Q; eauto|]. subst e. destruct Z. }
  destruct (extra_behavior_eqb (fc_extra c) ExtraIgnore || md_is_attr md).
  - apply FIN; [auto|discriminate|auto].
  - pose proof (mo_iter _ _ HM) as IT. destruct (md_iter md) as [es|e]; [|destruct e; try exact I; destruct IT]. cbn in IT.
    assert (E0 : einv c Pe Pk (map fst (fa_dict a)) (fa_errors a) [] (fa_errors a) (fa_set a)). { constructor; [constructor|intros ? ? []|auto|auto]. }
    match goal with |- context [extras_loop c (fa_used a) es [] (fa_errors a) (fa_set a) ?s3] => pose proof (extras_loop_ok strings c Pe Pk Oe Ok HE HK (fa_used a) (map fst (fa_dict a)) (fa_errors a) es IT [] (fa_errors a) (fa_set a) s3 E0) as L; 
      assert (EMP : fc_extra c = ExtraAllow \/ forall o e f s4, extras_loop c (fa_used a) es [] (fa_errors a) (fa_set a) s3 = (VOk (o, e, f), s4) -> o = []) end.
    { destruct (fc_extra c) eqn:FE; [now left| |]; right; clear -FE; intros o e f s4.
      all: match goal with |- extras_loop _ _ _ _ ?er ?fs ?st = _ -> _ => generalize er fs st end; induction es as [|en es IH]; intros er fs st; cbn [extras_loop]; [intros [= <- _ _ _]; reflexivity|];
        destruct en as [key kl value|er']; [|discriminate]; destruct (key_str key) as [k|[]]; try discriminate; try apply IH; destruct (mem_str k _); [apply IH|]; rewrite FE; apply IH. }
    destruct (extras_loop c _ es _ _ _ _) as [[[[out errors] fset]|e] s3]; [|destruct e; try exact I; exact L]. cbn in L. destruct L as [M1 M2 M3 M4].
    apply FIN; [exact M3| |].
    + intros e [= <-]. split; [exact M1|]. split; [|exact M2]. destruct EMP as [EMP|EMP]; [now left|right]. exact (EMP _ _ _ _ eq_refl).
    + intros n N. destruct (M4 n N); eauto.
Qed.
