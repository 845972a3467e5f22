(** The same for the fields of models and typed dicts. *)
From Coq Require Import List NArith ZArith Bool Lia Permutation.
From Verif Require Import Base Float64 Values VState LookupKey Collections Child Inputs Scalars Wrappers Tuple ModelFields TypedDict Assign Classes Interp InterpSpec InterpProofs ConformSpec ConformProofs2 ConformProofs4 ConformProofs5 StableSpec StableProofs StableProofs2 StableProofs3 RoundTripForward.
Import ListNotations.
Open Scope nat_scope.

Lemma picked_cons d n l : picked d (n :: l) = match dict_get (PStr n) d with Some v => [(PStr n, v)] | None => [] end ++ picked d l.
Proof. reflexivity. Qed.

Section FieldsForward.
Variables vba vbn : option bool.
Notation fresh := (fresh vba vbn).
Notation gives := (gives vba vbn).
Variable R : pyval -> pyval -> Prop.
Variable c : fields_cfg.
Variable md : mdict.
Variable i : input.
Variable d : list (pyval * pyval).
Variable kf : str -> str.
Notation ba := (unwrap_or (or_else vba (fc_by_alias c)) true).
Notation bn := (unwrap_or (or_else vbn (fc_by_name c)) false).
Definition present (f : field) (x : pyval) : Prop :=
  exists look p i, collection_select (f_keys f) ba bn = BOk look /\ md_get md look = VOk (Some (p, i)) /\ lp_first p = kf (f_name f) /\ gives (R x) (cv_validate (f_cv f)) i.
Definition absent (f : field) : Prop :=
  exists look, collection_select (f_keys f) ba bn = BOk look /\ md_get md look = VOk None /\ f_required f = false /\ forall l s, cv_default (f_cv f) l s = (VOk None, s).
Definition same_rows (l m : list (pyval * pyval)) : Prop := map fst l = map fst m /\ Forall2 R (map snd l) (map snd m).
Lemma same_nil : same_rows [] []. Proof. split; [reflexivity|constructor]. Qed.
Lemma same_cons k x y l m : R x y -> same_rows l m -> same_rows ((k, x) :: l) ((k, y) :: m).
Proof. intros A [B C]. split; cbn; [now rewrite B|now constructor]. Qed.

Lemma fields_loop_gives fs : Forall (fun f => exists x, dict_get (PStr (f_name f)) d = Some x /\ present f x) fs -> NoDup (map f_name fs) ->
  forall a s ks, fresh s -> fa_errors a = [] -> map fst (fa_dict a) = map PStr ks -> (forall n, In n (map f_name fs) -> ~ In n ks) ->
  exists a' s' m, fields_loop c md i ba bn fs a s = (VOk a', s') /\ fresh s' /\ fa_errors a' = [] /\ fa_dict a' = fa_dict a ++ m /\ same_rows (picked d (map f_name fs)) m /\
    incl (fa_used a) (fa_used a') /\ (forall f, In f fs -> In (kf (f_name f)) (fa_used a')).
Proof.
  induction 1 as [|f fs (x & GX & look & p & j & SEL & GET & PF & GV) F IH]; intros ND a s ks C ER M N; cbn [fields_loop map].
  - exists a, s, []. split; [reflexivity|]. split; [exact C|]. split; [exact ER|]. split; [now rewrite app_nil_r|]. split; [apply same_nil|]. split; [apply incl_refl|easy].
  - cbn [map] in ND. inversion ND as [|? ? ND1 ND2]; subst. specialize (IH ND2). cbv zeta. rewrite SEL, GET. unfold rebind.
    pose proof (fresh_data _ _ (Some (fa_dict a)) _ C) as C0. destruct (GV _ (fresh_field _ _ (Some (f_name f)) _ C0)) as (y & s1 & -> & RY & C1).
    pose proof (fresh_back _ _ _ _ C0 C1) as C2.
    match goal with |- context [fields_loop c md i _ _ fs ?a1 ?s2] => destruct (IH a1 s2 (ks ++ [f_name f]) C2) as (a' & s' & m & -> & C' & E' & D' & S' & I1 & I2) end.
    + exact ER.
    + cbn. rewrite (dict_set_str_new _ _ _ ks M (N _ (or_introl eq_refl))), !map_app, M. reflexivity.
    + intros n J K. apply in_app_or in K. destruct K as [K|[<-|[]]]; [revert K; apply N; now right|contradiction].
    + exists a', s', ((PStr (f_name f), y) :: m). split; [reflexivity|]. split; [exact C'|]. split; [exact E'|]. split; [|split; [|split]].
      * cbn in D'. rewrite (dict_set_str_new _ _ _ ks M (N _ (or_introl eq_refl))) in D'. rewrite D', <- app_assoc. reflexivity.
      * rewrite picked_cons, GX. now apply same_cons.
      * intros n J. apply I1. now right.
      * intros g [<-|J]; [rewrite <- PF; apply I1; now left|now apply I2].
Qed.
Lemma td_loop_gives fs : Forall (fun f => match dict_get (PStr (f_name f)) d with Some x => present f x | None => absent f end) fs -> NoDup (map f_name fs) ->
  forall a s ks, fresh s -> fa_errors a = [] -> map fst (fa_dict a) = map PStr ks -> (forall n, In n (map f_name fs) -> ~ In n ks) ->
  exists a' s' m, td_loop c md i None PartialOff ba bn fs a s = (VOk a', s') /\ fresh s' /\ fa_errors a' = [] /\ fa_dict a' = fa_dict a ++ m /\ same_rows (picked d (map f_name fs)) m /\
    incl (fa_used a) (fa_used a') /\ (forall f x, In f fs -> dict_get (PStr (f_name f)) d = Some x -> In (kf (f_name f)) (fa_used a')).
Proof.
  induction 1 as [|f fs H F IH]; intros ND a s ks C ER M N; cbn [td_loop map].
  - exists a, s, []. split; [reflexivity|]. split; [exact C|]. split; [exact ER|]. split; [now rewrite app_nil_r|]. split; [apply same_nil|]. split; [apply incl_refl|easy].
  - cbn [map] in ND. inversion ND as [|? ? ND1 ND2]; subst. specialize (IH ND2). cbv zeta. destruct (dict_get (PStr (f_name f)) d) as [x|] eqn:GX.
    + destruct H as (look & p & j & SEL & GET & PF & GV). rewrite SEL, GET. cbn [last_is]. unfold rebind.
      pose proof (fresh_partial _ _ _ (fresh_data _ _ (Some (fa_dict a)) _ C)) as C0. destruct (GV _ (fresh_field _ _ (Some (f_name f)) _ C0)) as (y & s1 & -> & RY & C1).
      pose proof (fresh_back _ _ _ _ C0 C1) as C2.
      match goal with |- context [td_loop c md i None PartialOff _ _ fs ?a1 ?s2] => destruct (IH a1 s2 (ks ++ [f_name f]) C2) as (a' & s' & m & -> & C' & E' & D' & S' & I1 & I2) end.
      * exact ER.
      * cbn. rewrite (dict_set_str_new _ _ _ ks M (N _ (or_introl eq_refl))), !map_app, M. reflexivity.
      * intros n J K. apply in_app_or in K. destruct K as [K|[<-|[]]]; [revert K; apply N; now right|contradiction].
      * exists a', s', ((PStr (f_name f), y) :: m). split; [reflexivity|]. split; [exact C'|]. split; [exact E'|]. split; [|split; [|split]].
        -- cbn in D'. rewrite (dict_set_str_new _ _ _ ks M (N _ (or_introl eq_refl))) in D'. rewrite D', <- app_assoc. reflexivity.
        -- rewrite picked_cons, GX. now apply same_cons.
        -- intros n J. apply I1. now right.
        -- intros g x' [<-|J] GX'; [rewrite <- PF; apply I1; now left|exact (I2 g x' J GX')].
    + destruct H as (look & SEL & GET & RQ & DF). rewrite SEL, GET, DF, RQ.
      match goal with |- context [td_loop c md i None PartialOff _ _ fs ?a1 ?s2] => destruct (IH a1 s2 ks (fresh_data _ _ _ _ C) ER M) as (a' & s' & m & -> & C' & E' & D' & S' & I1 & I2) end.
      * intros n J K. revert K. apply N. now right.
      * exists a', s', m. split; [reflexivity|]. split; [exact C'|]. split; [exact E'|]. split; [exact D'|]. split; [rewrite picked_cons, GX; exact S'|]. split; [exact I1|].
        intros g x' [<-|J] GX'; [congruence|exact (I2 g x' J GX')].
Qed.
Definition covered (used : list str) (e : entry) : Prop := exists key kl val k, e = Entry key kl val /\ key_str key = VOk k /\ In k used.
Lemma extras_none used es : Forall (covered used) es -> forall out errors fset s, extras_loop c used es out errors fset s = (VOk (out, errors, fset), s).
Proof. induction 1 as [|e es (key & kl & val & k & -> & KS & U) F IH]; intros; [reflexivity|]. cbn [extras_loop]. rewrite KS, (mem_true _ _ U). apply IH. Qed.
Lemma td_extras_none used es : Forall (covered used) es -> forall l p out errors s, td_extras c used l p es out errors s = (VOk (out, errors), s).
Proof. induction 1 as [|e es (key & kl & val & k & -> & KS & U) F IH]; intros; [reflexivity|]. cbn [td_extras]. rewrite KS, (mem_true _ _ U). apply IH. Qed.

Lemma model_fields_gives vmf : (forall st fa, vmf st fa i = VOk md) -> md_is_attr md = false -> fc_extra c <> ExtraAllow ->
  Forall (fun f => exists x, dict_get (PStr (f_name f)) d = Some x /\ present f x) (fc_fields c) -> NoDup (map f_name (fc_fields c)) ->
  (exists es, md_iter md = VOk es /\ Forall (covered (map (fun f => kf (f_name f)) (fc_fields c))) es) ->
  gives (fun y => exists m fs, y = PTuple [PDict m; PNone; PSet fs] /\ same_rows (picked d (map f_name (fc_fields c))) m) (model_fields_validate c vmf) i.
Proof.
  intros V AT EX F ND (es & MI & CV) s C. unfold model_fields_validate. cbv zeta. rewrite V. pose proof (fresh_partial _ _ _ C) as C0. unfold validate_by_alias_or, validate_by_name_or. rewrite (fr_alias _ _ _ C0), (fr_name _ _ _ C0). unfold rebind.
  destruct (fields_loop_gives _ F ND fa_init _ [] (fresh_data _ _ (Some []) _ C0) eq_refl eq_refl (fun _ _ K => K)) as (a & s1 & m & -> & C1 & E1 & D1 & S1 & _ & U1). cbn [fa_init fa_dict app] in D1.
  pose proof (fresh_back _ _ _ _ C0 C1) as C2. set (s2 := set_extra _ s1) in *. rewrite E1, D1, AT.
  assert (X : match fc_extra c with ExtraAllow => PDict (unwrap_or (@None (list (pyval * pyval))) []) | _ => PNone end = PNone) by (destruct (fc_extra c); [now destruct EX|reflexivity..]).
  assert (X2 : forall o : list (pyval * pyval), match fc_extra c with ExtraAllow => PDict (unwrap_or (Some o) []) | _ => PNone end = PNone) by (intros; destruct (fc_extra c); [now destruct EX|reflexivity..]).
  destruct (extra_behavior_eqb (fc_extra c) ExtraIgnore || false).
  - cbn [is_nil]. rewrite X. eexists _, _. split; [reflexivity|]. split; [now exists m, (name_set (fa_set a))|now apply fresh_count].
  - rewrite MI. rewrite extras_none.
    + cbn [is_nil]. rewrite X2. eexists _, _. split; [reflexivity|]. split; [now exists m, (name_set (fa_set a))|now apply fresh_count].
    + rewrite Forall_forall in *. intros e J. destruct (CV e J) as (key & kl & val & k & -> & KS & K). exists key, kl, val, k. repeat split; [exact KS|]. apply in_map_iff in K. destruct K as (f & <- & K). now apply U1.
Qed.
Lemma typed_dict_gives vd : (forall st, vd st i = VOk md) -> md_is_attr md = false -> 
  Forall (fun f => match dict_get (PStr (f_name f)) d with Some x => present f x | None => absent f end) (fc_fields c) -> NoDup (map f_name (fc_fields c)) ->
  (exists es, md_iter md = VOk es /\ forall e, In e es -> exists key kl val f x, e = Entry key kl val /\ key_str key = VOk (kf (f_name f)) /\ In f (fc_fields c) /\ dict_get (PStr (f_name f)) d = Some x) ->
  gives (fun y => exists m, y = PDict m /\ same_rows (picked d (map f_name (fc_fields c))) m) (typed_dict_validate c vd) i.
Proof.
  intros V AT F ND (es & MI & CV) s C. unfold typed_dict_validate. cbv zeta. rewrite V. rewrite (fr_partial _ _ _ C). cbn [is_active]. unfold validate_by_alias_or, validate_by_name_or. rewrite (fr_alias _ _ _ C), (fr_name _ _ _ C). unfold rebind.
  destruct (td_loop_gives _ F ND fa_init _ [] (fresh_data _ _ (Some []) _ C) eq_refl eq_refl (fun _ _ K => K)) as (a & s1 & m & -> & C1 & E1 & D1 & S1 & _ & U1). cbn [fa_init fa_dict app] in D1.
  pose proof (fresh_back _ _ _ _ C (fresh_count _ _ (length (fa_set a)) _ C1)) as C2. set (s2 := set_extra _ (add_fields_set _ s1)) in *. rewrite E1, D1, AT.
  destruct (extra_behavior_eqb (fc_extra c) ExtraIgnore || false).
  - cbn [is_nil]. eexists _, _. split; [reflexivity|]. split; [now exists m|exact C2].
  - rewrite MI. rewrite td_extras_none.
    + cbn [is_nil]. eexists _, _. split; [reflexivity|]. split; [now exists m|exact C2].
    + rewrite Forall_forall in *. intros e J. destruct (CV e J) as (key & kl & val & f & x & -> & KS & K & GX). exists key, kl, val, (kf (f_name f)). repeat split; [exact KS|]. exact (U1 f x K GX).
Qed.
End FieldsForward.

(** A dict whose keys are field names, in the order of the fields. *)
Lemma distinct_nodup (d : list (pyval * pyval)) : distinct fst d -> (forall k v, In (k, v) d -> exists n, k = PStr n) -> NoDup d.
Proof.
  induction d as [|[k v] d IH]; intros D H; [constructor|]. inversion D as [|? ? D1 D2]; subst. constructor; [|apply IH; [exact D2|intros; eapply H; right; eassumption]].
  intros J. rewrite Forall_forall in D1. specialize (D1 _ J). cbn in D1. destruct (H k v (or_introl eq_refl)) as [n ->]. rewrite str_key_refl in D1. discriminate.
Qed.
Lemma in_picked d names k v : In (k, v) (picked d names) <-> exists n, In n names /\ k = PStr n /\ dict_get (PStr n) d = Some v.
Proof.
  unfold picked. rewrite in_flat_map. split.
  - intros (n & J & K). exists n. split; [exact J|]. destruct (dict_get (PStr n) d); [|destruct K]. destruct K as [[= <- <-]|[]]. now split.
  - intros (n & J & -> & G). exists n. split; [exact J|]. rewrite G. now left.
Qed.
Lemma picked_nodup d names : NoDup names -> NoDup (picked d names).
Proof.
  induction 1 as [|n names N ND IH]; [constructor|]. rewrite picked_cons. destruct (dict_get (PStr n) d) as [v|]; [|exact IH]. cbn. constructor; [|exact IH].
  intros J. apply in_picked in J. destruct J as (m & J & [= ->] & _). contradiction.
Qed.
Lemma picked_perm d names : NoDup names -> distinct fst d -> (forall k v, In (k, v) d -> exists n, k = PStr n /\ In n names) -> Permutation d (picked d names).
Proof.
  intros ND D H. assert (HS : forall a, In a (map fst d) -> exists m, a = PStr m). { intros a J. apply in_map_iff in J. destruct J as ([k v] & <- & J). destruct (H _ _ J) as (n & -> & _). now exists n. }
  apply NoDup_Permutation; [apply distinct_nodup; [exact D|intros k v J; destruct (H _ _ J) as (n & -> & _); now exists n]|now apply picked_nodup|].
  intros [k v]. rewrite in_picked. split.
  - intros J. destruct (H _ _ J) as (n & -> & N). exists n. split; [exact N|]. split; [reflexivity|]. now apply get_in.
  - intros (n & N & -> & G). now apply get_some_first.
Qed.
