From Coq Require Import List NArith ZArith Bool.
From Verif Require Import Base Float64 Utf8 Decimal Values BytesCodec Filter FilterSpec FilterProps LookupKey Classes SerBase Ser SerFieldsSpec SerPure.
Import ListNotations.
Open Scope nat_scope.

Lemma bind_good {A B} (m : M A) (f : A -> M B) b : snd (bind m f) = Good b -> exists a, snd m = Good a /\ snd (f a) = Good b.
Proof. unfold bind. destruct (snd m) as [a|]; [|discriminate]. cbn. eauto. Qed.
Ltac bg H a :=
  let E := fresh "E" in apply bind_good in H; destruct H as [a [E H]]; cbn [snd opt ret res_opt fail] in E; try (injection E as <-).

Lemma filter_any k inc exc : wf_top inc -> no_conflict inc -> wf_top exc -> no_conflict exc ->
  exists o, filter any_filter k inc exc = Ok o /\ is_some o = included inc [k] && negb (excluded exc [k]).
Proof.
  intros A B C D. destruct (C45_decision any_filter k inc exc A B C D) as [o [E Q]]. exists o. split; [exact E|]. rewrite Q.
  destruct inc as [f|]; cbn; rewrite andb_comm; [now rewrite orb_false_r|reflexivity].
Qed.

Section Main.
Variable E : env.
Variable L : level.
Variable mode : fields_mode.
Hypothesis Hm : is_td_allow mode = false.
Variable fs : list (str * field ser).
Variable ex : option sz.
Let bfs := map (fun kf => (fst kf, map_field (build E L) (snd kf))) fs.
Lemma assoc_map n : assoc n bfs = option_map (map_field (build E L)) (assoc n fs).
Proof. unfold bfs. clear. induction fs as [|[k f] l IH]; cbn; [reflexivity|]. destruct (str_eqb _ _); [reflexivity|exact IH]. Qed.
Lemma default_build s : z_default (build E L s) = default_of s.
Proof. destruct s; reflexivity. Qed.

Definition pitems (d : list (str * pyval)) : list (pyval * option pyval) := map (fun kv => (PStr (fst kv), Some (snd kv))) d.
Lemma items_as_dict d : items (map (fun kv => (PStr (fst kv), snd kv)) d) = pitems d.
Proof. unfold items, pitems. rewrite map_map. reflexivity. Qed.

Variable x : extra.
Variables inc exc : option fval.
Hypothesis F : wf_top inc /\ no_conflict inc /\ wf_top exc /\ no_conflict exc.
Definition keep (n : entry) : bool :=
  negb ((x_exclude_none x && is_py_none (n_value n))
   || (x_exclude_defaults x && match default_of (n_ser n) with Some d => py_eq (n_value n) d | None => false end)
   || excluded exc [KStr (n_name n)] || negb (included inc [KStr (n_name n)])).
Definition name_of (n : entry) : str := out_key (n_name n) (n_field n) x.
Definition wrote_js (kj : str * json) (n : entry) : Prop :=
  fst kj = name_of n /\ exists i e, filter any_filter (KStr (n_name n)) inc exc = Ok (Some (i, e)) /\ snd (z_js (build E L (n_ser n)) (n_value n) i e x) = Good (snd kj).
Definition wrote_py (kj : str * pyval) (n : entry) : Prop :=
  fst kj = name_of n /\ exists i e, filter any_filter (KStr (n_name n)) inc exc = Ok (Some (i, e)) /\ snd (z_py (build E L (n_ser n)) (n_value n) i e x) = Good (snd kj).

Lemma key_str_good k ks : snd (key_str (PStr k)) = Good ks -> ks = k.
Proof. cbn. unfold to_str. destruct (forallb _ _); cbn; [now intros [= <-]|discriminate]. Qed.
Lemma entries_cons k v d : entries fs ((k, v) :: d) = entries fs [(k, v)] ++ entries fs d.
Proof. unfold entries. cbn [flat_map fst snd]. now rewrite app_nil_r. Qed.
Lemma out_key_map k (f : field ser) : out_key k (map_field (build E L) f) x = out_key k f x.
Proof. reflexivity. Qed.

Lemma main_js_spec d : forall l, snd (main_to_json L mode bfs (pitems d) inc exc x) = Good l ->
  Forall2 wrote_js l (List.filter keep (entries fs d)).
Proof.
  destruct F as (F1 & F2 & F3 & F4).
  induction d as [|[k v] d IH]; intros l H; cbn [pitems map main_to_json] in H.
  - injection H as <-. constructor.
  - fold (pitems d) in H. cbn [fst snd] in H. bg H w. rewrite entries_cons, filter_app. unfold entries at 1. cbn [flat_map fst snd app].
    destruct (x_exclude_none x && is_py_none v) eqn:N.
    { apply IH in H. destruct (assoc k fs) as [f|]; [|exact H]. destruct (f_ser f); [|exact H]. cbn [app List.filter]. unfold keep at 1. cbn [n_value]. rewrite N. exact H. }
    bg H ks. apply key_str_good in E0. subst ks. bg H o. cbn [key_of base] in *.
    destruct (filter_any (KStr k) inc exc F1 F2 F3 F4) as [o' [Fo Po]]. rewrite Fo in E0. injection E0 as <-. rewrite assoc_map in H.
    destruct o' as [[ni ne]|].
    + cbn in Po. symmetry in Po. apply andb_prop in Po. destruct Po as [P1 P2]. apply negb_true_iff in P2.
      destruct (assoc k fs) as [f|]; cbn [option_map] in H; [|rewrite Hm in H; now apply IH].
      cbn [map_field f_ser] in H. destruct (f_ser f) as [s|]; [|now apply IH]. cbn [app List.filter]. unfold keep at 1. cbn [n_value n_ser n_name].
      rewrite N, P1, P2. unfold is_default in H. rewrite default_build in H. destruct (x_exclude_defaults x && _) eqn:D; cbn [orb negb].
      * now apply IH.
      * bg H j. bg H r. injection H as <-. constructor; [|now apply IH]. split; [reflexivity|]. exists ni, ne. now split.
    + cbn in Po. symmetry in Po. apply IH in H. destruct (assoc k fs) as [f|]; [|exact H]. destruct (f_ser f) as [s|]; [|exact H]. cbn [app List.filter].
      unfold keep at 1. cbn [n_value n_ser n_name]. apply andb_false_iff in Po. destruct Po as [Po|Po]; [rewrite Po|apply negb_false_iff in Po; rewrite Po]; rewrite ?orb_true_r; exact H.
Qed.

Lemma main_py_spec d : forall d0 n r, snd (main_py_loop L mode bfs ex inc exc x (pitems d) d0 n) = Good r ->
  exists l, fst r = fold_left (fun a kv => dict_set (PStr (fst kv)) (snd kv) a) l d0 /\ Forall2 wrote_py l (List.filter keep (entries fs d)).
Proof.
  destruct F as (F1 & F2 & F3 & F4).
  induction d as [|[k v] d IH]; intros d0 n r H; cbn [pitems map main_py_loop] in H.
  - injection H as <-. exists []. split; [reflexivity|constructor].
  - fold (pitems d) in H. cbn [fst snd] in H. bg H w. rewrite entries_cons, filter_app. unfold entries at 1. cbn [flat_map fst snd app]. bg H ks. apply key_str_good in E0. subst ks. cbv zeta in H.
    destruct (x_exclude_none x && is_py_none v) eqn:N.
    { apply IH in H. destruct (assoc k fs) as [f|]; [|exact H]. destruct (f_ser f); [|exact H]. cbn [app List.filter]. unfold keep at 1. cbn [n_value]. rewrite N. exact H. }
    bg H o. cbn [key_of base] in *.
    destruct (filter_any (KStr k) inc exc F1 F2 F3 F4) as [o' [Fo Po]]. rewrite Fo in E0. injection E0 as <-. rewrite assoc_map in H.
    destruct o' as [[ni ne]|].
    + cbn in Po. symmetry in Po. apply andb_prop in Po. destruct Po as [P1 P2]. apply negb_true_iff in P2.
      destruct (assoc k fs) as [f|]; cbn [option_map] in H.
      2:{ rewrite Hm in H. destruct (is_strict _); [discriminate|]. apply IH in H. exact H. }
      cbn [map_field f_ser] in H. destruct (f_ser f) as [s|]; [|apply IH in H; exact H]. cbn [app List.filter]. unfold keep at 1. cbn [n_value n_ser n_name].
      rewrite N, P1, P2. unfold is_default in H. rewrite default_build in H. destruct (x_exclude_defaults x && _) eqn:D; cbn [orb negb].
      * apply IH in H. exact H.
      * bg H j. bg H d1. apply IH in H. destruct H as [l [A B]]. exists ((out_key k f x, j) :: l).
        split; [exact A|]. constructor; [|exact B]. split; [reflexivity|]. exists ni, ne. now split.
    + cbn in Po. symmetry in Po. apply IH in H. destruct (assoc k fs) as [f|]; [|exact H]. destruct (f_ser f) as [s|]; [|exact H]. cbn [app List.filter].
      unfold keep at 1. cbn [n_value n_ser n_name]. apply andb_false_iff in Po. destruct Po as [Po|Po]; [rewrite Po|apply negb_false_iff in Po; rewrite Po]; rewrite ?orb_true_r; exact H.
Qed.

Definition ckeep (cf : computed ser) : bool := included inc [KStr (cf_name cf)] && negb (excluded exc [KStr (cf_name cf)]).
Definition cname (cf : computed ser) : str := if by_alias_or x (cf_by_alias cf) then cf_alias cf else cf_name cf.
Definition cwrote_js (m : pyval) (kj : str * json) (cf : computed ser) : Prop :=
  fst kj = cname cf /\ exists w i e, get_attr E m (cf_name cf) = Some w /\ filter any_filter (KStr (cf_name cf)) inc exc = Ok (Some (i, e)) /\
    snd (z_js (build E L (cf_ser cf)) w i e x) = Good (snd kj).
Definition cwrote_py (m : pyval) (kj : str * pyval) (cf : computed ser) : Prop :=
  fst kj = cname cf /\ exists w i e, get_attr E m (cf_name cf) = Some w /\ filter any_filter (KStr (cf_name cf)) inc exc = Ok (Some (i, e)) /\
    snd (z_py (build E L (cf_ser cf)) w i e x) = Good (snd kj).
Lemma comp_js_spec m cs : forall l, snd (comp_js_loop E m (map (map_computed (build E L)) cs) inc exc x) = Good l ->
  Forall2 (cwrote_js m) l
    (List.filter (fun cf => ckeep cf && negb (x_exclude_none x && match get_attr E m (cf_name cf) with Some PNone => true | _ => false end)) cs).
Proof.
  destruct F as (F1 & F2 & F3 & F4).
  induction cs as [|cf cs IH]; intros l H; cbn [map comp_js_loop] in H; [injection H as <-; constructor|].
  bg H o. cbn [map_computed cf_name] in E0. destruct (filter_any (KStr (cf_name cf)) inc exc F1 F2 F3 F4) as [o' [Fo Po]].
  rewrite Fo in E0. injection E0 as <-. cbn [List.filter]. unfold ckeep at 1. rewrite <- Po. destruct o' as [[ni ne]|]; cbn [is_some andb]; [|now apply IH].
  bg H w. cbn [map_computed cf_name] in E0. destruct (get_attr E m (cf_name cf)) as [w'|] eqn:G; [injection E0 as ->|discriminate].
  destruct (x_exclude_none x && is_py_none w) eqn:N.
  - assert (x_exclude_none x && match w with PNone => true | _ => false end = true) as -> by exact N. cbn [negb]. now apply IH.
  - assert (x_exclude_none x && match w with PNone => true | _ => false end = false) as -> by exact N. cbn [negb]. bg H j. bg H r. injection H as <-.
    constructor; [|now apply IH]. split; [reflexivity|]. exists w, ni, ne. now repeat split.
Qed.
Lemma comp_py_spec m cs : forall d0 r, snd (comp_py_loop E m (map (map_computed (build E L)) cs) d0 inc exc x) = Good r ->
  exists l, Forall2 (cwrote_py m) l (List.filter ckeep cs) /\
    r = fold_left (fun a kv => dict_set (PStr (fst kv)) (snd kv) a) (List.filter (fun kv => negb (x_exclude_none x && is_py_none (snd kv))) l) d0.
Proof.
  destruct F as (F1 & F2 & F3 & F4).
  induction cs as [|cf cs IH]; intros d0 rr H; cbn [map comp_py_loop] in H; [injection H as <-; exists []; split; [constructor|reflexivity]|].
  bg H o. cbn [map_computed cf_name] in E0. destruct (filter_any (KStr (cf_name cf)) inc exc F1 F2 F3 F4) as [o' [Fo Po]].
  rewrite Fo in E0. injection E0 as <-. cbn [List.filter]. unfold ckeep at 1. rewrite <- Po. destruct o' as [[ni ne]|]; cbn [is_some]; [|now apply IH].
  bg H w. cbn [map_computed cf_name] in E0. destruct (get_attr E m (cf_name cf)) as [w'|] eqn:G; [injection E0 as ->|discriminate].
  bg H p. assert (W : cwrote_py m (cname cf, p) cf) by (split; [reflexivity|]; exists w, ni, ne; now repeat split).
  destruct (x_exclude_none x && is_py_none p) eqn:N.
  - apply IH in H. destruct H as [l [A B]]. exists ((cname cf, p) :: l). split; [now constructor|]. cbn [List.filter snd]. rewrite N. exact B.
  - bg H dd. apply IH in H. destruct H as [l [A B]]. exists ((cname cf, p) :: l). split; [now constructor|]. cbn [List.filter snd]. rewrite N. exact B.
Qed.
End Main.
