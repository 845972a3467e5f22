(** Values that are what a serializer expects are serialized without warnings. *)
From Coq Require Import List NArith ZArith Bool Lia.
From Coq Require Import PeanoNat.
From Verif Require Import Base Utf8 Float64 BytesCodec Values LookupKey Child Filter SerBase Ser Classes SerOfSpec.
From Verif Require Assign.
Import ListNotations.

(** No warnings, if there is a result. *)
Definition calm {A} (m : M A) : Prop := forall a, snd m = Good a -> fst m = [].
Lemma calm_silent {A} (m : M A) : fst m = [] -> calm m.
Proof. intros H a _. exact H. Qed.
Lemma calm_ret {A} (a : A) : calm (ret a). Proof. now apply calm_silent. Qed.
Lemma calm_fail {A} e : calm (@fail A e). Proof. now apply calm_silent. Qed.
Lemma calm_bind {A B} (m : M A) (f : A -> M B) : calm m -> (forall a, snd m = Good a -> calm (f a)) -> calm (bind m f).
Proof.
  intros H F b. unfold bind. destruct (snd m) as [a|e] eqn:G; cbn; [|discriminate]. intros Q. now rewrite (H a G), (F a eq_refl b Q).
Qed.
Lemma calm_bad {A B} (m : M A) (f : A -> M B) : (forall a, snd (f a) = Bad EOther \/ exists e, snd (f a) = Bad e) -> calm (bind m f).
Proof. intros H b. unfold bind. destruct (snd m) as [a|e]; cbn; [|discriminate]. destruct (H a) as [->|[e ->]]; discriminate. Qed.
Lemma calm_opt {A} (o : option A) : calm (opt o). Proof. apply calm_silent. now destruct o. Qed.
Lemma calm_res {A} (o : res A) : calm (res_opt o). Proof. apply calm_silent. now destruct o. Qed.
Lemma calm_to_str s : calm (to_str s). Proof. apply calm_silent. unfold to_str. now destruct (forallb scalar s). Qed.
Lemma calm_put k v d : calm (put k v d). Proof. apply calm_silent. unfold put. now destruct (hashable k). Qed.
Lemma calm_new_set l : calm (new_set l). Proof. apply calm_silent. unfold new_set. now destruct (forallb hashable l). Qed.
Lemma calm_key_str k : calm (key_str k). Proof. apply calm_bind; [apply calm_opt|intros; apply calm_to_str]. Qed.
Lemma calm_str_key E v : calm (str_key E v). Proof. apply calm_bind; [apply calm_opt|intros; apply calm_ret]. Qed.
Lemma calm_hashed E v : calm (hashed_key E v). Proof. unfold hashed_key. destruct (e_hash E v); [apply calm_str_key|apply calm_fail]. Qed.
Ltac calm := repeat first [apply calm_ret | apply calm_fail | apply calm_opt | apply calm_res | apply calm_to_str | apply calm_put | apply calm_new_set
  | apply calm_key_str | apply calm_str_key | apply calm_hashed | (apply calm_bind; [|intros]) | assumption].

Lemma calm_filtered {A} f inc exc len (e : pyval -> incl -> incl -> M A) l : forall i,
  (forall v, In v l -> forall a b, calm (e v a b)) -> calm (filtered f inc exc len e i l).
Proof.
  induction l as [|v l IH]; intros i H; cbn [filtered]; [apply calm_ret|]. apply calm_bind; [apply calm_res|]. intros [[a b]|] _; [|apply IH; intros; apply H; now right].
  apply calm_bind; [apply H; now left|]. intros. apply calm_bind; [apply IH; intros; apply H; now right|intros; apply calm_ret].
Qed.
Lemma calm_mapM {A B} (e : A -> M B) l : (forall v, In v l -> calm (e v)) -> calm (mapM e l).
Proof.
  induction l as [|v l IH]; intros H; cbn [mapM]; [apply calm_ret|]. apply calm_bind; [apply H; now left|]. intros.
  apply calm_bind; [apply IH; intros; apply H; now right|intros; apply calm_ret].
Qed.
Lemma calm_pairs_py f inc exc key e l : (forall k v, In (k, Some v) l -> calm (key k) /\ forall a b, calm (e v a b)) -> forall d, calm (pairs_py f inc exc key e l d).
Proof.
  induction l as [|[k o] l IH]; intros H d; cbn [pairs_py]; [apply calm_ret|].
  destruct o as [v|]; [|apply calm_bind; [apply calm_opt|intros a Q; discriminate Q]].
  apply calm_bind; [apply calm_opt|]. intros v' [= <-]. apply calm_bind; [apply calm_res|]. destruct (H k v (or_introl eq_refl)) as [K V].
  assert (I : forall d, calm (pairs_py f inc exc key e l d)) by (intros; apply IH; intros; apply H; now right).
  intros [[a b]|] _; [|apply I]. apply calm_bind; [exact K|]. intros. apply calm_bind; [apply V|]. intros. apply calm_bind; [apply calm_put|]. intros. apply I.
Qed.
Lemma calm_pairs_js f inc exc key e l : (forall k v, In (k, Some v) l -> calm (key k) /\ forall a b, calm (e v a b)) -> calm (pairs_js f inc exc key e l).
Proof.
  induction l as [|[k o] l IH]; intros H; cbn [pairs_js]; [apply calm_ret|].
  destruct o as [v|]; [|apply calm_bind; [apply calm_opt|intros a Q; discriminate Q]].
  apply calm_bind; [apply calm_opt|]. intros v' [= <-]. apply calm_bind; [apply calm_res|]. destruct (H k v (or_introl eq_refl)) as [K V].
  assert (I : calm (pairs_js f inc exc key e l)) by (apply IH; intros; apply H; now right).
  intros [[a b]|] _; [|apply I]. apply calm_bind; [exact K|]. intros. apply calm_bind; [apply V|]. intros. apply calm_bind; [apply I|]. intros. apply calm_ret.
Qed.
Lemma in_items k v d : In (k, Some v) (items d) -> In (k, v) d.
Proof. unfold items. intros I. apply in_map_iff in I. destruct I as ([a b] & [= <- <-] & I). exact I. Qed.
Lemma items_some k o d : In (k, o) (items d) -> exists v, o = Some v.
Proof. unfold items. intros I. apply in_map_iff in I. destruct I as ([a b] & [= <- <-] & I). now exists b. Qed.
Lemma calm_zip {A} f inc exc len (e : sz -> pyval -> incl -> incl -> M A) ss : forall l i,
  (forall s v, In (s, v) (combine ss l) -> forall a b, calm (e s v a b)) -> calm (zip_items f inc exc len e i ss l).
Proof.
  induction ss as [|s ss IH]; intros [|v l] i H; cbn [zip_items]; try apply calm_ret. apply calm_bind; [apply calm_res|].
  intros [[a b]|] _; [|apply IH; intros; apply H; now right]. apply calm_bind; [apply H; now left|]. intros.
  apply calm_bind; [apply IH; intros; apply H; now right|intros; apply calm_ret].
Qed.

Section Suits.
Variable E : env.
(** Values that the serializer of a definition expects. *)
Variable R : ser -> pyval -> Prop.

(** Values that a serializer expects. *)
Inductive suits : ser -> pyval -> Prop :=
| SuAny v : built_in v -> suits SerAny v
| SuNone : suits SerNone PNone
| SuInt z : suits SerInt (PInt z)
| SuBool b : suits SerBool (PBool b)
| SuFloat m f : suits (SerFloat m) (PFloat f)
| SuStr s : suits SerStr (PStr s)
| SuBytes m v b : down_bytes v = Some b -> suits (SerBytes m) v
| SuNullNone s : suits (SerNullable s) PNone
| SuNullSome s v : suits s v -> suits (SerNullable s) v
| SuDefault d s v : suits s v -> suits (SerDefault d s) v
| SuList f s l : (forall x, In x l -> suits s x) -> suits (SerList f s) (PList l)
| SuSet s l : (forall x, In x l -> suits s x) -> suits (SerSet s) (PSet l)
| SuFrozenSet s l : (forall x, In x l -> suits s x) -> suits (SerFrozenSet s) (PFrozenSet l)
| SuTuple f ss l : length ss = length l -> (forall s x, In (s, x) (combine ss l) -> suits s x) -> suits (SerTuple f ss None) (PTuple l)
| SuVariadic f ss k l : (k < length ss)%nat ->
    (forall s x, In (s, x) (combine (firstn k ss ++ repeat (nth k ss SerAny) (length l + 1 - length ss) ++ skipn (k + 1) ss) l) -> suits s x) ->
    suits (SerTuple f ss (Some k)) (PTuple l)
| SuDict f k s d : (forall a b, In (a, b) d -> suits k a) -> (forall a b, In (a, b) d -> suits s b) -> suits (SerDict f k s) (PDict d)
| SuFields mode fs ex d : mode <> ModelExtra ->
    (forall n f s v, In (PStr n, v) d -> assoc n fs = Some f -> f_ser f = Some s -> suits s v) ->
    (forall k v, In (k, v) d -> exists n, k = PStr n) ->
    (is_td_allow mode = true -> forall n v, In (PStr n, v) d -> assoc n fs = None -> built_in v) ->
    (is_td_allow mode = true -> forall n v s, In (PStr n, v) d -> assoc n fs = None -> ex = Some s -> suits s v) ->
    suits (SerFields mode fs ex []) (PDict d)
| SuModel cls s v d : dict_attr v = Some (PDict d) -> (forall keep, suits s (PDict (List.filter keep d))) -> suits (SerModel cls s false false) v
| SuRoot cls s b v r : dict_attr v <> None -> get_attr E v Assign.root_name = Some r -> suits s r -> suits (SerModel cls s b true) v
| SuLiteral l v : built_in v -> suits (SerLiteral l) v
| SuJsonOrPython j p v : suits j v -> suits p v -> suits (SerJsonOrPython j p) v
| SuDef k r s v : e_def E k = Some s -> R s v -> suits (SerDef k r) v.

Definition by_schema (x : extra) : Prop := x_duck x = SchemaBased /\ x_check x = CNone.
(** A collection that is no key of a JSON object. *)
Definition no_json_key (v : pyval) : bool := match v with PList _ | PSet _ | PFrozenSet _ | PDict _ => true | _ => false end.

Record calm_level (L : level) : Prop := {
  cl_py : forall v inc exc x, built_in v -> calm (l_py L v inc exc x);
  cl_js : forall v inc exc x, built_in v -> calm (l_js L v inc exc x);
  cl_key : forall v x, built_in v -> calm (l_key L v x);
  cl_no_key : forall v x, no_json_key v = true -> exists e, snd (l_key L v x) = Bad e;
  cl_def : forall k s v x, e_def E k = Some s -> R s v -> by_schema x ->
    (forall inc exc, calm (l_def_py L k v inc exc x) /\ calm (l_def_js L k v inc exc x)) /\ calm (l_def_key L k v x) }.

Section Build.
Variable L : level.
Hypothesis CL : calm_level L.

Definition calm_sz (z : sz) (v : pyval) : Prop := forall x, by_schema x ->
  (forall inc exc, calm (z_py z v inc exc x) /\ calm (z_js z v inc exc x)) /\ calm (z_key z v x).

Lemma calm_invalid v x : no_json_key v = true -> calm (invalid_key L v x).
Proof.
  intros H. assert (G : invalid_key L v x = bind (on_fallback v x) (fun _ => l_key L v x)) by (destruct v; try discriminate H; reflexivity).
  rewrite G. apply calm_bad. intros _. right. now apply (cl_no_key _ CL).
Qed.
Lemma schema_model v x : by_schema x -> by_schema (set_duck (next_mode (x_duck x)) (set_model (Some v) x)).
Proof. unfold by_schema. intros [H1 H2]. cbn. now rewrite H1. Qed.

Lemma calm_tuple {A} f ss variadic (e : sz -> pyval -> incl -> incl -> M A) inc exc x l :
  (match variadic with None => length ss = length l | Some _ => True end) ->
  (forall s v, In (s, v) (combine (tuple_serializers L ss variadic (length l)) l) -> forall a b, calm (e s v a b)) ->
  calm (tuple_each L f ss variadic e inc exc x l).
Proof.
  intros LE H. unfold tuple_each. cbv zeta. destruct variadic as [k|]; [now apply calm_zip|]. cbn [tuple_serializers] in H.
  rewrite LE, Nat.eqb_refl. cbn [negb]. rewrite andb_false_r. apply calm_bind; [now apply calm_zip|]. intros r _. rewrite skipn_all. apply calm_ret.
Qed.
Lemma in_combine_map {A B C} (g : A -> B) (ss : list A) : forall (l : list C) b c, In (b, c) (combine (map g ss) l) -> exists a, b = g a /\ In (a, c) (combine ss l).
Proof.
  induction ss as [|s ss IH]; intros [|v l] b c H; cbn in *; try contradiction. destruct H as [[= <- <-]|H]; [exists s; auto|]. destruct (IH l b c H) as (a & Q & I). exists a. auto.
Qed.
Lemma map_repeat {A B} (g : A -> B) a n : map g (repeat a n) = repeat (g a) n.
Proof. induction n; cbn; congruence. Qed.
Lemma serializers_map ss k n : (k < length ss)%nat -> tuple_serializers L (map (build E L) ss) (Some k) n =
  map (build E L) (firstn k ss ++ repeat (nth k ss SerAny) (n + 1 - length ss) ++ skipn (k + 1) ss).
Proof.
  intros K. cbn [tuple_serializers]. rewrite !map_app, map_length, firstn_map, skipn_map. f_equal. f_equal.
  rewrite map_repeat. rewrite (nth_indep _ _ (build E L SerAny)) by now rewrite map_length. now rewrite map_nth.
Qed.

Lemma assoc_map_field n fs : assoc n (map (fun kf : str * field ser => (fst kf, map_field (build E L) (snd kf))) fs) =
  match assoc n fs with Some f => Some (map_field (build E L) f) | None => None end.
Proof. induction fs as [|[k f] fs IH]; cbn [map assoc fst snd]; [reflexivity|]. now destruct (str_eqb n k). Qed.

Section OneFields.
Variables (mode : fields_mode) (fs : list (str * field sz)) (ex : option sz).
Definition item_calm (x : extra) (k : pyval) (v : pyval) : Prop :=
  exists n, k = PStr n /\
  (forall f s, assoc n fs = Some f -> f_ser f = Some s -> calm_sz s v) /\
  (is_td_allow mode = true -> assoc n fs = None -> built_in v /\ forall s, ex = Some s -> calm_sz s v).
Lemma calm_main_py inc exc x l : by_schema x -> (forall k v, In (k, Some v) l -> item_calm x k v) -> forall d n, calm (main_py_loop L mode fs ex inc exc x l d n).
Proof.
  intros B. induction l as [|[k o] l IH]; intros H d n; cbn [main_py_loop]; [apply calm_ret|].
  destruct o as [v|]; [|apply calm_bind; [apply calm_opt|intros a Q; discriminate Q]].
  assert (I : forall d n, calm (main_py_loop L mode fs ex inc exc x l d n)) by (intros; apply IH; intros; apply H; now right).
  apply calm_bind; [apply calm_opt|]. intros v' [= <-]. apply calm_bind; [apply calm_key_str|]. intros ks KS.
  destruct (H k v (or_introl eq_refl)) as (m & -> & F & X).
  assert (ks = m) as ->. { unfold key_str, bind in KS. cbn in KS. unfold to_str in KS. destruct (forallb scalar m); [|discriminate]. cbn in KS. now injection KS. }
  destruct (x_exclude_none x && is_py_none v); [apply I|]. apply calm_bind; [apply calm_res|]. intros [[a b]|] _; [|apply I].
  destruct (assoc m fs) as [f|] eqn:A.
  - destruct (f_ser f) as [s|] eqn:S'; [|apply I]. destruct (is_default v x s); [apply I|].
    apply calm_bind; [apply (F f s eq_refl S' x B)|]. intros. apply calm_bind; [apply calm_put|]. intros. apply I.
  - destruct (is_td_allow mode) eqn:T; [|destruct (is_strict (x_check x)); [apply calm_fail|apply I]].
    destruct (X eq_refl eq_refl) as [BI XS]. apply calm_bind.
    + destruct ex as [s|]; [apply (XS s eq_refl x B)|now apply (cl_py _ CL)].
    + intros. apply calm_bind; [apply calm_put|]. intros. apply I.
Qed.
Lemma calm_main_js inc exc x l : by_schema x -> (forall k v, In (k, Some v) l -> item_calm x k v) -> calm (main_to_json L mode fs l inc exc x).
Proof.
  intros B. induction l as [|[k o] l IH]; intros H; cbn [main_to_json]; [apply calm_ret|].
  destruct o as [v|]; [|apply calm_bind; [apply calm_opt|intros a Q; discriminate Q]].
  assert (I : calm (main_to_json L mode fs l inc exc x)) by (apply IH; intros; apply H; now right).
  apply calm_bind; [apply calm_opt|]. intros v' [= <-]. destruct (x_exclude_none x && is_py_none v); [apply I|].
  apply calm_bind; [apply calm_key_str|]. intros ks KS.
  destruct (H k v (or_introl eq_refl)) as (m & -> & F & X).
  assert (ks = m) as ->. { unfold key_str, bind in KS. cbn in KS. unfold to_str in KS. destruct (forallb scalar m); [|discriminate]. cbn in KS. now injection KS. }
  apply calm_bind; [apply calm_res|]. intros [[a b]|] _; [|apply I].
  destruct (assoc m fs) as [f|] eqn:A.
  - destruct (f_ser f) as [s|] eqn:S'; [|apply I]. destruct (is_default v x s); [apply I|].
    apply calm_bind; [apply (F f s eq_refl S' x B)|]. intros. apply calm_bind; [apply I|]. intros. apply calm_ret.
  - destruct (is_td_allow mode) eqn:T; [|apply I].
    destruct (X eq_refl eq_refl) as [BI XS]. apply calm_bind; [apply (cl_key _ CL); constructor|]. intros.
    apply calm_bind; [now apply (cl_js _ CL)|]. intros. apply calm_bind; [apply I|]. intros. apply calm_ret.
Qed.
Lemma calm_fields d : mode <> ModelExtra -> (forall x k v, In (k, v) d -> item_calm x k v) -> calm_sz (fields_ser E L mode fs ex []) (PDict d).
Proof.
  intros M H x B. cbn [fields_ser z_py z_js z_key].
  assert (X : extract_dicts mode (PDict d) = Some (d, None)) by (destruct mode; [reflexivity|congruence|reflexivity]).
  assert (TI : td_inferred x = false) by (unfold td_inferred; rewrite (proj1 B); apply andb_false_r).
  assert (B' : by_schema (set_model (model_or (PDict d) x) x)) by exact B.
  assert (IT : forall y k v, In (k, Some v) (items d) -> item_calm y k v) by (intros y k v I; apply H; now apply in_items).
  split; [|apply calm_invalid; reflexivity]. intros inc exc. rewrite X, TI. split.
  - apply calm_bind.
    + apply calm_bind; [apply calm_main_py; [exact B'|apply IT]|]. intros r _. destruct (_ && _); [apply calm_fail|apply calm_ret].
    + intros r _. apply calm_bind; [apply calm_ret|]. intros. apply calm_bind; [|intros; apply calm_ret].
      unfold comp_to_python. destruct (model_or _ x); [|apply calm_ret]. destruct (x_round_trip x); cbn [comp_py_loop map]; apply calm_ret.
  - apply calm_bind; [apply calm_main_js; [exact B'|apply IT]|]. intros. apply calm_bind; [apply calm_ret|]. intros. apply calm_bind; [|intros; apply calm_ret].
    unfold comp_to_json. destruct (model_or _ x); [|apply calm_ret]. destruct (x_round_trip x); cbn [comp_js_loop map]; apply calm_ret.
Qed.
End OneFields.

Lemma calm_build s v : suits s v -> calm_sz (build E L s) v.
Proof.
  induction 1 as [v H| |z|b|m f|s|m v b H|s|s v H IH|d s v H IH|f s l H IH|s l H IH|s l H IH|f ss l LE H IH|f ss k l K H IH|f k s d H IH H' IH'
    |mode fs ex d M H IH KS X X2 IX|cls s v d D H IH|cls s b v r D G H IH|l v H|j p v H1 IH1 H2 IH2|k r s v D H]; intros x B; cbn [build].
  - split; [intros inc exc; split|]; cbn; [now apply (cl_py _ CL)|now apply (cl_js _ CL)|now apply (cl_key _ CL)].
  - split; [intros inc exc; split|]; cbn; apply calm_ret.
  - split; [intros inc exc; split|]; cbn; calm.
  - split; [intros inc exc; split|]; cbn; calm.
  - split; [intros inc exc; split|]; cbn; calm.
  - split; [intros inc exc; split|]; cbn; calm.
  - split; [intros inc exc; split|]; cbn [bytes_ser simple z_py z_js z_key]; rewrite H; [destruct (x_json x)| |]; calm.
  - split; [intros inc exc; split|]; cbn; apply calm_ret.
  - cbn [nullable_ser simple z_py z_js z_key]. destruct (IH x B) as [P K]. split; [intros inc exc; destruct (P inc exc); split|]; destruct v; try apply calm_ret; assumption.
  - exact (IH x B).
  - cbn [list_ser simple z_py z_js z_key down_list base]. split; [intros inc exc; split|apply calm_invalid; reflexivity];
      (apply calm_bind; [apply calm_filtered; intros u I a b; now apply (IH u I x B)|intros; apply calm_ret]).
  - cbn [set_ser simple z_py z_js z_key down_set base]. split; [intros inc exc; split|apply calm_invalid; reflexivity];
      (apply calm_bind; [apply calm_mapM; intros u I; now apply (IH u I x B)|intros r _]); [destruct (x_json x)|]; calm.
  - cbn [set_ser simple z_py z_js z_key down_frozenset base]. split; [intros inc exc; split|apply calm_invalid; reflexivity];
      (apply calm_bind; [apply calm_mapM; intros u I; now apply (IH u I x B)|intros r _]); [destruct (x_json x)|]; calm.
  - assert (Q : forall z u, In (z, u) (combine (tuple_serializers L (map (build E L) ss) None (length l)) l) -> calm_sz z u).
    { intros z u I. apply in_combine_map in I. destruct I as (s & -> & I). now apply IH. }
    cbn [tuple_ser simple z_py z_js z_key down_tuple base]. split; [intros inc exc; split|]; (apply calm_bind; [|intros; apply calm_ret]);
      (apply calm_tuple; [now rewrite map_length|intros z u I a b'; now apply (Q z u I x B)]).
  - assert (Q : forall z u, In (z, u) (combine (tuple_serializers L (map (build E L) ss) (Some k) (length l)) l) -> calm_sz z u).
    { intros z u I. rewrite serializers_map in I by exact K. apply in_combine_map in I. destruct I as (s & -> & I). now apply IH. }
    cbn [tuple_ser simple z_py z_js z_key down_tuple base]. split; [intros inc exc; split|]; (apply calm_bind; [|intros; apply calm_ret]);
      (apply calm_tuple; [exact I|intros z u I a b'; now apply (Q z u I x B)]).
  - cbn [dict_ser simple z_py z_js z_key down_dict base]. split; [intros inc exc; split|apply calm_invalid; reflexivity]; (apply calm_bind; [|intros; apply calm_ret]).
    + apply calm_pairs_py. intros a b I. apply in_items in I. split; [|intros; now apply (IH' a b I x B)].
      destruct (x_json x); [apply calm_bind; [now apply (IH a b I x B)|intros; apply calm_ret]|now apply (IH a b I x B)].
    + apply calm_pairs_js. intros a b I. apply in_items in I. split; [now apply (IH a b I x B)|intros; now apply (IH' a b I x B)].
  - refine (calm_fields mode _ _ d M _ x B). intros y k v I. destruct (KS k v I) as [n ->]. exists n. split; [reflexivity|]. rewrite assoc_map_field. split.
    + intros f s A S'. destruct (assoc n fs) as [g|] eqn:G; [|discriminate]. injection A as <-. cbn [map_field f_ser] in S'. destruct (f_ser g) as [t|] eqn:T; [|discriminate].
      injection S' as <-. exact (IH n g t v I G T).
    + intros T A. destruct (assoc n fs) as [g|] eqn:G; [discriminate|]. split; [exact (X T n v I G)|].
      intros s S'. destruct ex as [t|]; [|discriminate]. injection S' as <-. exact (IX T n v t I G eq_refl).
  - cbn [model_ser simple z_py z_js z_key]. pose proof (schema_model v x B) as B'. set (y := set_duck _ _) in *.
    assert (NI : is_inferred (x_duck y) = false) by now rewrite (proj1 B').
    assert (HD : has_dict v = true) by (unfold has_dict; now rewrite D).
    assert (CA : class_allows E cls has_dict v y = true) by (unfold class_allows; now rewrite (proj2 B')).
    assert (CA' : class_allows E cls has_dict v x = true) by (unfold class_allows; now rewrite (proj2 B)).
    assert (IV : forall i, snd (inner_value E false v y) = Good i -> exists keep, i = PDict (List.filter keep d)).
    { intros i. unfold inner_value, bind. rewrite D. generalize dunder_fields_set as dfs. intros dfs. cbn. destruct (x_exclude_unset x); cbn.
      - destruct (get_attr E v dfs); cbn; [|discriminate]. destruct (down_set p); cbn; [|discriminate]. intros [= <-]. eexists. reflexivity.
      - intros [= <-]. exists (fun _ => true). f_equal. clear. induction d; cbn; congruence. }
    assert (IC : calm (inner_value E false v y)).
    { apply calm_bind; [apply calm_opt|]. intros. apply calm_bind; [apply calm_opt|]. intros. apply calm_bind; [|intros; apply calm_ret].
      destruct (x_exclude_unset y); calm. }
    rewrite CA'. split; [intros inc exc; rewrite NI, CA; split|apply calm_hashed];
      (apply calm_bind; [exact IC|]; intros i I; destruct (IV i I) as [keep ->]; now apply (IH keep y B')).
  - cbn [model_ser simple z_py z_js z_key]. pose proof (schema_model v x B) as B'. set (y := set_duck _ _) in *.
    assert (NI : is_inferred (x_duck y) = false) by now rewrite (proj1 B').
    assert (CA' : class_allows E cls has_dict v x = true) by (unfold class_allows, has_dict; rewrite (proj2 B); now destruct (dict_attr v)).
    rewrite CA'. split; [intros inc exc; rewrite NI, G; split|apply calm_hashed].
    + now apply IH.
    + apply calm_bind; [apply calm_opt|]. intros a [= <-]. now apply IH.
  - cbn [literal_ser simple z_py z_js z_key]. unfold lit_check. rewrite (proj2 B). cbn [check_enabled].
    split; [intros inc exc; split|]; (apply calm_bind; [apply calm_ret|]); intros a [= <-]; [now apply (cl_py _ CL)|now apply (cl_js _ CL)|now apply (cl_key _ CL)].
  - cbn [json_or_python_ser simple z_py z_js z_key]. destruct (IH1 x B) as [P1 K1]. destruct (IH2 x B) as [P2 K2]. split; [intros inc exc; split; [apply P2|apply P1]|exact K1].
  - cbn [def_ser simple z_py z_js z_key]. exact (cl_def _ CL k s v x D H B).
Qed.
End Build.

Lemma calm_infer_py L own v inc exc x : calm_level L -> built_in v -> calm (infer_py_body E L own v inc exc x).
Proof.
  intros CL B. unfold infer_py_body. cbv zeta.
  destruct B as [ |b|z|f|s|b|l H|l H|l H|l H|d H]; cbn [get_type]; try apply calm_ret.
  - destruct (x_json x); calm.
  - destruct (x_json x); calm.
  - cbn [down_list base]. apply calm_bind; [apply calm_opt|]. intros a [= <-]. apply calm_bind; [|intros; apply calm_ret].
    apply calm_filtered. intros. apply (cl_py _ CL). now apply H.
  - cbn [down_tuple base]. apply calm_bind; [apply calm_opt|]. intros a [= <-]. apply calm_bind; [|intros; apply calm_ret].
    apply calm_filtered. intros. apply (cl_py _ CL). now apply H.
  - cbn [down_set base]. apply calm_bind; [apply calm_opt|]. intros a [= <-]. apply calm_bind.
    + apply calm_mapM. intros. apply (cl_py _ CL). now apply H.
    + intros. destruct (x_json x); calm.
  - cbn [down_frozenset base]. apply calm_bind; [apply calm_opt|]. intros a [= <-]. apply calm_bind.
    + apply calm_mapM. intros. apply (cl_py _ CL). now apply H.
    + intros. destruct (x_json x); calm.
  - cbn [down_dict base]. apply calm_bind; [apply calm_opt|]. intros a [= <-]. apply calm_bind; [|intros; apply calm_ret].
    apply calm_pairs_py. intros k v I. apply in_items in I. destruct (H k v I) as [HK HV]. split; [|intros; now apply (cl_py _ CL)].
    destruct (x_json x); [apply calm_bind; [now apply (cl_key _ CL)|intros; apply calm_ret]|apply calm_ret].
Qed.
Lemma calm_infer_js L own v inc exc x : calm_level L -> built_in v -> calm (infer_js_body E L own v inc exc x).
Proof.
  intros CL B. unfold infer_js_body. cbv zeta.
  destruct B as [ |b|z|f|s|b|l H|l H|l H|l H|d H]; cbn [get_type]; try solve [calm].
  - cbn [down_list base]. apply calm_bind; [apply calm_opt|]. intros a [= <-]. apply calm_bind; [|intros; apply calm_ret].
    apply calm_filtered. intros. apply (cl_js _ CL). now apply H.
  - cbn [down_tuple base]. apply calm_bind; [apply calm_opt|]. intros a [= <-]. apply calm_bind; [|intros; apply calm_ret].
    apply calm_filtered. intros. apply (cl_js _ CL). now apply H.
  - cbn [down_set base]. apply calm_bind; [apply calm_opt|]. intros a [= <-]. apply calm_bind; [|intros; apply calm_ret].
    apply calm_mapM. intros. apply (cl_js _ CL). now apply H.
  - cbn [down_frozenset base]. apply calm_bind; [apply calm_opt|]. intros a [= <-]. apply calm_bind; [|intros; apply calm_ret].
    apply calm_mapM. intros. apply (cl_js _ CL). now apply H.
  - cbn [down_dict base]. apply calm_bind; [apply calm_opt|]. intros a [= <-]. apply calm_bind; [|intros; apply calm_ret].
    apply calm_pairs_js. intros k v I. apply in_items in I. destruct (H k v I) as [HK HV]. split; [now apply (cl_key _ CL)|intros; now apply (cl_js _ CL)].
Qed.
Lemma calm_infer_key again v x : (forall u, built_in u -> calm (again u x)) -> built_in v -> calm (infer_key_body E again v x).
Proof.
  intros A B. unfold infer_key_body. destruct B as [ |b|z|f|s|b|l H|l H|l H|l H|d H]; cbn [get_type]; try solve [calm].
  - apply calm_bind; [apply calm_opt|]. intros. destruct (_ && _); calm.
  - cbn [down_tuple base]. apply calm_bind; [apply calm_opt|]. intros a [= <-]. apply calm_bind; [|intros; apply calm_ret].
    apply calm_mapM. intros. apply A. now apply H.
Qed.
Lemma no_key_body again v x : no_json_key v = true -> exists e, snd (infer_key_body E again v x) = Bad e.
Proof. intros H. destruct v; try discriminate H; eexists; reflexivity. Qed.

Hypothesis HR : forall s v, R s v -> suits s v.
Lemma calm_keyed P n :
  (forall v inc exc x, built_in v -> calm (l_py P v inc exc x)) -> (forall v inc exc x, built_in v -> calm (l_js P v inc exc x)) ->
  (forall k s v x, e_def E k = Some s -> R s v -> by_schema x -> forall inc exc, calm (l_def_py P k v inc exc x) /\ calm (l_def_js P k v inc exc x)) ->
  calm_level (keyed E P n).
Proof.
  intros H1 H2 H3. induction n as [|n IH]; cbn [keyed]; constructor; cbn [l_py l_js l_key l_def_py l_def_js l_def_key]; try assumption.
  - intros. apply calm_fail.
  - intros. now exists ECrash.
  - intros k s v x D S' B. split; [now apply (H3 k s v x)|apply calm_fail].
  - intros v x B. apply calm_infer_key; [|exact B]. intros u. now apply (cl_key _ IH).
  - intros v x. apply no_key_body.
  - intros k s v x D S' B. split; [now apply (H3 k s v x)|]. rewrite D. now apply (calm_build _ IH s v (HR _ _ S') x B).
Qed.
Lemma enter_schema v k x y : enter v k x = Some y -> by_schema x -> by_schema y.
Proof. unfold enter. destruct (existsb _ _); [discriminate|]. intros [= <-]. exact (fun B => B). Qed.
Lemma calm_levels n : calm_level (levels E n).
Proof.
  induction n as [|n IH]; cbn [levels].
  - apply calm_keyed; cbn [l_py l_js l_def_py l_def_js].
    + intros. unfold guard_failed_py. destruct (x_json x); calm.
    + intros. unfold guard_failed_js. destruct (x_serialize_unknown x); calm.
    + intros. split; apply calm_fail.
  - apply calm_keyed; cbn [l_py l_js l_def_py l_def_js].
    + intros v inc exc x B. destruct (enter v None x); [now apply calm_infer_py|]. unfold guard_failed_py. destruct (x_json x); calm.
    + intros v inc exc x B. destruct (enter v None x); [now apply calm_infer_js|]. unfold guard_failed_js. destruct (x_serialize_unknown x); calm.
    + intros k s v x D S' B inc exc. rewrite D. destruct (enter v (Some k) x) as [y|] eqn:EN; [|split; apply calm_fail].
      apply (calm_build _ IH s v (HR _ _ S') y (enter_schema _ _ _ _ EN B)).
Qed.
Lemma suits_calm n s v : suits s v -> calm_sz (build E (levels E n) s) v.
Proof. apply calm_build, calm_levels. Qed.
End Suits.
