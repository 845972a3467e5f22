(** What a successful serialization has done, for the schemas of RoundTripSpec.v. *)
From Coq Require Import List NArith ZArith Bool Lia.
From Verif Require Import Base Float64 Utf8 Decimal Values BytesCodec Filter LookupKey Classes JsonText SerBase Ser SerAgree.
Import ListNotations.
Open Scope nat_scope.

Lemma good_bind {A B} (m : M A) (f : A -> M B) b : snd (bind m f) = Good b -> exists a, snd m = Good a /\ snd (f a) = Good b.
Proof. unfold bind. destruct (snd m) as [a|e]; [|discriminate]. intros H. now exists a. Qed.
Lemma good_ret {A} (a b : A) : snd (ret a) = Good b -> a = b. Proof. now intros [= ->]. Qed.
Lemma good_opt {A} (o : option A) b : snd (opt o) = Good b -> o = Some b. Proof. destruct o; [now intros [= ->]|discriminate]. Qed.
Ltac ginv H := let a := fresh "a" in let G := fresh "G" in apply good_bind in H; destruct H as (a & G & H).

Lemma good_filtered {A} len (each : pyval -> option fval -> option fval -> M A) l : forall i r,
  snd (filtered any_filter None None len each i l) = Good r -> Forall2 (fun v a => snd (each v None None) = Good a) l r.
Proof.
  induction l as [|v l IH]; intros i r H; cbn [filtered] in H; [apply good_ret in H; subst; constructor|].
  rewrite any_index_none in H. ginv H. apply good_ret in G. subst. cbn iota in H. ginv H. ginv H. apply good_ret in H. subst. constructor; [assumption|eauto].
Qed.
Lemma good_mapM {A B} (each : A -> M B) l : forall r, snd (mapM each l) = Good r -> Forall2 (fun v a => snd (each v) = Good a) l r.
Proof.
  induction l as [|v l IH]; intros r H; cbn [mapM] in H; [apply good_ret in H; subst; constructor|].
  ginv H. ginv H. apply good_ret in H. subst. constructor; [assumption|eauto].
Qed.
Lemma good_zip {A} len (each : sz -> pyval -> option fval -> option fval -> M A) ss : forall l i r, length ss = length l ->
  snd (zip_items any_filter None None len each i ss l) = Good r -> exists pairs, map fst pairs = combine ss l /\ r = map snd pairs /\ Forall (fun p => snd (each (fst (fst p)) (snd (fst p)) None None) = Good (snd p)) pairs.
Proof.
  induction ss as [|s ss IH]; intros [|v l] i r L H; try discriminate; cbn [zip_items] in H.
  - apply good_ret in H. subst. exists []. repeat split. constructor.
  - rewrite any_index_none in H. ginv H. apply good_ret in G. subst. cbn iota in H. ginv H. ginv H. apply good_ret in H. subst.
    destruct (IH l (S i) _ ltac:(now injection L) G0) as (ps & P1 & P2 & P3). exists (((s, v), a) :: ps). cbn. rewrite P1, P2. repeat split. now constructor.
Qed.
Lemma good_pairs_js (key : pyval -> M str) (each : pyval -> option fval -> option fval -> M json) d : forall r,
  snd (pairs_js any_filter None None key each (items d)) = Good r ->
  Forall2 (fun kv kj => snd (key (fst kv)) = Good (fst kj) /\ snd (each (snd kv) None None) = Good (snd kj)) d r.
Proof.
  induction d as [|[k v] d IH]; intros r H; cbn [items map pairs_js fst snd] in H; [apply good_ret in H; subst; constructor|].
  rewrite any_filter_none in H. ginv H. apply good_ret in G. subst. cbn beta in H. ginv H. apply good_ret in G. subst. cbn iota in H. ginv H. ginv H. ginv H. apply good_ret in H. subst. constructor; [now split|eauto].
Qed.
(** In Python mode the keys are kept. *)
Lemma dict_set_fresh k v (d : list (pyval * pyval)) : Forall (fun kv => py_eq (fst kv) k = false) d -> dict_set k v d = d ++ [(k, v)].
Proof. induction 1 as [|[a b] d H F IH]; [reflexivity|]. cbn in H |- *. now rewrite H, IH. Qed.
Lemma good_put k v d e : snd (put k v d) = Good e -> e = dict_set k v d /\ hashable k = true.
Proof. unfold put. destruct (hashable k); [|discriminate]. intros H. apply good_ret in H. now split. Qed.
Lemma good_pairs_py (key : pyval -> M pyval) (each : pyval -> option fval -> option fval -> M pyval) d : forall acc r,
  (forall a b k, In (a, b) d -> snd (key a) = Good k -> k = a) ->
  ForallOrdPairs (fun x y : pyval * pyval => py_eq (fst x) (fst y) = false) (acc ++ d) ->
  snd (pairs_py any_filter None None key each (items d) acc) = Good r ->
  exists e, r = acc ++ e /\ Forall2 (fun kv kw => fst kw = fst kv /\ snd (key (fst kv)) = Good (fst kw) /\ snd (each (snd kv) None None) = Good (snd kw)) d e.
Proof.
  induction d as [|[k v] d IH]; intros acc r KK D H; cbn [items map pairs_py fst snd] in H; [apply good_ret in H; subst; exists []; split; [now rewrite app_nil_r|constructor]|].
  rewrite any_filter_none in H. ginv H. apply good_ret in G. subst a. cbn beta in H. ginv H. apply good_ret in G. subst a. cbn iota in H. ginv H. ginv H. ginv H. pose proof (KK _ _ _ (or_introl eq_refl) G) as ->. apply good_put in G1. destruct G1 as [-> HH].
  assert (F : Forall (fun kv => py_eq (fst kv) k = false) acc).
  { clear - D. induction acc as [|x acc IH]; [constructor|]. inversion D as [|? ? D1 D2]; subst. constructor; [|now apply IH]. rewrite Forall_forall in D1. apply (D1 (k, v)). apply in_or_app. right. now left. }
  rewrite (dict_set_fresh _ _ _ F) in H.
  assert (D' : ForallOrdPairs (fun x y : pyval * pyval => py_eq (fst x) (fst y) = false) ((acc ++ [(k, a0)]) ++ d)).
  { clear - D. rewrite <- app_assoc. cbn [app]. induction acc as [|x acc IH]; cbn [app] in *.
    - inversion D; subst. now constructor.
    - inversion D as [|? ? D1 D2]; subst. constructor; [|now apply IH]. rewrite Forall_forall in *. intros y Y. apply in_app_or in Y. destruct Y as [Y|[<-|Y]]; [apply D1; apply in_or_app; now left|apply (D1 (k, v)); apply in_or_app; right; now left|apply D1; apply in_or_app; right; now right]. }
  destruct (IH _ _ (fun a b x J => KK a b x (or_intror J)) D' H) as (e & -> & FE). exists ((k, a0) :: e). rewrite <- app_assoc. split; [reflexivity|]. constructor; [now repeat split|exact FE].
Qed.
Lemma new_set_distinct l r : ForallOrdPairs (fun a b => py_eq a b = false) l -> snd (new_set l) = Good r -> r = l.
Proof.
  unfold new_set. destruct (forallb hashable l); [|discriminate]. intros D H. apply good_ret in H. subst r.
  assert (G : forall l acc, ForallOrdPairs (fun a b => py_eq a b = false) (acc ++ l) -> fold_left (fun s x => set_add x s) l acc = acc ++ l).
  { clear. induction l as [|x l IH]; intros acc D; cbn [fold_left]; [now rewrite app_nil_r|].
    assert (A : set_add x acc = acc ++ [x]). { unfold set_add. destruct (existsb _ acc) eqn:X; [|reflexivity]. exfalso. apply existsb_exists in X. destruct X as (y & Y & Q).
      assert (Z : py_eq y x = false); [|congruence]. clear - D Y. induction acc as [|z acc IH]; [destruct Y|]. inversion D as [|? ? D1 D2]; subst. destruct Y as [<-|Y]; [|now apply IH]. rewrite Forall_forall in D1. apply D1. apply in_or_app. right. now left. }
    rewrite A, IH; rewrite <- app_assoc; [reflexivity|exact D]. }
  apply (G l []). exact D.
Qed.

(** The extras of calls that filter nothing. *)
Record neat (js : bool) (ba : option bool) (rt : bool) (x : extra) : Prop := {
  ne_json : x_json x = js; ne_alias : x_by_alias x = ba; ne_unset : x_exclude_unset x = false; ne_defaults : x_exclude_defaults x = false;
  ne_none : x_exclude_none x = false; ne_round : x_round_trip x = rt; ne_check : x_check x = CNone; ne_duck : x_duck x = SchemaBased }.
Lemma neat_model js ba rt m x : neat js ba rt x -> neat js ba rt (set_model m x). Proof. intros []. now constructor. Qed.
Lemma neat_duck js ba rt x : neat js ba rt x -> neat js ba rt (set_duck (next_mode (x_duck x)) x). Proof. intros []. constructor; try assumption. cbn. now rewrite ne_duck0. Qed.
Lemma neat_guard js ba rt g x : neat js ba rt x -> neat js ba rt (set_guard g x). Proof. intros []. now constructor. Qed.
Lemma neat_enter js ba rt v k x x' : neat js ba rt x -> enter v k x = Some x' -> neat js ba rt x'.
Proof. unfold enter. destruct (existsb _ _); [discriminate|]. intros H [= <-]. now apply neat_guard. Qed.

Section Fields.
Variable E : env.
Variable L : level.
Variables (js rt : bool) (ba : option bool).
Variable mode : fields_mode.
Variable fields : list (str * field sz).
Variable extras : option sz.
Variable comp : list (computed sz).
Hypothesis no_comp : comp = [] \/ rt = true.
Definition known (kv : pyval * pyval) (n : str) (f : field sz) (s : sz) : Prop :=
  fst kv = PStr n /\ forallb scalar n = true /\ assoc n fields = Some f /\ f_ser f = Some s.

Lemma key_str_ok n : forallb scalar n = true -> key_str (PStr n) = ret n.
Proof. intros H. unfold key_str, down_str, base, opt, bind, to_str. cbn. now rewrite H. Qed.
Lemma good_main_js d x : neat js ba rt x -> (forall kv, In kv d -> exists n f s, known kv n f s) -> forall r,
  snd (main_to_json L mode fields (items d) None None x) = Good r ->
  Forall2 (fun kv kj => exists n f s, known kv n f s /\ fst kj = out_key n f x /\ snd (z_js s (snd kv) None None x) = Good (snd kj)) d r.
Proof.
  intros NE. induction d as [|[k v] d IH]; intros KN r H; cbn [items map main_to_json fst snd] in H; [apply good_ret in H; subst; constructor|].
  destruct (KN _ (or_introl eq_refl)) as (n & f & s & K1 & K2 & K3 & K4). cbn [fst] in K1. subst k.
  rewrite any_filter_none, (key_str_ok _ K2), (ne_none _ _ _ _ NE) in H. cbn [andb] in H. ginv H. apply good_ret in G. subst a. cbn beta iota in H. ginv H. apply good_ret in G. subst a. ginv H. apply good_ret in G. subst a. cbn beta iota in H.
  rewrite K3, K4 in H. unfold is_default in H. rewrite (ne_defaults _ _ _ _ NE) in H. cbn [andb] in H. ginv H. ginv H. apply good_ret in H. subst.
  constructor; [exists n, f, s; repeat split; assumption|]. apply IH; [intros; apply KN; now right|assumption].
Qed.
Lemma good_main_py_loop d x : neat js ba rt x -> (forall kv, In kv d -> exists n f s, known kv n f s) -> forall acc n r,
  (exists ks, map fst acc = map PStr ks /\ exists ms, NoDup (ks ++ ms) /\ Forall2 (fun kv m => exists n f, fst kv = PStr n /\ assoc n fields = Some f /\ m = out_key n f x) d ms) ->
  snd (main_py_loop L mode fields extras None None x (items d) acc n) = Good r ->
  exists e, fst r = acc ++ e /\ Forall2 (fun kv kw => exists n f s, known kv n f s /\ fst kw = PStr (out_key n f x) /\ snd (z_py s (snd kv) None None x) = Good (snd kw)) d e.
Proof.
  intros NE. induction d as [|[k v] d IH]; intros KN acc c r (ks & MA & ms & ND & F2) H; cbn [items map main_py_loop fst snd] in H.
  { apply good_ret in H. subst. exists []. cbn. split; [now rewrite app_nil_r|constructor]. }
  destruct (KN _ (or_introl eq_refl)) as (n & f & s & K1 & K2 & K3 & K4). cbn [fst] in K1. subst k.
  rewrite any_filter_none, (key_str_ok _ K2), (ne_none _ _ _ _ NE) in H. cbn [andb] in H. ginv H. apply good_ret in G. subst a. ginv H. apply good_ret in G. subst a. cbn beta iota zeta in H. ginv H. apply good_ret in G. subst a. cbn beta iota in H.
  rewrite K3, K4 in H. unfold is_default in H. rewrite (ne_defaults _ _ _ _ NE) in H. cbn [andb] in H. ginv H. ginv H. apply good_put in G0. destruct G0 as [-> _].
  inversion F2 as [|? m ? ms' (n' & f' & Q1 & Q2 & ->) F2']; subst. cbn [fst] in Q1. injection Q1 as <-. rewrite K3 in Q2. injection Q2 as <-.
  assert (FR : Forall (fun kv => py_eq (fst kv) (PStr (out_key n f x)) = false) acc).
  { apply Forall_forall. intros [ka kb] J. apply (in_map fst) in J. rewrite MA in J. apply in_map_iff in J. destruct J as (q & Q & J). cbn [fst] in *. subst ka. cbn. destruct (str_eqb q (out_key n f x)) eqn:QE; [|reflexivity]. exfalso.
    assert (q = out_key n f x) by (clear - QE; revert QE; generalize (out_key n f x); induction q as [|c q IHq]; intros [|c' t]; cbn; try discriminate; [reflexivity|]; intros H; apply andb_prop in H; destruct H as [H1 H2]; apply N.eqb_eq in H1; f_equal; auto).
    subst q. apply NoDup_remove_2 in ND. apply ND. apply in_or_app. now left. }
  rewrite (dict_set_fresh _ _ _ FR) in H. destruct (IH (fun kv J => KN kv (or_intror J)) (acc ++ [(PStr (out_key n f x), a)]) _ _ ltac:(exists (ks ++ [out_key n f x]); split; [rewrite !map_app, MA; reflexivity|exists ms'; rewrite <- app_assoc; split; [exact ND|exact F2']]) H) as (e & Q & FE).
  exists ((PStr (out_key n f x), a) :: e). rewrite <- app_assoc in Q. split; [exact Q|]. constructor; [exists n, f, s; now repeat split|exact FE].
Qed.
Lemma td_plain x : neat js ba rt x -> td_inferred x = false.
Proof. intros NE. unfold td_inferred. rewrite (ne_duck _ _ _ _ NE). cbn. apply andb_false_r. Qed.
Lemma comp_js_none m x : neat js ba rt x -> forall r, snd (comp_to_json E comp m None None x) = Good r -> r = [].
Proof.
  intros NE r. unfold comp_to_json. destruct m; [|intros H; apply good_ret in H; now subst]. rewrite (ne_round _ _ _ _ NE). destruct no_comp as [->| ->]; [destruct rt|]; intros H; apply good_ret in H; now subst.
Qed.
Lemma comp_py_none m d x : neat js ba rt x -> forall r, snd (comp_to_python E comp m d None None x) = Good r -> r = d.
Proof.
  intros NE r. unfold comp_to_python. destruct m; [|intros H; apply good_ret in H; now subst]. rewrite (ne_round _ _ _ _ NE). destruct no_comp as [->| ->]; [destruct rt|]; intros H; apply good_ret in H; now subst.
Qed.
Lemma out_key_neat {T} n (f : field T) x : neat js ba rt x -> out_key n f x = if match ba with Some b => b | None => match f_by_alias f with Some b => b | None => false end end then match f_alias f with Some a => a | None => n end else n.
Proof. intros NE. unfold out_key, by_alias_or. now rewrite (ne_alias _ _ _ _ NE). Qed.

Lemma good_fields_js d x : mode <> ModelExtra -> neat js ba rt x -> (forall kv, In kv d -> exists n f s, known kv n f s) -> forall j,
  snd (z_js (fields_ser E L mode fields extras comp) (PDict d) None None x) = Good j ->
  exists r y, j = JObj r /\ neat js ba rt y /\ Forall2 (fun kv kj => exists n f s, known kv n f s /\ fst kj = out_key n f y /\ snd (z_js s (snd kv) None None y) = Good (snd kj)) d r.
Proof.
  intros MO NE KN j H. cbn [fields_ser z_js] in H.
  assert (EX : extract_dicts mode (PDict d) = Some (d, None)) by (destruct mode; [reflexivity|now destruct MO|reflexivity]). rewrite EX, (td_plain _ NE) in H.
  ginv H. ginv H. apply good_ret in G0. subst. ginv H. apply (comp_js_none _ _ NE) in G0. subst. apply good_ret in H. subst. rewrite !app_nil_r.
  assert (NE' : neat js ba rt (set_model (model_or (PDict d) x) x)) by now apply neat_model.
  exists a, (set_model (model_or (PDict d) x) x). split; [reflexivity|]. split; [exact NE'|]. exact (good_main_js d _ NE' KN _ G).
Qed.
Lemma good_fields_py d x : mode <> ModelExtra -> neat js ba rt x -> (forall kv, In kv d -> exists n f s, known kv n f s) ->
  (forall y, neat js ba rt y -> exists ms, NoDup ms /\ Forall2 (fun kv m => exists n f, fst kv = PStr n /\ assoc n fields = Some f /\ m = out_key n f y) d ms) -> forall w,
  snd (z_py (fields_ser E L mode fields extras comp) (PDict d) None None x) = Good w ->
  exists r y, w = PDict r /\ neat js ba rt y /\ Forall2 (fun kv kw => exists n f s, known kv n f s /\ fst kw = PStr (out_key n f y) /\ snd (z_py s (snd kv) None None y) = Good (snd kw)) d r.
Proof.
  intros MO NE KN ND w H. cbn [fields_ser z_py] in H.
  assert (EX : extract_dicts mode (PDict d) = Some (d, None)) by (destruct mode; [reflexivity|now destruct MO|reflexivity]). rewrite EX, (td_plain _ NE) in H.
  assert (NE' : neat js ba rt (set_model (model_or (PDict d) x) x)) by now apply neat_model.
  ginv H. ginv H. apply good_ret in G0. subst. ginv H. apply (comp_py_none _ _ _ NE) in G0. subst. apply good_ret in H. subst.
  unfold main_to_python in G. ginv G. cbn [set_model x_check] in G. rewrite (ne_check _ _ _ _ NE) in G. cbn [check_enabled andb] in G. apply good_ret in G. subst.
  destruct (ND _ NE') as (ms & M1 & M2).
  destruct (good_main_py_loop d _ NE' KN [] 0 _ ltac:(exists []; split; [reflexivity|]; exists ms; split; assumption) G0) as (e & Q & F). cbn [app] in Q.
  exists e, (set_model (model_or (PDict d) x) x). rewrite Q. split; [reflexivity|]. split; [exact NE'|exact F].
Qed.
End Fields.
