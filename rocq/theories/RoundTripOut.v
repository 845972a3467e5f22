(** The output of a serializer as the input of a validator, for JSON and Python at once. *)
From Coq Require Import List NArith ZArith Bool Lia.
From Verif Require Import Base Float64 Utf8 Decimal Values BytesCodec Filter LookupKey VState Classes JsonText SerBase Ser SerAgree RoundTripSer.
Import ListNotations.
Open Scope nat_scope.

Definition out (js : bool) (z : sz) (v : pyval) (x : extra) (i : input) : Prop :=
  if js then exists j, i = IJson j /\ snd (z_js z v None None x) = Good j else exists w, i = IPy w /\ snd (z_py z v None None x) = Good w.
Definition key_out (js : bool) (z : sz) (k : pyval) (x : extra) (i : input) : Prop :=
  if js then exists t, i = IKey t /\ snd (z_key z k x) = Good t else exists w, i = IPy w /\ w = k /\ snd (z_py z k None None x) = Good w.
(** An array, a list or tuple or set; an object, a dict. *)
Definition arr (js : bool) (mk : list pyval -> pyval) (is : list input) (i : input) : Prop :=
  if js then exists l, i = IJson (JArr l) /\ is = map IJson l else exists l, i = IPy (mk l) /\ is = map IPy l.
Definition obj (js : bool) (es : list (input * input)) (i : input) : Prop :=
  if js then exists l, i = IJson (JObj l) /\ es = map (fun e => (IKey (fst e), IJson (snd e))) l
  else exists l, i = IPy (PDict l) /\ es = map (fun e => (IPy (fst e), IPy (snd e))) l.
Definition rec_obj (js : bool) (rows : list (str * input)) (i : input) : Prop :=
  if js then exists l, i = IJson (JObj l) /\ rows = map (fun e => (fst e, IJson (snd e))) l
  else exists l, i = IPy (PDict l) /\ exists r, rows = map (fun e => (fst e, IPy (snd e))) r /\ l = map (fun e => (PStr (fst e), snd e)) r.

Lemma F2_map_r A B C (f : B -> C) (Q : A -> C -> Prop) l m : Forall2 (fun a b => Q a (f b)) l m -> Forall2 Q l (map f m).
Proof. induction 1; cbn; constructor; auto. Qed.
Lemma F2_imp A B (P Q : A -> B -> Prop) l m : (forall a b, P a b -> Q a b) -> Forall2 P l m -> Forall2 Q l m.
Proof. intros H. induction 1; constructor; auto. Qed.
Lemma F2_eq A (l m : list A) : Forall2 eq l m -> l = m.
Proof. induction 1; congruence. Qed.

Section Out.
Variable E : env.
Variables (js rt : bool) (ba : option bool).
Notation out := (out js). Notation arr := (arr js). Notation neat := (neat js ba rt).
Variable L : level.

Lemma out_none x i : out (none_ser L) PNone x i -> i = if js then IJson JNull else IPy PNone.
Proof. unfold RoundTripOut.out. destruct js; intros (j & -> & H); apply good_ret in H; now subst. Qed.
Lemma out_bool b x i : out (bool_ser L) (PBool b) x i -> i = if js then IJson (JBool b) else IPy (PBool b).
Proof. unfold RoundTripOut.out. destruct js; intros (j & -> & H); apply good_ret in H; now subst. Qed.
Lemma out_int z x i : out (int_ser E L) (PInt z) x i -> i = if js then IJson (JInt z) else IPy (PInt z).
Proof. unfold RoundTripOut.out. destruct js; intros (j & -> & H); apply good_ret in H; now subst. Qed.
Lemma out_float m f x i : out (float_ser E L m) (PFloat f) x i -> i = if js then IJson (float_js m f) else IPy (PFloat f).
Proof. unfold RoundTripOut.out. destruct js; intros (j & -> & H); apply good_ret in H; now subst. Qed.
Lemma out_str u x i : forallb scalar u = true -> out (str_ser L) (PStr u) x i -> i = if js then IJson (JStr u) else IPy (PStr u).
Proof.
  intros U. unfold RoundTripOut.out. destruct js; intros (j & -> & H); [|apply good_ret in H; now subst]. cbn in H. unfold to_str in H. rewrite U in H. cbn in H. now injection H as <-.
Qed.
Lemma out_bytes m b x i : neat x -> out (bytes_ser L m) (PBytes b) x i -> if js then exists t, i = IJson (JStr t) /\ bytes_to_string m b = Some t else i = IPy (PBytes b).
Proof.
  intros NE. unfold RoundTripOut.out. pose proof (ne_json _ _ _ _ NE) as NJ. destruct js; intros (j & -> & H); cbn [bytes_ser simple z_js z_py down_bytes base] in H.
  - unfold down_bytes in H. cbn [base] in H. ginv H. apply good_opt in G. apply good_ret in H. subst. now exists a.
  - unfold down_bytes in H. cbn [base] in H. rewrite NJ in H. apply good_ret in H. now subst.
Qed.
Lemma out_nullable s v x i : out (nullable_ser s) v x i -> v <> PNone -> out s v x i.
Proof. unfold RoundTripOut.out. destruct js; intros (j & -> & H) N; exists j; (split; [reflexivity|]); destruct v; try exact H; now destruct N. Qed.
Lemma out_null s x i : out (nullable_ser s) PNone x i -> i = if js then IJson JNull else IPy PNone.
Proof. unfold RoundTripOut.out. destruct js; intros (j & -> & H); apply good_ret in H; now subst. Qed.
Lemma out_default d s v x i : out (default_ser d s) v x i -> out s v x i.
Proof. exact (fun H => H). Qed.
Lemma out_list s l x i : out (list_ser L any_filter s) (PList l) x i -> exists is, arr PList is i /\ Forall2 (fun v i => out s v x i) l is.
Proof.
  unfold RoundTripOut.out, RoundTripOut.arr. destruct js; intros (j & -> & H); cbn [list_ser simple z_js z_py] in H; unfold down_list in H; cbn [base] in H; ginv H; apply good_ret in H; subst j; apply good_filtered in G.
  - exists (map IJson a). split; [now exists a|]. apply F2_map_r. revert G. apply F2_imp. intros v j H. now exists j.
  - exists (map IPy a). split; [now exists a|]. apply F2_map_r. revert G. apply F2_imp. intros v j H. now exists j.
Qed.
(** Sets whose items are given back. *)
Lemma out_set down mk s l x i : (forall l, down (mk l) = Some l) -> ForallOrdPairs (fun a b => py_eq a b = false) l ->
  (js = false -> forall v w, In v l -> snd (z_py s v None None x) = Good w -> w = v) -> neat x ->
  out (set_ser L down mk s) (mk l) x i -> exists is, arr mk is i /\ Forall2 (fun v i => out s v x i) l is.
Proof.
  intros DM D K NE. pose proof (ne_json _ _ _ _ NE) as NJ. unfold RoundTripOut.out, RoundTripOut.arr. destruct js; intros (j & -> & H); cbn [set_ser simple z_js z_py] in H; rewrite DM in H; ginv H; apply good_mapM in G.
  - apply good_ret in H. subst j. exists (map IJson a). split; [now exists a|]. apply F2_map_r. revert G. apply F2_imp. intros v j H. now exists j.
  - rewrite NJ in H. ginv H. apply good_ret in H. subst j. specialize (K eq_refl).
    assert (a = l). { clear - G K. induction G as [|v w l a H F IH]; [reflexivity|]. rewrite (K v w (or_introl eq_refl) H), IH; [reflexivity|]. intros; eapply K; eauto. now right. }
    subst a. rewrite (new_set_distinct _ _ D G0). exists (map IPy l). split; [now exists l|]. apply F2_map_r. revert G. apply F2_imp. intros v j H. now exists j.
Qed.

Lemma zip_rel {A T} len (each : sz -> pyval -> option fval -> option fval -> M A) (Q : T -> sz -> Prop) (C : T -> pyval -> Prop) scs zs : Forall2 Q scs zs -> forall l i r, Forall2 C scs l ->
  snd (zip_items any_filter None None len each i zs l) = Good r ->
  exists prs : list (A * pyval), map snd prs = l /\ map fst prs = r /\ Forall2 (fun sc p => exists z, Q sc z /\ C sc (snd p) /\ snd (each z (snd p) None None) = Good (fst p)) scs prs.
Proof.
  induction 1 as [|sc z scs zs QZ F IH]; intros l i r FC H; inversion FC as [|? v ? l' CV FC']; subst; cbn [zip_items] in H.
  - apply good_ret in H. subst. exists []. repeat split. constructor.
  - rewrite any_index_none in H. ginv H. apply good_ret in G. subst a. cbn iota in H. ginv H. ginv H. apply good_ret in H. subst r.
    destruct (IH _ _ _ FC' G0) as (prs & P1 & P2 & P3). exists ((a, v) :: prs). cbn. rewrite P1, P2. split; [reflexivity|]. split; [reflexivity|]. constructor; [exists z; now repeat split|exact P3].
Qed.
Lemma out_tuple {T} zs variadic l x i (Q : T -> sz -> Prop) (C : T -> pyval -> Prop) scs : Forall2 Q scs (tuple_serializers L zs variadic (length l)) -> Forall2 C scs l ->
  (variadic = None -> length zs = length l) -> neat x ->
  out (tuple_ser L any_filter zs variadic) (PTuple l) x i ->
  exists izs : list (input * pyval), map snd izs = l /\ arr PTuple (map fst izs) i /\ Forall2 (fun sc p => exists z, Q sc z /\ C sc (snd p) /\ out z (snd p) x (fst p)) scs izs.
Proof.
  intros FQ FC LN NE. pose proof (ne_json _ _ _ _ NE) as NJ.
  assert (TE : forall A (each : sz -> pyval -> option fval -> option fval -> M A) r, snd (tuple_each L any_filter zs variadic each None None x l) = Good r -> snd (zip_items any_filter None None (zlen l) each 0 (tuple_serializers L zs variadic (length l)) l) = Good r).
  { intros A each r H. unfold tuple_each in H. destruct variadic as [k|]; [exact H|]. cbv zeta in H. rewrite (ne_check _ _ _ _ NE) in H. cbn [is_strict andb] in H. ginv H. rewrite LN in H by reflexivity. rewrite skipn_all in H. apply good_ret in H. now subst. }
  unfold RoundTripOut.out, RoundTripOut.arr. destruct js; intros (j & -> & H); cbn [tuple_ser simple z_js z_py] in H; unfold down_tuple in H; cbn [base] in H; ginv H; apply good_ret in H; subst j; apply TE in G;
    destruct (zip_rel _ _ Q C scs _ FQ _ _ _ FC G) as (prs & P1 & P2 & P3).
  - exists (map (fun p => (IJson (fst p), snd p)) prs). rewrite !map_map. cbn [fst snd]. split; [exact P1|]. split; [exists a; split; [reflexivity|now rewrite <- P2, map_map]|].
    apply F2_map_r. revert P3. apply F2_imp. intros sc p (z & A & B & D). exists z. repeat split; auto. now exists (fst p).
  - rewrite NJ. exists (map (fun p => (IPy (fst p), snd p)) prs). rewrite !map_map. cbn [fst snd]. split; [exact P1|]. split; [exists a; split; [reflexivity|now rewrite <- P2, map_map]|].
    apply F2_map_r. revert P3. apply F2_imp. intros sc p (z & A & B & D). exists z. repeat split; auto. now exists (fst p).
Qed.
Lemma out_dict k s d x i : ForallOrdPairs (fun x y : pyval * pyval => py_eq (fst x) (fst y) = false) d ->
  (js = false -> forall a b w, In (a, b) d -> snd (z_py k a None None x) = Good w -> w = a) -> neat x ->
  out (dict_ser L any_filter k s) (PDict d) x i ->
  exists es, obj js es i /\ Forall2 (fun kv e => key_out js k (fst kv) x (fst e) /\ out s (snd kv) x (snd e)) d es.
Proof.
  intros D K NE. pose proof (ne_json _ _ _ _ NE) as NJ. unfold RoundTripOut.out, obj, key_out. destruct js; intros (j & -> & H); cbn [dict_ser simple z_js z_py] in H; unfold down_dict in H; cbn [base] in H; ginv H; apply good_ret in H; subst j.
  - apply good_pairs_js in G. exists (map (fun e => (IKey (fst e), IJson (snd e))) a). split; [now exists a|]. apply F2_map_r. revert G. apply F2_imp. intros kv e [A B]. cbn [fst snd]. split; [now exists (fst e)|now exists (snd e)].
  - rewrite NJ in G. apply good_pairs_py in G; [|intros a0 b w J W; exact (K eq_refl _ _ _ J W)|exact D]. destruct G as (e & -> & F). cbn [app].
    exists (map (fun e => (IPy (fst e), IPy (snd e))) e). split; [now exists e|]. apply F2_map_r. revert F. apply F2_imp. intros kv w (A & B & C). cbn [fst snd]. split; [exists (fst w); now repeat split|now exists (snd w)].
Qed.

Lemma out_fields mode fields extras comp d x i : (comp = [] \/ rt = true) -> mode <> ModelExtra -> neat x -> (forall kv, In kv d -> exists n f s, known fields kv n f s) ->
  (js = false -> forall y, neat y -> exists ms, NoDup ms /\ Forall2 (fun kv m => exists n f, fst kv = PStr n /\ assoc n fields = Some f /\ m = out_key n f y) d ms) ->
  out (fields_ser E L mode fields extras comp) (PDict d) x i ->
  exists rows y, rec_obj js rows i /\ neat y /\ Forall2 (fun kv row => exists n f s, known fields kv n f s /\ fst row = out_key n f y /\ out s (snd kv) y (snd row)) d rows.
Proof.
  intros NC MO NE KN ND. unfold RoundTripOut.out, rec_obj. destruct js eqn:J; intros (j & -> & H).
  - destruct (good_fields_js E L true rt ba mode fields extras comp NC d x MO NE KN _ H) as (r & y & -> & NY & F). exists (map (fun e => (fst e, IJson (snd e))) r), y. split; [now exists r|]. split; [exact NY|].
    apply F2_map_r. revert F. apply F2_imp. intros kv kj (n & f & s & A & B & C). exists n, f, s. repeat split; try apply A; auto. now exists (snd kj).
  - destruct (good_fields_py E L false rt ba mode fields extras comp NC d x MO NE KN (ND eq_refl) _ H) as (r & y & -> & NY & F).
    exists (map (fun e => (match fst e with PStr k => k | _ => [] end, IPy (snd e))) r), y. split; [|split; [exact NY|]].
    + exists r. split; [reflexivity|]. exists (map (fun e => (match fst e with PStr k => k | _ => [] end, snd e)) r). rewrite !map_map. split; [reflexivity|]. cbn [fst snd].
      clear - F. induction F as [|kv kw d r (n & f & s & _ & B & _) F IH]; [reflexivity|]. cbn [map]. rewrite <- IH. rewrite B. destruct kw as [a b]. cbn [fst] in *. now subst a.
    + apply F2_map_r. revert F. apply F2_imp. intros kv kw (n & f & s & A & B & C). exists n, f, s. rewrite B. repeat split; try apply A; auto. now exists (snd kw).
Qed.

Lemma out_model cls s c d e fs x i : neat x -> out (model_ser E L cls s false false) (Classes.model_inst c (PDict d) e fs) x i ->
  exists y, neat y /\ out s (PDict d) y i.
Proof.
  intros NE. pose proof (neat_duck _ _ _ _ (neat_model _ _ _ (Some (Classes.model_inst c (PDict d) e fs)) _ NE)) as NY.
  unfold RoundTripOut.out. destruct js; intros (j & -> & H); cbn [model_ser simple z_js z_py] in H; cbv zeta in H;
    (match type of NY with RoundTripSer.neat _ _ _ ?y0 => set (y := y0) in * end); (replace (set_duck _ _) with y in H by reflexivity);
    rewrite (ne_duck _ _ _ _ NY) in H; cbn [is_inferred] in H; unfold class_allows in H; rewrite (ne_check _ _ _ _ NY) in H;
    (replace (has_dict _) with true in H by reflexivity); ginv H; unfold inner_value in G; ginv G; apply good_opt in G0; injection G0 as <-; ginv G; apply good_opt in G0; injection G0 as <-;
    rewrite (ne_unset _ _ _ _ NY) in G; ginv G; apply good_ret in G0; subst; apply good_ret in G; subst; exists y; (split; [exact NY|]); now exists j.
Qed.
Lemma out_root cls s c v fs x i : neat x -> out (model_ser E L cls s false true) (Classes.root_inst c v fs) x i ->
  exists y, neat y /\ out s v y i.
Proof.
  intros NE. pose proof (neat_duck _ _ _ _ (neat_model _ _ _ (Some (Classes.root_inst c v fs)) _ NE)) as NY.
  unfold RoundTripOut.out. destruct js; intros (j & -> & H); cbn [model_ser simple z_js z_py] in H; cbv zeta in H;
    (match type of NY with RoundTripSer.neat _ _ _ ?y0 => set (y := y0) in * end); (replace (set_duck _ _) with y in H by reflexivity);
    rewrite (ne_duck _ _ _ _ NY) in H; cbn [is_inferred] in H; (replace (get_attr E _ _) with (Some v) in H by reflexivity).
  - ginv H. apply good_opt in G. injection G as <-. exists y. split; [exact NY|]. now exists j.
  - exists y. split; [exact NY|]. now exists j.
Qed.
End Out.

Lemma keyed_def_py E P n : l_def_py (keyed E P n) = l_def_py P. Proof. destruct n; reflexivity. Qed.
Lemma keyed_def_js E P n : l_def_js (keyed E P n) = l_def_js P. Proof. destruct n; reflexivity. Qed.
Lemma out_def E js rt ba n k r v x i : neat js ba rt x -> out js (build E (levels E n) (SerDef k r)) v x i ->
  exists m s y, n = S m /\ e_def E k = Some s /\ neat js ba rt y /\ out js (build E (levels E m) s) v y i.
Proof.
  intros NE. unfold out. cbn [build def_ser simple z_js z_py].
  destruct n as [|m]; cbn [levels].
  - unfold no_level. rewrite keyed_def_py, keyed_def_js. cbn [l_def_py l_def_js]. destruct js; intros (j & _ & H); discriminate.
  - unfold next_level. rewrite keyed_def_py, keyed_def_js. cbn [l_def_py l_def_js].
    destruct js; intros (j & -> & H); (destruct (e_def E k) as [s|]; [|discriminate]); (destruct (enter v (Some k) x) as [y|] eqn:EN; [|discriminate]);
      exists m, s, y; (split; [reflexivity|]); (split; [reflexivity|]); (split; [eapply neat_enter; eassumption|]); now exists j.
Qed.
