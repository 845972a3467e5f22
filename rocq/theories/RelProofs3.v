From Coq Require Import List NArith ZArith Bool Lia Floats.SpecFloat.
From Verif Require Import Base Float64 Float64Proofs IntParse Numbers NumbersProofs BytesCodec Values VState LookupKey LookupKeyProofs Collections Child Inputs Scalars Literal LiteralProofs Wrappers Union TaggedUnion Tuple ModelFields TypedDict Assign Arguments Classes Interp InterpSpec InterpProofs RelSpec RelProofs RelProofs2.
Import ListNotations.

(** ** Integers as doubles *)
Open Scope Z_scope.
Lemma shr_1_le r : 0 <= shr_m r -> 0 <= shr_m (shr_1 r) <= shr_m r.
Proof. destruct r as [m r s]. cbn [shr_m]. intros H. destruct m as [|p|p]; cbn; try lia. destruct p; cbn; lia. Qed.
Lemma iter_le p r : 0 <= shr_m r -> 0 <= shr_m (iter_pos shr_1 p r) <= shr_m r.
Proof.
  revert r. induction p as [p IH|p IH|]; intros r H; cbn [iter_pos].
  - pose proof (shr_1_le r H) as A. pose proof (IH _ (proj1 A)) as B. pose proof (IH _ (proj1 B)) as C. lia.
  - pose proof (IH _ H) as B. pose proof (IH _ (proj1 B)) as C. lia.
  - now apply shr_1_le.
Qed.
Lemma digits_small m k : 0 <= m < 2 ^ k -> 0 <= k -> Zdigits2 m <= k.
Proof.
  intros [A B] K. destruct m as [|p|p]; cbn [Zdigits2]; try lia. pose proof (digits2_pos_bounds p) as [C _].
  apply Z.nlt_ge. intros L. assert (2 ^ k <= 2 ^ (Z.pos (digits2_pos p) - 1)) by (apply Z.pow_le_mono_r; lia). lia.
Qed.
Lemma shr_fexp_small m e k : 0 <= m < 2 ^ k -> 0 <= k -> -1100 <= e ->
  let r := shr_fexp prec64 emax64 m e loc_Exact in 0 <= shr_m (fst r) <= m /\ e <= snd r <= Z.max e (Z.max (k + e - 53) (-1074)).
Proof.
  intros M K E. cbv zeta. unfold shr_fexp, shr_record_of_loc, fexp, shr. pose proof (digits_small m k M K) as D.
  change (emin prec64 emax64) with (-1074). change prec64 with 53.
  destruct (Z.max (Zdigits2 m + e - 53) (-1074) - e) eqn:Q; cbn [fst snd shr_m]; try lia.
  split; [|lia]. pose proof (iter_le p {| shr_m := m; shr_r := false; shr_s := false |}) as L. cbn [shr_m] in L. lia.
Qed.
Lemma f_of_Z_fits z : fits_i64 z = true -> f_is_infinite (f_of_Z z) = false.
Proof.
  intros F. apply fits_iff in F. unfold f_of_Z, binary_normalize.
  assert (G : forall s p, Z.pos p <= 2 ^ 63 -> f_is_infinite (binary_round prec64 emax64 s p 0) = false).
  { clear z F. intros s p P. unfold binary_round. pose proof (digits2_pos_bounds p) as [D1 D2]. set (d := digits2_pos p) in *.
    assert (D : Z.pos d <= 64). { apply Z.nlt_ge. intros L. assert (2 ^ 64 <= 2 ^ (Z.pos d - 1)) by (apply Z.pow_le_mono_r; lia). lia. }
    assert (X : exists mz ez, shl_align p 0 (fexp prec64 emax64 (Z.pos d + 0)) = (mz, ez) /\ Z.pos mz < 2 ^ 64 /\ -53 <= ez <= 0).
    { unfold shl_align, fexp. change (emin prec64 emax64) with (-1074). change prec64 with 53. rewrite Z.add_0_r, Z.sub_0_r.
      destruct (Z.max (Z.pos d - 53) (-1074)) eqn:Q; eexists; eexists; (split; [reflexivity|]); try (split; lia).
      split; [|lia]. rewrite shift_pos_correct, Zpower_pos_nat. 
      replace (Zpower_nat 2 (Pos.to_nat p0)) with (2 ^ (Z.pos p0)) by (rewrite Zpower_nat_Z, positive_nat_Z; reflexivity).
      apply Z.lt_le_trans with (2 ^ Z.pos p0 * 2 ^ Z.pos d); [apply Z.mul_lt_mono_pos_l; lia|]. rewrite <- Z.pow_add_r by lia. apply Z.pow_le_mono_r; lia. }
    destruct X as (mz & ez & -> & M & E). unfold binary_round_aux.
    pose proof (shr_fexp_small (Z.pos mz) ez 64 ltac:(lia) ltac:(lia) ltac:(lia)) as S1. cbv zeta in S1.
    destruct (shr_fexp prec64 emax64 (Z.pos mz) ez loc_Exact) as [r e']. cbn [fst snd] in S1.
    set (m2 := round_nearest_even (shr_m r) (loc_of_shr_record r)).
    assert (M2 : 0 <= m2 < 2 ^ 65). { unfold m2, round_nearest_even. destruct (loc_of_shr_record r) as [|[]]; try (destruct (Z.even _)); lia. }
    pose proof (shr_fexp_small m2 e' 65 M2 ltac:(lia) ltac:(lia)) as S2. cbv zeta in S2.
    destruct (shr_fexp prec64 emax64 m2 e' loc_Exact) as [r2 e2]. cbn [fst snd] in S2.
    destruct (shr_m r2); try reflexivity. change (emax64 - prec64) with 971. destruct (Z.leb_spec e2 971); [reflexivity|lia]. }
  destruct z as [|p|p]; [reflexivity|apply G; lia|apply G; lia].
Qed.
Open Scope nat_scope.

(** ** Inputs *)
Lemma dict_set_new d k v : ~ In (PStr k) (map fst d) -> str_keys d -> dict_set (PStr k) v d = d ++ [(PStr k, v)].
Proof.
  induction d as [|[k0 v0] d IH]; intros N K; [reflexivity|]. cbn [dict_set app]. destruct (K k0 v0 (or_introl eq_refl)) as [t ->]. rewrite py_eq_str.
  destruct (str_eqb t k) eqn:E; [apply str_eqb_eq in E; subst; exfalso; apply N; now left|]. f_equal. apply IH; [intros I; apply N; now right|intros ? ? I; eapply K; right; eassumption].
Qed.
Definition entry_py (kv : str * json) : pyval * pyval := (PStr (fst kv), json_to_py (snd kv)).
Lemma fill_nodup l : NoDup (map fst l) -> fill l [] = map entry_py l.
Proof.
  intros N. unfold fill. assert (G : forall l d, NoDup (map fst l) -> (forall k, In k (map fst l) -> ~ In (PStr k) (map fst d)) -> str_keys d ->
    fold_left (fun d kv => dict_set (PStr (fst kv)) (json_to_py (snd kv)) d) l d = d ++ map entry_py l).
  { clear. induction l as [|[k j] l IH]; intros d N D K; cbn [fold_left map]; [now rewrite app_nil_r|]. cbn [fst snd].
    inversion N as [|? ? N1 N2]. subst. rewrite dict_set_new; [|apply D; now left|exact K]. rewrite IH; [now rewrite <- app_assoc|exact N2| |].
    - intros k' I. rewrite map_app, in_app_iff. intros [X|[X|[]]]; [exact (D k' (or_intror I) X)|]. injection X as ->. contradiction.
    - intros a b I. apply in_app_iff in I. destruct I as [I|[[= <- _]|[]]]; [exact (K _ _ I)|eauto]. }
  apply (G l []); [exact N|intros ? _ []|intros ? ? []].
Qed.
Lemma json_dict l : NoDup (map fst l) -> json_to_py (JObj l) = PDict (map entry_py l).
Proof. intros N. change (json_to_py (JObj l)) with (PDict (fill l [])). now rewrite fill_nodup. Qed.

Section Refl.
Context {mrg : Merge}.
Lemma Ritem_refl m l : Forall2 (Ritem m) l l.
Proof. induction l as [|[x|] l IH]; constructor; auto; constructor. apply Rin_eq. Qed.
Lemma Rentry_refl m l : Forall2 (Rentry m) l l.
Proof. induction l as [|[x|] l IH]; constructor; auto; constructor; apply Rin_eq. Qed.
Lemma Rseq_refl m q : Rseq m q q.
Proof. split; auto. apply Ritem_refl. Qed.
Lemma Rmd_refl m d : Rmd m d d.
Proof.
  split; auto.
  - intros k. destruct (md_get d k) as [[[p i]|]|]; [apply ROk, RSome; split; [reflexivity|apply Rin_eq]|apply ROk, RNone|apply RErr, Rerr_refl].
  - destruct (md_iter d); constructor; [apply Rentry_refl|apply Rerr_refl].
Qed.
Lemma Rr_refl' A (R : A -> A -> Prop) r : (forall a, R a a) -> Rr R r r.
Proof. intros H. destruct r; constructor; auto. apply Rerr_refl. Qed.
Lemma Rai_refl m a : Rai m a a.
Proof.
  split; [destruct (ai_args a) as [l|]; constructor; induction l; constructor; auto; apply Rin_eq|].
  destruct (ai_kwargs a) as [[md n]|]; constructor; split; [apply Rmd_refl|reflexivity].
Qed.

End Refl.

Section Docs.
Context {mrg : Merge}.
Variable m : rmode.
Hypothesis D : of_json m.
Lemma key_mode_docs : key_mode m = Keys. Proof. destruct D as [-> | ->]; reflexivity. Qed.
Lemma json_seq_rel e1 e2 l : Forall plain_json l -> Rseq m (json_seq e1 l) (py_seq e2 true (map json_to_py l)) /\ Rseq m (json_seq e1 l) (py_seq e2 false (map json_to_py l)).
Proof.
  intros F. assert (I : Forall2 (Ritem m) (map (fun v => It (IJson v)) l) (map (fun v => It (IPy v)) (map json_to_py l))).
  { induction F; cbn; constructor; auto. constructor. now constructor. }
  assert (J : Forall is_it (map (fun v => It (IJson v)) l)) by (clear; induction l; cbn; constructor; auto; exact I).
  split; (split; cbn [sq_items sq_len sq_py_list json_seq py_seq]; [exact I|now rewrite map_length|right; split; [exact D|split; [exact J|now rewrite map_length]]]).
Qed.
Lemma last_error_map A B (f : A -> B) l : last_error (map f l) = option_map f (last_error l).
Proof. unfold last_error. rewrite <- map_rev. now destruct (rev l). Qed.
Lemma assoc_in {B} k (l : list (str * B)) v : assoc k l = Some v -> exists k', In (k', v) l.
Proof. induction l as [|[k' v'] l IH]; cbn; [discriminate|]. destruct (str_eqb k k'); [intros [= ->]; eauto|]. intros H. destruct (IH H) as [k0 I]. eauto. Qed.
Lemma json_last_plain s l j : Forall (fun kv => plain_json (snd kv)) l -> json_last s l = Some j -> plain_json j.
Proof. intros F H. apply assoc_in in H. destruct H as [k H]. apply in_rev in H. rewrite Forall_forall in F. exact (F _ H). Qed.
Lemma get_item_plain j i j' : plain_json j -> json_get_item j i = Some j' -> plain_json j'.
Proof.
  intros P. destruct P as [| | | | |l F|l N F]; try (destruct i; discriminate).
  - destruct i as [k|n|n]; cbn; unfold nth_pos, nth_neg; [discriminate| |]; intros H; [|destruct (Nat.leb _ _); [|discriminate]]; apply nth_error_In in H; rewrite Forall_forall in F; exact (F _ H).
  - destruct i; cbn; try discriminate. now apply json_last_plain.
Qed.
Lemma try_fold_plain rest : forall j j', plain_json j -> try_fold json_get_item j rest = Some j' -> plain_json j'.
Proof.
  induction rest as [|i rest IH]; intros j j' P; cbn [try_fold]; [now intros [= <-]|]. destruct (json_get_item j i) as [x|] eqn:E; [|discriminate].
  apply IH. exact (get_item_plain _ _ _ P E).
Qed.
Lemma first_path_plain l ps p j : Forall (fun kv => plain_json (snd kv)) l -> first_path (fun s => json_last s l) json_get_item ps = Some (p, j) -> plain_json j.
Proof.
  intros F. induction ps as [|q ps IH]; cbn [first_path]; [discriminate|].
  destruct (json_last (lp_first q) l) as [x|] eqn:E; [|exact IH]. destruct (try_fold json_get_item x (lp_rest q)) as [y|] eqn:T; [|exact IH].
  intros [= _ <-]. exact (try_fold_plain _ _ _ (json_last_plain _ _ _ F E) T).
Qed.
Lemma json_get_plain k l p j : Forall (fun kv => plain_json (snd kv)) l -> json_get k l = Some (p, j) -> plain_json j.
Proof.
  intros F. destruct k as [q|q r|ps]; cbn [json_get].
  - destruct (json_last _ l) eqn:E; [|discriminate]. intros [= _ <-]. exact (json_last_plain _ _ _ F E).
  - destruct (json_last (lp_first q) l) eqn:E; [intros [= _ <-]; exact (json_last_plain _ _ _ F E)|].
    destruct (json_last (lp_first r) l) eqn:G; [|discriminate]. intros [= _ <-]. exact (json_last_plain _ _ _ F G).
  - now apply first_path_plain.
Qed.
Lemma json_get_py k l : py_get_dict_item k (fill l []) = option_map (fun pj => (fst pj, json_to_py (snd pj))) (json_get k l).
Proof.
  destruct k as [q|q r|ps]; cbn [json_get py_get_dict_item].
  - rewrite json_last_py. now destruct (json_last _ l).
  - rewrite !json_last_py. destruct (json_last (lp_first q) l); [reflexivity|]. now destruct (json_last _ l).
  - apply first_path_json.
Qed.
Lemma json_md_rel repr l : NoDup (map fst l) -> Forall (fun kv => plain_json (snd kv)) l -> Rmd m (json_mdict l) (py_mdict repr (map entry_py l)).
Proof.
  intros N F. split; cbn [md_get md_iter md_is_attr md_last_key json_mdict py_mdict]; auto.
  - intros k. rewrite <- (fill_nodup _ N), json_get_py. destruct (json_get k l) as [[p j]|] eqn:E; cbn [option_map fst snd]; constructor; constructor.
    split; [reflexivity|]. cbn. constructor; [exact D|]. exact (json_get_plain _ _ _ _ F E).
  - constructor. clear N. rewrite map_map. induction F as [|[k j] l P F IH]; cbn [map]; constructor; [|exact IH].
    apply REntry; [now rewrite key_mode_docs; constructor|now constructor].
  - rewrite last_error_map. destruct (last_error l) as [[k j]|]; reflexivity.
Qed.
End Docs.

(** Strings in strings mode and in Python mode. *)
Lemma dict_get_in k d v : dict_get k d = Some v -> exists k', In (k', v) d.
Proof. induction d as [|[k' v'] d IH]; cbn; [discriminate|]. destruct (py_eq _ _); [intros [= ->]; eauto|]. intros H. destruct (IH H) as [k0 I]. eauto. Qed.



Lemma strings_get_item v i v' : plain_strings v -> py_get_item v i = Some v' -> plain_strings v'.
Proof.
  intros P. destruct P as [t|d F]; destruct i; cbn; try discriminate; intros H; apply dict_get_in in H; destruct H as [k' H]; rewrite Forall_forall in F; exact (proj2 (F _ H)).
Qed.
Lemma strings_try_fold rest : forall v v', plain_strings v -> try_fold py_get_item v rest = Some v' -> plain_strings v'.
Proof.
  induction rest as [|i rest IH]; intros v v' P; cbn [try_fold]; [now intros [= <-]|]. destruct (py_get_item v i) as [x|] eqn:E; [|discriminate].
  apply IH. exact (strings_get_item _ _ _ P E).
Qed.
Definition all_strings (d : list (pyval * pyval)) : Prop := Forall (fun kv => (exists t, fst kv = PStr t) /\ plain_strings (snd kv)) d.
Lemma strings_dict_get k d v : all_strings d -> dict_get k d = Some v -> plain_strings v.
Proof. intros F H. apply dict_get_in in H. destruct H as [k' H]. unfold all_strings in F. rewrite Forall_forall in F. exact (proj2 (F _ H)). Qed.
Lemma strings_get k d p v : all_strings d -> py_get_dict_item k d = Some (p, v) -> plain_strings v.
Proof.
  intros F. destruct k as [q|q r|ps]; cbn [py_get_dict_item].
  - destruct (dict_get _ d) eqn:E; [|discriminate]. intros [= _ <-]. exact (strings_dict_get _ _ _ F E).
  - destruct (dict_get (PStr (lp_first q)) d) eqn:E; [intros [= _ <-]; exact (strings_dict_get _ _ _ F E)|].
    destruct (dict_get (PStr (lp_first r)) d) eqn:G; [|discriminate]. intros [= _ <-]. exact (strings_dict_get _ _ _ F G).
  - induction ps as [|q ps IH]; cbn [first_path]; [discriminate|].
    destruct (dict_get (PStr (lp_first q)) d) as [x|] eqn:E; [|exact IH]. destruct (try_fold py_get_item x (lp_rest q)) as [y|] eqn:T; [|exact IH].
    intros [= _ <-]. exact (strings_try_fold _ _ _ (strings_dict_get _ _ _ F E) T).
Qed.
Section Strings.
Context {mrg : Merge}.
Lemma new_value_plain v : plain_strings v -> new_value v = VOk (IStrings v).
Proof. intros []; reflexivity. Qed.
Lemma strings_md_rel m repr d : m = Strs -> all_strings d -> Rmd m (strings_mdict repr d) (py_mdict repr d).
Proof.
  intros -> F. split; cbn [md_get md_iter md_is_attr md_last_key strings_mdict py_mdict]; auto.
  - intros k. destruct (py_get_dict_item k d) as [[p v]|] eqn:E; cbn [option_map fst snd].
    + pose proof (strings_get _ _ _ _ F E) as P. rewrite (new_value_plain _ P). constructor. constructor. split; [reflexivity|]. now apply Rin_strings.
    + constructor. constructor.
  - constructor. induction F as [|[k v] d [[t K] P] F IH]; cbn [map fst snd]; constructor; [|exact IH]. cbn [fst snd] in K, P. subst k.
    cbn [new_key as_str]. rewrite (new_value_plain _ P). apply REntry; [apply Rin_strings; [reflexivity|constructor]|now apply Rin_strings].
  - assert (L : forall kv, last_error d = Some kv -> exists t, fst kv = PStr t).
    { unfold last_error. intros kv H. unfold all_strings in F. rewrite Forall_forall in F. apply F. apply in_rev. destruct (rev d); [discriminate|]. injection H as ->. now left. }
    destruct (last_error d) as [[k v]|]; cbn [option_map fst]; [|reflexivity]. destruct (L _ eq_refl) as [t T]. cbn in T. subst k. reflexivity.
Qed.

End Strings.

Lemma Rr_ok {mrg : Merge} A (R : A -> A -> Prop) r1 r2 : (forall a, R a a) -> r1 = r2 -> Rr R r1 r2.
Proof. intros H ->. now apply Rr_refl'. Qed.
(** The cases of two related inputs: equal, a JSON document, a key, strings. *)
Ltac docs H :=
  let I := fresh "I" in pose proof H as I;
  destruct H as [|? j J P|? k K|? v K P];
  [|match goal with J : of_json ?m, P : plain_json _ |- _ => assert (N : m <> Same) by (destruct J; congruence); destruct P as [|x|z Hz|f|t|l F|l U F] end
   |match goal with K : ?m = Keys |- _ => assert (N : m <> Same) by (rewrite K; discriminate) end
   |match goal with K : ?m = Strs, P : plain_strings _ |- _ => assert (N : m <> Same) by (rewrite K; discriminate); destruct P as [t|d F] end].
Lemma Rin_cases m i1 i2 : Rin m i1 i2 -> i1 = i2 \/ m <> Same.
Proof. intros [| ? ? [-> | ->]|? ? ->|? ? ->]; auto; right; discriminate. Qed.
Section Inputs.
Context {mrg : Merge}.
Variable b : bool.
Variable m : rmode.
Hypothesis HB : m <> Same -> b = false.
Ltac off S := match goal with N : m <> Same |- _ => rewrite (S (HB N)) | _ => idtac end.
Ltac done := first [eapply Rr_val_err; eassumption | idtac].

Lemma validate_list_rel : Rread b m (Rseq m) validate_list.
Proof.
  intros st i1 i2 S I. docs I; [apply Rr_refl', Rseq_refl|..].
  all: off S; cbn [json_to_py validate_list strip lax_sequence sequence_iterable]; done.
  constructor. now apply json_seq_rel.
Qed.
Lemma validate_tuple_rel : Rread b m (Rseq m) validate_tuple.
Proof.
  intros st i1 i2 S I. docs I; [apply Rr_refl', Rseq_refl|..].
  all: off S; cbn [json_to_py validate_tuple strip lax_sequence sequence_iterable]; done.
  constructor. now apply json_seq_rel.
Qed.
Lemma validate_set_rel : Rread b m (Rseq m) validate_set.
Proof.
  intros st i1 i2 S I. docs I; [apply Rr_refl', Rseq_refl|..].
  all: off S; cbn [json_to_py validate_set strip lax_sequence sequence_iterable]; done.
  constructor. now apply json_seq_rel.
Qed.
Lemma validate_frozenset_rel : m <> Keys -> Rread b m (Rseq m) validate_frozenset.
Proof.
  intros NK st i1 i2 S I. docs I; [apply Rr_refl', Rseq_refl|..].
  all: off S; cbn [json_to_py validate_frozenset strip lax_sequence sequence_iterable]; try (now destruct (NK K)); done.
  constructor. now apply json_seq_rel.
Qed.
Lemma validate_dict_rel repr : Rread b m (Rmd m) (validate_dict repr).
Proof.
  intros st i1 i2 S I. docs I; [apply Rr_refl', Rmd_refl|..].
  all: off S; rewrite ?(json_dict _ U); cbn [json_to_py validate_dict strip dict_items as_str]; done.
  - constructor. now apply json_md_rel.
  - constructor. now apply strings_md_rel.
Qed.
Lemma dict_entries_rel repr : Rread b m (Forall2 (Rentry m)) (dict_entries repr).
Proof.
  intros st i1 i2 S I. unfold dict_entries. destruct (validate_dict_rel repr st i1 i2 S I) as [d1 d2 M|]; [apply M|now constructor].
Qed.
Lemma validate_mf_rel repr ga : Rread2 b m (Rmd m) (validate_model_fields repr ga).
Proof.
  intros st fa i1 i2 S I. destruct (Rin_cases _ _ _ I) as [<-|N]; [apply Rr_refl', Rmd_refl|].
  destruct (S (HB N)) as [-> FA]. pose proof (validate_dict_rel repr false i1 i2 (fun _ => eq_refl) I) as V.
  destruct fa; [|unfold validate_model_fields; destruct i1, i2; exact V]. destruct (merge : bool) eqn:ME; [|now discriminate FA].
  assert (Q : forall i1 i2, Rin m i1 i2 -> Rr (Rmd m) (val_err EDictType i1) (val_err EModelAttributesType i2)).
  { intros j1 j2 J. constructor. constructor. unfold Rlines, seen, merged. cbn. rewrite ME. unfold freeze_error. cbn. now rewrite (Rin_obj _ _ _ J). }
  clear N. docs I; [apply Rr_refl', Rmd_refl|..].
  all: rewrite ?(json_dict _ U) in *; cbn [json_to_py validate_model_fields validate_dict dict_items from_attributes_applicable as_str] in *; try (now apply Q); exact V.
Qed.
Lemma validate_args_rel repr i1 i2 : m <> Strs -> Rin m i1 i2 -> Rr (Rai m) (validate_args repr i1) (validate_args repr i2).
Proof.
  intros NS I. docs I; [apply Rr_refl', Rai_refl|..]; try (now destruct (NS K)).
  all: rewrite ?(json_dict _ U); cbn [json_to_py validate_args strip dict_items as_args_kwargs]; done.
  - constructor. split; cbn; constructor. clear I0. induction F; cbn; constructor; auto. now constructor.
  - constructor. split; cbn; constructor. cbn. rewrite map_length. split; [now apply json_md_rel|reflexivity].
Qed.
Lemma validate_dargs_rel repr i1 i2 : m <> Strs -> Rin m i1 i2 -> Rr (Rai m) (validate_dataclass_args repr i1) (validate_dataclass_args repr i2).
Proof.
  intros NS I. docs I; [apply Rr_refl', Rai_refl|..]; try (now destruct (NS K)).
  all: rewrite ?(json_dict _ U); cbn [json_to_py validate_dataclass_args strip dict_items as_args_kwargs]; done.
  constructor. split; cbn; constructor. cbn. rewrite map_length. split; [now apply json_md_rel|reflexivity].
Qed.

(** ** Scalars *)
Lemma accept_rel T (R : T -> T -> Prop) m1 m2 s1 s2 k1 k2 : Rr (fun a1 a2 => R (fst a1) (fst a2)) m1 m2 -> Rst b s1 s2 ->
  (forall a1 a2 s1 s2, R a1 a2 -> Rst b s1 s2 -> RP b eq (k1 a1 s1) (k2 a2 s2)) -> RP b eq (accept m1 s1 k1) (accept m2 s2 k2).
Proof. intros M S K. unfold accept. destruct M as [[a1 e1] [a2 e2] A|]; [|rp]. apply K; [exact A|rst]. Qed.
Lemma Rmatch_refl T (R : T -> T -> Prop) (r : vres (T * exactness)) : (forall a, R a a) -> Rr (fun a1 a2 => R (fst a1) (fst a2)) r r.
Proof. intros H. apply Rr_refl'. auto. Qed.
Ltac scal I := repeat first
  [ solve [apply Rmatch_refl; reflexivity] | solve [eapply Rr_val_err; exact I] | solve [constructor; reflexivity] | solve [constructor; apply Rerr_refl]
  | match goal with |- Rr _ ?x ?y => match x with context [match ?z with _ => _ end] => lazymatch z with context [match _ with _ => _ end] => fail | _ => destruct z end end end ].
Lemma strict_off d s1 s2 : Rst b s1 s2 -> m <> Same -> strict_or s2 d = false.
Proof. intros S N. pose proof (HB N) as B. rewrite B in S. exact (strict_false _ _ _ S). Qed.

Lemma fits_bound z : fits_i64 z = true -> ((- 2 ^ 63 <=? z) && (z <? 2 ^ 63))%Z = true.
Proof. exact (fun H => H). Qed.
Lemma bool_rel st : rv b m (bool_validate st) (bool_validate st).
Proof.
  intros i1 i2 s1 s2 I S. unfold bool_validate. apply (accept_rel _ eq); [|exact S|intros ? ? ? ? -> ?; rp]. rewrite (strict_rel _ _ _ _ S).
  pose proof (strict_off st _ _ S) as O.
  docs I; [apply Rmatch_refl; reflexivity|..]; rewrite (O N); cbn [json_to_py validate_bool strip as_str maybe_as_string extract_i64 extract_f64 orb]; unfold lax, strictly, in_str_as_bool, in_int_as_bool.
  all: try (rewrite Hz, (fits_bound _ Hz); cbn [negb]).
  all: scal I0.
Qed.
Definition same_int (a b : either_int) : Prop := int_value a = int_value b /\ as_int a = as_int b.
Lemma int_rel md st c : rv b m (int_validate md st c) (int_validate md st c).
Proof.
  intros i1 i2 s1 s2 I S. unfold int_validate. apply (accept_rel _ same_int); [|exact S|].
  - rewrite (strict_rel _ _ _ _ S). pose proof (strict_off st _ _ S) as O.
    docs I; [apply Rmatch_refl; split; reflexivity|..]; rewrite (O N); cbn [json_to_py validate_int strip as_str maybe_as_string extract_f64]; unfold lax, strictly, in_str_as_int, in_float_as_int.
    all: try (unfold number_int; rewrite Hz; constructor; split; [reflexivity|cbn; unfold extract_int; now rewrite Hz]).
    all: try (destruct x; constructor; split; reflexivity).
    all: repeat first [ solve [eapply Rr_val_err; exact I0] | solve [constructor; split; reflexivity] | solve [constructor; apply Rerr_refl]
                      | match goal with |- Rr _ ?x ?y => match x with context [match ?z with _ => _ end] => lazymatch z with context [match _ with _ => _ end] => fail | _ => destruct z end end end ].
  - intros n1 n2 t1 t2 [V A] T. destruct c as [c|]; [|rewrite V; rp]. unfold validate_constrained_int. cbv zeta. rewrite A.
    destruct (ic_multiple_of c) as [k|]; [destruct (int_rem (as_int n2) k) as [r|]; [destruct (is_eq _)|]|].
    all: try destruct (check_int_bounds c (as_int n2)); rewrite ?V; rp.
Qed.
Lemma float_rel pf st c : rv b m (float_validate pf st c) (float_validate pf st c).
Proof.
  intros i1 i2 s1 s2 I S. unfold float_validate. apply (accept_rel _ eq); [|exact S|intros f1 f2 ? ? -> ?; destruct (validate_constrained_float c f2); rp].
  rewrite (strict_rel _ _ _ _ S). pose proof (strict_off st _ _ S) as O.
  docs I; [apply Rmatch_refl; reflexivity|..]; rewrite (O N); cbn [json_to_py validate_float strip as_str maybe_as_string extract_f64 is_bool]; unfold lax, strictly, in_str_as_float.
  all: try (rewrite (f_of_Z_fits _ Hz)).
  all: cbv zeta; scal I0.
Qed.
Lemma str_rel py f2s lo up c : b = true \/ m = Strs \/ sc_coerce_numbers c = false -> rv b m (str_validate py f2s lo up c) (str_validate py f2s lo up c).
Proof.
  intros C i1 i2 s1 s2 I S. unfold str_validate. apply (accept_rel _ eq); [|exact S|].
  - rewrite (strict_rel _ _ _ _ S). pose proof (strict_off (sc_strict c) _ _ S) as O.
    docs I; [apply Rmatch_refl; reflexivity|..]; rewrite (O N); (destruct C as [C|C]; [rewrite (HB N) in C; discriminate|]).
    all: try (destruct C as [C|C]; [exfalso; first [destruct J|idtac]; congruence|rewrite C]).
    all: cbn [json_to_py validate_str strip as_str andb negb]; scal I0.
  - intros f1 f2 ? ? -> ?. cbv zeta. repeat first [rp | step].
Qed.
Lemma bytes_rel c : rv b m (bytes_validate c) (bytes_validate c).
Proof.
  intros i1 i2 s1 s2 I S. unfold bytes_validate. apply (accept_rel _ eq); [|exact S|].
  - rewrite (strict_rel _ _ _ _ S). pose proof (strict_off (bc_strict c) _ _ S) as O.
    docs I; [apply Rmatch_refl; reflexivity|..]; rewrite (O N); cbn [json_to_py validate_bytes strip as_str]; unfold strictly, lax, in_deserialize; scal I0.
  - intros f1 f2 ? ? -> ?. cbv zeta. repeat first [rp | step].
Qed.
Lemma lk_no_bool ks : Forall (fun v => is_bool v = false) ks -> lk_true (lk_build ks) = None /\ lk_false (lk_build ks) = None.
Proof.
  unfold lk_build. assert (G : forall ks id lk, Forall (fun v => is_bool v = false) ks -> lk_true lk = None /\ lk_false lk = None ->
    lk_true (lk_build_from id ks lk) = None /\ lk_false (lk_build_from id ks lk) = None).
  { clear. induction ks as [|k ks IH]; intros id lk F L; cbn [lk_build_from]; [exact L|]. inversion F as [|? ? K F']. subst. apply IH; [exact F'|].
    assert (Q : lk_add_bool k id lk = lk). { unfold lk_add_bool, is_bool in *. now destruct (strip k). }
    unfold lk_add. rewrite Q. destruct k; try destruct (fits_i64 _); try destruct (hashable _); exact L. }
  intros F. now apply G.
Qed.
Lemma lookup_rel py f2s md ks i1 i2 : m = Same \/ m = Docs \/ Forall (fun v => is_bool v = false) ks -> Rin m i1 i2 ->
  lk_validate py f2s md (lk_build ks) i1 = lk_validate py f2s md (lk_build ks) i2.
Proof.
  intros K I. destruct I as [|? j N P|? k Q|? v Q P]; [reflexivity|apply lookup_json|..].
  - destruct K as [K|[K|K]]; [congruence..|].
    destruct (lk_no_bool _ K) as [T F]. unfold lk_validate.
    assert (B1 : bool_slot (lk_build ks) (IKey k) = None) by (unfold bool_slot; destruct (validate_bool _ _) as [[[] ?]|]; auto).
    assert (B2 : bool_slot (lk_build ks) (IPy (PStr k)) = None) by reflexivity.
    assert (I1 : int_slot md (lk_build ks) (IKey k) = VOk None).
    { unfold int_slot. destruct (lk_int _); [reflexivity|]. cbn. unfold lax. now destruct (in_str_as_int _ _ _). }
    assert (I2 : int_slot md (lk_build ks) (IPy (PStr k)) = VOk None) by (unfold int_slot; now destruct (lk_int _)).
    now rewrite B1, B2, I1, I2.
  - destruct K as [K|[K|K]]; [congruence..|].
    destruct (lk_no_bool _ K) as [T F]. unfold lk_validate.
    assert (B : forall i, bool_slot (lk_build ks) i = None) by (intros i; unfold bool_slot; destruct (validate_bool _ _) as [[[] ?]|]; auto).
    assert (I1 : int_slot md (lk_build ks) (IStrings v) = VOk None).
    { unfold int_slot. destruct (lk_int _); [reflexivity|]. destruct P; cbn; [|reflexivity]. unfold strictly. now destruct (in_str_as_int _ _ _). }
    assert (I2 : int_slot md (lk_build ks) (IPy v) = VOk None) by (unfold int_slot; destruct (lk_int _); [reflexivity|]; now destruct P).
    assert (I3 : str_slot py f2s (lk_build ks) (IStrings v) = str_slot py f2s (lk_build ks) (IPy v)) by now destruct P.
    now rewrite !B, I1, I2, I3.
Qed.
Lemma literal_rel py f2s md ks : m = Same \/ m = Docs \/ Forall (fun v => is_bool v = false) ks -> rv b m (literal_validate py f2s md ks) (literal_validate py f2s md ks).
Proof. intros K i1 i2 s1 s2 I S. unfold literal_validate. rewrite (lookup_rel py f2s md ks _ _ K I). repeat first [rp | step]. Qed.
Lemma any_rel : rv b m any_validate any_validate.
Proof. intros i1 i2 s1 s2 I S. unfold any_validate. rewrite (Rin_obj _ _ _ I). rp. Qed.
Lemma none_rel : rv b m none_validate none_validate.
Proof. intros i1 i2 s1 s2 I S. unfold none_validate. rewrite (Rin_none _ _ _ I). repeat first [rp | step]. Qed.

(** ** Wrappers *)
Lemma no_default_rel v1 v2 : rv b m v1 v2 -> rcv b m (no_default v1) (no_default v2).
Proof. intros H. split; [exact H|]. intros l s1 s2 S. cbn. rp. Qed.
Lemma nullable_rel v1 v2 : rv b m v1 v2 -> rv b m (nullable v1) (nullable v2).
Proof. intros H i1 i2 s1 s2 I S. unfold nullable. rewrite (Rin_none _ _ _ I). destruct (is_none_input i2); [rp|now apply H]. Qed.
Inductive RO {A} (R : A -> A -> Prop) : option (vres A * state) -> option (vres A * state) -> Prop :=
| RO_none : RO R None None
| RO_some p1 p2 : RP b R p1 p2 -> RO R (Some p1) (Some p2).
Lemma default_value_rel k o v1 v2 vd f1 f2 : (forall v s1 s2, Rst b s1 s2 -> RO eq (f1 (IPy v) s1) (f2 (IPy v) s2)) ->
  forall l s1 s2, Rst b s1 s2 ->
  RO eq (default_value f1 {| wd_default_kind := k; wd_on_error := o; wd_inner := v1; wd_validate_default := vd |} l s1)
        (default_value f2 {| wd_default_kind := k; wd_on_error := o; wd_inner := v2; wd_validate_default := vd |} l s2).
Proof.
  intros F l s1 s2 S. unfold default_value. cbn [wd_default_kind wd_validate_default]. rewrite (rx_data _ _ _ (rs_ex _ _ _ S)).
  destruct (stored_default k _) as [[v|]|]; [|constructor; rp|constructor; rp]. destruct vd; [|constructor; rp].
  destruct (F v _ _ S) as [|? ? [r1 r2 t1 t2 R T]]; [constructor|]. destruct R as [a1 a2 ->|e1 e2 Q]; constructor; [rp|].
  constructor; [|exact T]. constructor. destruct l; [now apply Rerr_outer|exact Q].
Qed.
Lemma wd_validate_rel n k o v1 v2 vd : rv b m v1 v2 -> forall i1 i2 s1 s2, Rin m i1 i2 -> Rst b s1 s2 ->
  RO eq (wd_validate n {| wd_default_kind := k; wd_on_error := o; wd_inner := v1; wd_validate_default := vd |} i1 s1)
        (wd_validate n {| wd_default_kind := k; wd_on_error := o; wd_inner := v2; wd_validate_default := vd |} i2 s2).
Proof.
  intros H. induction n as [|n IH]; intros i1 i2 s1 s2 I S; cbn [wd_validate]; [constructor|].
  set (w1 := Build_with_default k o v1 vd) in *. set (w2 := Build_with_default k o v2 vd) in *.
  assert (U : forall e1 e2 s1 s2, Rerr e1 e2 -> Rst b s1 s2 ->
    RO eq (match default_value (wd_validate n w1) w1 None s1 with None => None | Some (VErr e', s') => Some (VErr e', s') | Some (VOk (Some v), s') => Some (VOk v, s') | Some (VOk None, s') => Some (VErr e1, s') end)
          (match default_value (wd_validate n w2) w2 None s2 with None => None | Some (VErr e', s') => Some (VErr e', s') | Some (VOk (Some v), s') => Some (VOk v, s') | Some (VOk None, s') => Some (VErr e2, s') end)).
  { intros e1 e2 t1 t2 Q T.
    pose proof (default_value_rel k o v1 v2 vd (wd_validate n w1) (wd_validate n w2) (fun v a b S => IH (IPy v) (IPy v) a b (Rin_eq _ _) S) None t1 t2 T) as DV.
    fold w1 w2 in DV. destruct DV as [|? ? [r1 r2 u1 u2 R W]]; [constructor|].
    destruct R as [a1 a2 ->|]; [destruct a2; constructor; rp|constructor; rp]. }
  rewrite (Rin_undefined _ _ _ I). destruct (is_undefined i2); [apply U; [constructor|exact S]|].
  cbn [wd_inner wd_on_error w1 w2]. destruct (H _ _ _ _ I S) as [r1 r2 t1 t2 R T]. destruct R as [a1 a2 ->|e1 e2 Q]; [constructor; rp|].
  destruct Q; try (constructor; rp); try (apply U; [constructor; assumption|exact T]); destruct o; try (constructor; rp); (apply U; [constructor; assumption|exact T]).
Qed.
Lemma wd_rel n k o v1 v2 vd : rv b m v1 v2 ->
  rcv b m (wd_cv n {| wd_default_kind := k; wd_on_error := o; wd_inner := v1; wd_validate_default := vd |})
          (wd_cv n {| wd_default_kind := k; wd_on_error := o; wd_inner := v2; wd_validate_default := vd |}).
Proof.
  intros H. split.
  - intros i1 i2 s1 s2 I S. cbn [wd_cv cv_validate]. destruct (wd_validate_rel n k o v1 v2 vd H _ _ _ _ I S); [rp|assumption].
  - intros l s1 s2 S. cbn [wd_cv cv_default].
    destruct (default_value_rel k o v1 v2 vd _ _ (fun v s1 s2 S => wd_validate_rel n k o v1 v2 vd H (IPy v) (IPy v) s1 s2 (Rin_eq _ _) S) l _ _ S); [rp|assumption].
Qed.
Lemma chain_rest_rel l1 l2 : Forall2 (rv b m) l1 l2 -> forall v s1 s2, Rst b s1 s2 -> RP b eq (chain_rest l1 v s1) (chain_rest l2 v s2).
Proof.
  induction 1 as [|f1 f2 l1 l2 F L IH]; intros v s1 s2 S; cbn [chain_rest]; [rp|].
  destruct (F _ _ _ _ (Rin_eq m (IPy v)) S) as [r1 r2 t1 t2 R T]. destruct R as [a1 a2 ->|]; [now apply IH|rp].
Qed.
Lemma chain_rel l1 l2 : Forall2 (rv b m) l1 l2 -> rv b m (chain_validate l1) (chain_validate l2).
Proof.
  intros F i1 i2 s1 s2 I S. unfold chain_validate. destruct F as [|f1 f2 l1 l2 F L]; [rp|].
  destruct (F _ _ _ _ I S) as [r1 r2 t1 t2 R T]. destruct R as [a1 a2 ->|]; [now apply chain_rest_rel|rp].
Qed.
Lemma json_or_python_rel j1 j2 p1 p2 : b = true -> rv b m j1 j2 -> rv b m p1 p2 -> rv b m (json_or_python j1 p1) (json_or_python j2 p2).
Proof.
  intros B J P i1 i2 s1 s2 I S. unfold json_or_python. rewrite (rx_type _ _ _ (rs_ex _ _ _ S) B). destruct (x_input_type (st_extra s2)); [apply P|apply J|apply J]; assumption.
Qed.
Lemma lax_or_strict_rel st l1 l2 t1 t2 : rv b m l1 l2 -> rv b m t1 t2 -> rv b m (lax_or_strict st l1 t1) (lax_or_strict st l2 t2).
Proof.
  intros L T i1 i2 s1 s2 I S. unfold lax_or_strict. rewrite (strict_rel _ _ _ _ S). destruct (strict_or s2 st); [now apply T|].
  pose proof (rs_exact _ _ _ S) as X. destruct (st_exactness s1), (st_exactness s2); try discriminate X; [|now apply L].
  destruct (T _ _ _ _ I S) as [r1 r2 u1 u2 R U]. destruct R as [a1 a2 ->|e1 e2 Q]; [rp|]. destruct Q; first [rp | apply L; [exact I|rst]].
Qed.
Lemma custom_error_rel t v1 v2 : rv b m v1 v2 -> rv b m (custom_error t v1) (custom_error t v2).
Proof. intros H i1 i2 s1 s2 I S. unfold custom_error. repeat first [rp | step]. Qed.
Lemma info_same own s1 s2 : Rst b s1 s2 -> same_but_mode (info_of own s1) (info_of own s2).
Proof. intros [[] ? ?]. split; cbn; congruence. Qed.
Lemma info_rel A (f : pyval -> info -> A) own v s1 s2 : b = true \/ ignores_mode f -> Rst b s1 s2 -> f v (info_of own s1) = f v (info_of own s2).
Proof.
  intros [B|G] S; [|apply G, info_same, S]. f_equal. destruct S as [X _ _]. unfold info_of. rewrite (rx_data _ _ _ X), (rx_field _ _ _ X), (rx_type _ _ _ X B). reflexivity.
Qed.
Lemma convert_rel x i1 i2 : Rin m i1 i2 -> Rerr (convert_err x i1) (convert_err x i2).
Proof. intros I. destruct x; cbn [convert_err]; try apply Rerr_refl; constructor; eapply Rlines_one; exact I. Qed.
Lemma call_fun_rel f own v i1 i2 s1 s2 : b = true \/ ignores_mode f -> Rin m i1 i2 -> Rst b s1 s2 -> Rr eq (call_fun f own v i1 s1) (call_fun f own v i2 s2).
Proof. intros G I S. unfold call_fun. rewrite (info_rel _ f own v _ _ G S). destruct (f v _); [rr|]. constructor. now apply convert_rel. Qed.
Lemma before_rel f own v1 v2 : b = true \/ ignores_mode f -> rv b m v1 v2 -> rv b m (function_before f own v1) (function_before f own v2).
Proof.
  intros G H i1 i2 s1 s2 I S. unfold function_before. rewrite (Rin_obj _ _ _ I).
  destruct (call_fun_rel f own (input_object i2) _ _ _ _ G I S) as [a1 a2 ->|]; [apply H; [apply Rin_eq|exact S]|rp].
Qed.
Lemma after_rel f own v1 v2 : b = true \/ ignores_mode f -> rv b m v1 v2 -> rv b m (function_after f own v1) (function_after f own v2).
Proof.
  intros G H i1 i2 s1 s2 I S. unfold function_after. destruct (H _ _ _ _ I S) as [r1 r2 t1 t2 R T]. destruct R as [a1 a2 ->|]; [|rp].
  constructor; [now apply call_fun_rel|exact T].
Qed.
Lemma plain_rel f own : b = true \/ ignores_mode f -> rv b m (function_plain f own) (function_plain f own).
Proof. intros G i1 i2 s1 s2 I S. unfold function_plain. rewrite (Rin_obj _ _ _ I). constructor; [now apply call_fun_rel|exact S]. Qed.
Lemma exact_lines l1 l2 : merge = false -> Rlines l1 l2 -> map freeze_error l1 = map freeze_error l2.
Proof.
  intros ME. unfold Rlines. rewrite !(map_ext seen freeze_error); [auto|..]; intros e; unfold seen, merged;
  rewrite ME; reflexivity.
Qed.
Lemma to_exception_rel o e1 e2 : merge = false -> Rerr e1 e2 -> to_exception o e1 = to_exception o e2.
Proof.
  intros ME.
  intros []; try reflexivity. cbn [to_exception]. do 2 f_equal. destruct o as [l|]; [|now apply exact_lines]. apply exact_lines; [exact ME|]. apply (Rlines_map (with_outer l)); [apply rel_outer|assumption].
Qed.
Lemma run_wrap_rel v1 v2 s1 s2 p : merge = false -> rv b m v1 v2 -> Rst b s1 s2 -> forall e1 e2, is_some e1 = is_some e2 ->
  fst (run_wrap v1 s1 p e1) = fst (run_wrap v2 s2 p e2) /\ is_some (snd (run_wrap v1 s1 p e1)) = is_some (snd (run_wrap v2 s2 p e2)).
Proof.
  intros ME H S. induction p as [v|x|v o k IH]; intros e1 e2 E; cbn [run_wrap]; [split; [reflexivity|exact E]..|].
  destruct (H _ _ _ _ (Rin_eq m (IPy v)) (Rst_handler _ _ _ _ _ S E)) as [r1 r2 t1 t2 R T]. pose proof (rs_exact _ _ _ T) as X.
  destruct R as [a1 a2 ->|x1 x2 Q]; [now apply IH|]. rewrite (to_exception_rel o _ _ ME Q). destruct (to_exception o x2); [now apply IH|]. split; [reflexivity|exact X].
Qed.
Lemma wrap_rel f own v1 v2 : merge = false -> b = true \/ ignores_mode f -> rv b m v1 v2 -> rv b m (function_wrap f own v1) (function_wrap f own v2).
Proof.
  intros ME G H i1 i2 s1 s2 I S. unfold function_wrap. rewrite (Rin_obj _ _ _ I), (info_rel _ f own _ _ _ G S).
  destruct (run_wrap_rel v1 v2 s1 s2 (f (input_object i2) (info_of own s2)) ME H S _ _ (rs_exact _ _ _ S)) as [A B].
  destruct (run_wrap v1 s1 _ _) as [o1 e1], (run_wrap v2 s2 _ _) as [o2 e2]. cbn [fst snd] in A, B. subst o2.
  assert (T : Rst b (set_exactness e1 s1) (set_exactness e2 s2)) by (apply Rst_exact; assumption).
  destruct o1 as [[v|x]|]; try rp. constructor; [|exact T]. constructor. now apply convert_rel.
Qed.
Lemma is_instance_rel sub cls : m = Same -> rv b m (is_instance_validate sub cls) (is_instance_validate sub cls).
Proof. intros M i1 i2 s1 s2 I S. destruct (Rin_cases _ _ _ I) as [<-|N]; [|easy]. unfold is_instance_validate. repeat first [rp | step]. Qed.
End Inputs.
