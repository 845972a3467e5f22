From Coq Require Import List NArith ZArith Bool Lia.
From Verif Require Import Base Float64 IntParse IntParseProofs Numbers NumbersSpec NumbersProofs BytesCodec Values VState LookupKey Collections Child Inputs Scalars Literal Wrappers Union TaggedUnion Tuple ModelFields TypedDict Assign Arguments Classes Interp InterpSpec InterpProofs ConformSpec.
Import ListNotations.
Open Scope nat_scope.

(** ** Results *)
Definition no {A} (r : vres A) : Prop := match r with VErr Omit => False | _ => True end.
Definition vk {A} (P : A -> Prop) (O : Prop) (r : vres A) : Prop := match r with VOk v => P v | VErr Omit => O | VErr _ => True end.
Lemma no_omit A (r : vres A) : no r -> r <> VErr Omit. Proof. intros H ->. exact H. Qed.
Lemma vk_no A (P : A -> Prop) O r : no r -> (forall v, r = VOk v -> P v) -> vk P O r.
Proof. intros N H. destruct r as [v|[]]; try exact I; [now apply H|contradiction]. Qed.

Section Kind.
Variable strings : bool.
Definition allowed (i : input) : Prop := match i with IStrings _ => strings = true | _ => True end.
Definition vok (P : pyval -> Prop) (O : Prop) (v : validator) : Prop := forall i s, allowed i -> vk P O (fst (v i s)).
Definition dok (P : pyval -> Prop) (O : Prop) (D : Prop) (f : option loc_item -> state -> vres (option pyval) * state) : Prop :=
  forall l s, vk (fun o => match o with Some v => P v /\ D | None => True end) O (fst (f l s)).

Lemma vok_ok P O v i s w s' : vok P O v -> allowed i -> v i s = (VOk w, s') -> P w.
Proof. intros H A X. specialize (H i s A). now rewrite X in H. Qed.
Lemma vok_omit P O v i s s' : vok P O v -> allowed i -> v i s = (VErr Omit, s') -> O.
Proof. intros H A X. specialize (H i s A). now rewrite X in H. Qed.
Lemma dok_ok P O D f l s w s' : dok P O D f -> f l s = (VOk (Some w), s') -> P w /\ D.
Proof. intros H X. specialize (H l s). now rewrite X in H. Qed.
Lemma dok_omit P O D f l s s' : dok P O D f -> f l s = (VErr Omit, s') -> O.
Proof. intros H X. specialize (H l s). now rewrite X in H. Qed.
Lemma vok_mono (P Q : pyval -> Prop) (O O' : Prop) v : (forall x, P x -> Q x) -> (O -> O') -> vok P O v -> vok Q O' v.
Proof. intros A B H i s AL. specialize (H i s AL). destruct (fst (v i s)) as [x|[]]; cbn in *; auto. Qed.

(** ** Input *)
Definition item_allowed (it : item input) : Prop := match it with It i => allowed i | Raise _ => True end.
Definition seq_allowed (sq : seq) : Prop := Forall item_allowed (sq_items sq).
Lemma py_items l : Forall item_allowed (map (fun v => It (IPy v)) l).
Proof. apply Forall_map_in. intros; exact I. Qed.
Lemma json_items l : Forall item_allowed (map (fun v => It (IJson v)) l).
Proof. apply Forall_map_in. intros; exact I. Qed.
Lemma seq_iter v sq : sequence_iterable v = Some sq -> seq_allowed sq.
Proof. unfold sequence_iterable. destruct (strip v); try discriminate; intros [= <-]; apply py_items. Qed.
Lemma lax_seq b t i v sq : lax_sequence b t i v = VOk sq -> seq_allowed sq.
Proof. unfold lax_sequence. destruct b; [discriminate|]. destruct (sequence_iterable v) eqn:S; [|discriminate]. intros [= <-]. exact (seq_iter _ _ S). Qed.
Ltac seqs H := revert H; repeat match goal with
  | |- lax_sequence _ _ _ _ = VOk _ -> _ => apply lax_seq
  | |- VOk _ = VOk _ -> _ => intros [= <-]; first [apply py_items | apply json_items]
  | |- _ = VOk _ -> _ => discriminate
  | |- context [match ?x with _ => _ end] => destruct x end.
Lemma list_allowed b i sq : validate_list b i = VOk sq -> seq_allowed sq. Proof. unfold validate_list. intros H. seqs H. Qed.
Lemma tuple_allowed b i sq : validate_tuple b i = VOk sq -> seq_allowed sq. Proof. unfold validate_tuple. intros H. seqs H. Qed.
Lemma set_allowed b i sq : validate_set b i = VOk sq -> seq_allowed sq. Proof. unfold validate_set. intros H. seqs H. Qed.
Lemma frozenset_allowed b i sq : validate_frozenset b i = VOk sq -> seq_allowed sq. Proof. unfold validate_frozenset. intros H. seqs H. Qed.

Definition entry_ok (en : entry) : Prop := match en with Entry k _ v => allowed k /\ allowed v | BadEntry e => no (@VErr unit e) end.
Definition get_ok (r : vres (option (lookup_path * input))) : Prop := vk (fun o => forall p i, o = Some (p, i) -> allowed i) False r.
Record md_ok (md : mdict) : Prop := {
  mo_get : forall k, get_ok (md_get md k);
  mo_iter : vk (Forall entry_ok) False (md_iter md);
  (* a key of the mapping that is a string is found under its name *)
  mo_found : strings = false -> md_is_attr md = false -> forall es k kl v n, md_iter md = VOk es -> In (Entry k kl v) es -> key_str k = VOk n ->
    exists x, md_get md (Simple (path_from_str n)) = VOk (Some (path_from_str n, x));
  mo_total : strings = false -> md_is_attr md = false -> forall k, exists o, md_get md k = VOk o }.

Lemma as_str_eq v n : as_str v = Some n -> py_eq v (PStr n) = true.
Proof. induction v; try discriminate; cbn. { intros [= ->]. now apply str_eqb_eq. } { exact IHv. } Qed.
Lemma dict_get_in k v n (d : list (pyval * pyval)) : In (k, v) d -> as_str k = Some n -> dict_get (PStr n) d <> None.
Proof.
  intros I A. induction d as [|[a b] d IH]; [destruct I|]. cbn. destruct (py_eq a (PStr n)) eqn:P; [discriminate|].
  destruct I as [[= -> ->]|I]; [|auto]. rewrite (as_str_eq _ _ A) in P. discriminate.
Qed.
Lemma py_md_ok repr d : md_ok (py_mdict repr d).
Proof.
  constructor.
  - intros k. cbn. intros p i. destruct (py_get_dict_item k d) as [[q v]|]; [|discriminate]. intros [= <- <-]. exact I.
  - cbn. apply Forall_map_in. intros; split; exact I.
  - intros _ _ es k kl v n [= <-] J K. apply in_map_iff in J. destruct J as ([a b] & [= <- <- <-] & J). cbn in K.
    destruct (as_str a) as [n'|] eqn:A; [|discriminate]. injection K as ->. pose proof (dict_get_in _ _ _ _ J A) as G. cbn.
    destruct (dict_get (PStr n) d) as [x|]; [|easy]. exists (IPy x). reflexivity.
  - intros. eexists. reflexivity.
Qed.
Lemma assoc_in A (k : str) (v : A) l : In (k, v) l -> assoc k l <> None.
Proof. intros J H. apply assoc_None in H. apply H. apply in_map_iff. now exists (k, v). Qed.
Lemma json_md_ok l : md_ok (json_mdict l).
Proof.
  constructor.
  - intros k. cbn. intros p i. destruct (json_get k l) as [[q v]|]; [|discriminate]. intros [= <- <-]. exact I.
  - cbn. apply Forall_map_in. intros; split; exact I.
  - intros _ _ es k kl v n [= <-] J K. apply in_map_iff in J. destruct J as ([a b] & [= <- <- <-] & J). cbn in K. injection K as ->.
    cbn. unfold json_last. assert (G : assoc n (rev l) <> None). { apply (assoc_in _ n b). now apply -> in_rev. }
    destruct (assoc n (rev l)) as [x|]; [|easy]. exists (IJson x). reflexivity.
  - intros. eexists. reflexivity.
Qed.
Lemma new_value_ok v : vk allowed False (if strings then new_value v else val_err EStringType (IPy v)).
Proof. destruct strings eqn:S; [|exact I]. unfold new_value. destruct (as_str v), (dict_items v); cbn; auto. Qed.
Lemma strings_md_ok repr d : strings = true -> md_ok (strings_mdict repr d).
Proof.
  intros S. constructor.
  - intros k. cbn. destruct (py_get_dict_item k d) as [[q v]|]; [|intros ? ? [=]]. unfold new_value. destruct (as_str v), (dict_items v); try exact I; intros ? ? [= <- <-]; exact S.
  - cbn. apply Forall_map_in. intros [a b] _. cbn. unfold new_key, new_value. destruct (as_str a), (as_str b), (dict_items b); cbn; auto.
  - intros X. congruence.
  - intros X. congruence.
Qed.
Lemma attr_md_ok ga o kw : md_ok (attr_mdict ga o kw).
Proof.
  constructor.
  - intros k. cbn. unfold py_get_attr. destruct (match kw with Some d => _ | None => _ end) as [[q v]|].
    + intros ? ? [= <- <-]. exact I.
    + destruct (simple_py_get_attr _ _ _) as [[[q v]|]|]; try exact I; intros ? ? [=]; subst; exact I.
  - constructor.
  - discriminate.
  - discriminate.
Qed.
Lemma validate_dict_ok repr b i md : allowed i -> validate_dict repr b i = VOk md -> md_ok md /\ md_is_attr md = false.
Proof.
  intros A. unfold validate_dict. destruct i as [v|j|k|v].
  - destruct (dict_items v); [|discriminate]. intros [= <-]. split; [apply py_md_ok|reflexivity].
  - destruct j; try discriminate. intros [= <-]. split; [apply json_md_ok|reflexivity].
  - discriminate.
  - destruct (as_str v), (dict_items v); try discriminate. intros [= <-]. split; [apply strings_md_ok, A|reflexivity].
Qed.
Lemma validate_dict_no repr b i : no (validate_dict repr b i).
Proof. unfold validate_dict. destruct i as [v|j|k|v]; [destruct (dict_items v)|destruct j| |destruct (as_str v), (dict_items v)]; exact I. Qed.
Lemma dict_entries_ok repr b i : allowed i -> vk (Forall entry_ok) False (dict_entries repr b i).
Proof.
  intros A. unfold dict_entries. pose proof (validate_dict_no repr b i) as N. destruct (validate_dict repr b i) as [md|e] eqn:V.
  - apply (validate_dict_ok _ _ _ _ A V).
  - destruct e; exact N.
Qed.
Lemma validate_mf_ok repr ga a b i md : allowed i -> validate_model_fields repr ga a b i = VOk md -> md_ok md.
Proof.
  intros A. unfold validate_model_fields. destruct i as [v|j|k|v]; try (intros X; now apply (validate_dict_ok _ _ _ _ A X)). destruct b; [|intros X; now apply (validate_dict_ok _ _ _ _ A X)].
  destruct (dict_items v); [intros [= <-]; apply py_md_ok|]. destruct (from_attributes_applicable v); [intros [= <-]; apply attr_md_ok|].
  destruct v as [| | | | | | |[|o [|kw [|]]]| | | | |]; try discriminate. destruct (dict_items kw); [|discriminate]. destruct (from_attributes_applicable o); [|discriminate]. intros [= <-]. apply attr_md_ok.
Qed.
Lemma validate_mf_no repr ga a b i : no (validate_model_fields repr ga a b i).
Proof.
  unfold validate_model_fields. destruct i as [v|j|k|v]; try apply validate_dict_no. destruct b; [|apply validate_dict_no].
  destruct (dict_items v); [exact I|]. destruct (from_attributes_applicable v); [exact I|].
  destruct v as [| | | | | | |[|o [|kw [|]]]| | | | |]; try exact I. destruct (dict_items kw); [|exact I]. destruct (from_attributes_applicable o); exact I.
Qed.
Record ai_ok (ai : arg_input) : Prop := {
  ao_args : Forall allowed (args_list ai);
  ao_kwargs : forall md n, ai_kwargs ai = Some (md, n) -> md_ok md }.
Ltac ai := intros [= <-]; constructor; [first [apply Forall_map_in; intros; exact I | constructor] | intros ? ? [= <- _]; first [apply py_md_ok | apply json_md_ok]].
Lemma validate_args_ok repr i a : allowed i -> validate_args repr i = VOk a -> ai_ok a.
Proof.
  intros A. unfold validate_args. destruct i as [v|j|k|v]; try discriminate.
  - destruct (dict_items v); [ai|]. destruct (as_args_kwargs v) as [[l [kw|]]|]; [ai|ai|]. destruct (strip v); try discriminate; ai.
  - destruct j; try discriminate; ai.
Qed.
Lemma validate_args_no repr i : no (validate_args repr i).
Proof.
  unfold validate_args. destruct i as [v|j|k|v]; try exact I.
  - destruct (dict_items v); [exact I|]. destruct (as_args_kwargs v) as [[l kw]|]; [exact I|]. destruct (strip v); exact I.
  - destruct j; exact I.
Qed.
Lemma validate_dargs_ok repr i a : allowed i -> validate_dataclass_args repr i = VOk a -> ai_ok a.
Proof.
  intros A. unfold validate_dataclass_args. destruct i as [v|j|k|v]; try discriminate.
  - destruct (dict_items v); [ai|]. destruct (as_args_kwargs v) as [[l [kw|]]|]; [ai|ai|discriminate].
  - destruct j; try discriminate; ai.
  - destruct (as_str v), (dict_items v); try discriminate. intros [= <-]. constructor; [constructor|]. intros ? ? [= <- _]. apply strings_md_ok, A.
Qed.
Lemma validate_dargs_no repr i : no (validate_dataclass_args repr i).
Proof.
  unfold validate_dataclass_args. destruct i as [v|j|k|v]; try exact I.
  - destruct (dict_items v); [exact I|]. destruct (as_args_kwargs v) as [[l kw]|]; exact I.
  - destruct j; exact I.
  - destruct (as_str v), (dict_items v); exact I.
Qed.
End Kind.
