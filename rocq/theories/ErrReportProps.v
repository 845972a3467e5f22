(** C65, C66, C67: pickling errors, messages, reports. *)
From Coq Require Import List NArith ZArith Bool Lia.
From Verif Require Import Base Float64 Values Decimal VState ErrTable ErrReport ErrReportSpec ErrReportProofs ErrReportProofs2 ErrReportProofs3.
Import ListNotations.
Open Scope Z_scope.

Definition row_of (t : str) : row := match lookup t with Some r => r | None => mk [] [] [] [] [] None end.

Section Props.
Variable as_index : pyval -> option Z.
Variable as_float : pyval -> option f64.
Variable show_float : f64 -> str.
Variable py_str : pyval -> str.
Variable py_repr : pyval -> str.
Variable type_name : pyval -> option str.
Variable abbreviate : str -> str.
Variable infer_json : pyval -> option json.
Variable exn_text : str.
Notation errors' := (errors as_index show_float py_str).
Notation to_json' := (to_json as_index show_float py_str infer_json).
Notation display' := (display as_index show_float py_str py_repr type_name abbreviate exn_text).
Notation rebuild' := (rebuild as_index as_float show_float py_str py_repr).
Notation render' := (render_message as_index show_float py_str).
Notation new_error' := (new_error as_index as_float).

(** C65.  A ValidationError of known errors survives pickling and copying: it is
    rebuilt without an exception and every report of the copy is the same. *)
Theorem C65_rebuilt : forall url env v,
  Forall (fun l => raised as_index as_float (l_type l) /\ loc_ok (l_loc l)) (v_lines v) ->
  exists v', rebuild' url env v = Ok v'
    /\ v_title v' = v_title v /\ v_input_type v' = v_input_type v /\ v_hide_input v' = v_hide_input v
    /\ map l_loc (v_lines v') = map l_loc (v_lines v) /\ map l_input (v_lines v') = map l_input (v_lines v)
    /\ (forall url' u c i, errors' url' u c i v' = errors' url' u c i v)
    /\ (forall url' u c i, to_json' url' u c i v' = to_json' url' u c i v)
    /\ (forall url' u, display' url' u v' = display' url' u v).
Proof.
  intros url env v F.
  destruct (rebuilt as_index as_float show_float py_str py_repr url env v F) as (v' & R & T).
  exists v'. split; [exact R|]. pose proof (twins_same as_index show_float py_str py_repr type_name abbreviate infer_json exn_text v v' T) as (A & B & C).
  destruct T as (T1 & T2 & T3 & T4). repeat split; try assumption.
  - induction T4 as [|l l' ls ls' (E & _) T4 IH]; [reflexivity|]. cbn [map]. inversion F; subst. f_equal; [exact E|].
    clear - T4. induction T4 as [|l l' ls ls' (E & _) T4 IH]; [reflexivity|]. cbn [map]. f_equal; assumption.
  - clear - T4. induction T4 as [|l l' ls ls' (_ & E & _) T4 IH]; [reflexivity|]. cbn [map]. f_equal; assumption.
Qed.

(** C65.  A known error made from a name and a context: accepted exactly when the
    name is that of a known error and the context has its fields, with values of
    their types; the error has that type and that context. *)
Theorem C65_named : forall t d, str_dict d ->
  ((exists e, new_error' t (Some d) = Ok e) <->
   exists r, In r table /\ row_type r = t /\
     Forall (fun kt => exists v, dict_get (PStr (fst kt)) d = Some v /\ extract_field as_index as_float (snd kt) v <> None) (r_fields r))
  /\ forall e, new_error' t (Some d) = Ok e ->
       type_string e = t /\ exists d', py_dict e = Some d' /\ str_dict d' /\ forall k, dict_get (PStr k) d' = dict_get (PStr k) d.
Proof.
  intros t d D. split.
  - split.
    + intros [e H]. unfold new_error in H. destruct (lookup t) as [r|] eqn:L; [|discriminate]. apply lookup_some in L. destruct L as [I E].
      exists r. split; [exact I|]. split; [exact E|].
      destruct (map_res _ (r_fields r)) as [vals|] eqn:M; [|discriminate]. apply map_res_Forall2 in M. clear - M.
      induction M as [|kt f ks fs E M IH]; constructor; [|exact IH]. unfold field_from_context in E.
      destruct (dict_get (PStr (fst kt)) d) as [v|]; [|discriminate]. exists v. split; [reflexivity|].
      destruct (extract_field as_index as_float (snd kt) v); [discriminate|discriminate].
    + intros (r & I & E & F). subst t. unfold new_error. rewrite lookup_row by exact I.
      assert (H : exists vals, map_res (fun kt => field_from_context as_index as_float (Some d) (fst kt) (snd kt)) (r_fields r) = Ok vals).
      { clear - F. induction F as [|kt ks (v & G & X) F [vals IH]]; [exists []; reflexivity|]. cbn [map_res]. unfold field_from_context at 1. rewrite G.
        destruct (extract_field as_index as_float (snd kt) v) as [f|]; [|contradiction X; reflexivity]. cbn [bind]. rewrite IH. cbn [bind]. eexists. reflexivity. }
      destruct H as [vals M]. rewrite M. cbn [bind]. eexists. reflexivity.
  - intros e H.
    destruct (raised_shape as_index as_float e (raised_named as_index as_float t (Some d) e D H)) as (r & vals & ctx & -> & I & L & C).
    unfold new_error in H. destruct (lookup t) as [r'|] eqn:Lk; [|discriminate]. apply lookup_some in Lk. destruct Lk as [I' E].
    destruct (map_res _ (r_fields r')) as [vals'|] eqn:M; [|discriminate]. cbn [bind] in H. injection H as -> -> H. split; [exact E|].
    destruct ctx as [l|]; [|discriminate]. cbn [option_map] in H. injection H as ->. destruct C as [N G].
    cbn [option_map py_dict]. rewrite (fields_dict_sd r vals I L), dupdate_sd. eexists. split; [reflexivity|].
    assert (Np : NoDup (map fst (pairs r vals))) by (rewrite pairs_keys by exact L; apply row_fields_nodup; exact I).
    split; [apply sd_str_dict, supd_nodup; exact Np|].
    intro k. rewrite !dict_get_sd, sget_supd by exact N. destruct (sget k l) as [v|] eqn:S; [reflexivity|].
    apply sget_none. rewrite pairs_keys by exact L. intro K. apply in_map_iff in K. destruct K as ([k' ty] & <- & K). cbn [fst] in S.
    unfold gives in G. clear - G K S. induction G as [|kt f ks fs (v & V & X) G IH]; [destruct K|].
    destruct K as [->|K]; [cbn [fst] in V; congruence|exact (IH K)].
Qed.

(** C66.  The message of a known error is its template with every placeholder
    replaced, at once, by the value of the field of that name, provided the string
    values have no opening brace (the value of the placeholder that is replaced last
    may have any). *)
Theorem C66_message : forall it r vals ctx,
  In r table -> Forall2 has_type (map snd (r_fields r)) vals ->
  (forall k s, In (k, FStr s) (combine (map fst (r_fields r)) vals) -> k <> last (r_render r) [] -> no_open s) ->
  exists ps ts, template_of (template it r) ps
    /\ Forall2 (fun p t => match p with Text s => t = s | Hole k => shows show_float py_str r vals k t end) ps ts
    /\ render' it (Known r vals ctx) = Ok (concat ts).
Proof.
  intros it r vals ctx I T H. apply known_message; [exact I|exact T|].
  apply shown_tame; assumption.
Qed.

(** C66.  The message of a custom error is its template with the placeholders that
    have a value in the context replaced by it, at once, the others kept: provided
    no value but the last has an opening brace. *)
Theorem C66_custom : forall it t m ps ctx kvs, template_of m ps ->
  Forall2 (fun kv e => bare (fst kv) = PStr (fst e) /\ snd e = show_ctx_value as_index py_str (snd kv)) ctx kvs ->
  Forall (fun e => no_brace (fst e)) kvs -> tame (map snd kvs) ->
  render' it (Custom t m (Some ctx)) = Ok (filled kvs ps).
Proof. intros. eapply custom_message; eassumption. Qed.

(** C66.  No message is missing: [errors()] and [json()] of known errors never raise
    because of a message, and a custom error's message fails exactly on a context key
    that is not a string. *)
Theorem C66_total : forall it e,
  (exists m, render' it e = Ok m) <->
  match e with Custom _ _ (Some c) => Forall (fun kv => exists k, bare (fst kv) = PStr k) c | _ => True end.
Proof.
  intros it [r vals c|t m [c|]]; cbn [render_message].
  - split; [intros _; exact I|intros _; eexists; reflexivity].
  - revert m. induction c as [|[k v] c IH]; intro m; cbn [format_message].
    + split; [intros _; constructor|intros _; eexists; reflexivity].
    + split.
      * intro H. destruct (bare k) eqn:B; try (destruct H as [? H]; discriminate). constructor; [cbn [fst]; eexists; exact B|]. apply (IH _) in H. exact H.
      * intro H. inversion H as [|? ? [k' B] H']; subst. cbn [fst] in B. rewrite B. apply IH. exact H'.
  - split; [intros _; exact I|intros _; eexists; reflexivity].
Qed.

(** C67.  [error_count()], [errors()] and [json()] have one entry per error. *)
Theorem C67_counts : forall url u c i v,
  (forall ds, errors' url u c i v = Ok ds -> length ds = error_count v) /\
  (forall j, to_json' url u c i v = Ok j -> exists l, j = JArr l /\ length l = error_count v).
Proof.
  intros url u c i v. split.
  - intros ds H. apply map_res_len in H. exact H.
  - intros j H. unfold to_json in H. destruct (map_res _ (v_lines v)) as [l|] eqn:M; [|discriminate]. cbn [bind] in H. injection H as <-.
    exists l. split; [reflexivity|]. apply map_res_len in M. exact M.
Qed.

(** C67.  The entries of [errors()], one per error in order: its type, place, message, input,
    context, and, for known errors, a url that ends with the type. *)
Theorem C67_entries : forall url v ds, errors' url true true true v = Ok ds ->
  Forall2 (fun l d => render' (v_input_type v) (l_type l) = Ok (d_msg d) /\ d_loc d = loc_py (l_loc l) /\ d_input d = Some (l_input l) /\
    match l_type l with
    | Known _ _ _ => d_url d = Some (url ++ d_type d)
    | Custom t _ _ => d_type d = t /\ d_url d = None
    end) (v_lines v) ds.
Proof.
  intros url v ds H. unfold errors in H. apply map_res_Forall2 in H. revert H. induction 1 as [|l d ls ds A _ IH]; constructor; [|exact IH].
  unfold as_dict in A. destruct (render' (v_input_type v) (l_type l)) as [m|x]; [|discriminate]. cbn [bind] in A. injection A as <-. cbn.
  destruct (l_type l); cbn; auto.
Qed.

(** C67.  For known errors [json()] is [errors()], entry by entry, as JSON. *)
Theorem C67_json_agrees : forall url u c i v ds,
  Forall (fun l => is_custom (l_type l) = false) (v_lines v) -> errors' url u c i v = Ok ds ->
  forall j, to_json' url u c i v = Ok j <-> exists l, j = JArr l /\ Forall2 (json_of infer_json) ds l.
Proof.
  intros url u c i v ds F E. unfold errors in E. unfold to_json. generalize dependent (if u then Some url else None). intros p E.
  assert (G : forall l, map_res (line_json as_index show_float py_str infer_json p c (v_input_type v) i) (v_lines v) = Ok l <-> Forall2 (json_of infer_json) ds l).
  { intro l. rewrite map_res_Forall2. apply map_res_Forall2 in E. revert l. clear - E F.
    induction E as [|x d ls ds A E IH]; intro l.
    - split; intro H; inversion H; constructor.
    - inversion F as [|? ? F1 F2]; subst. split; intro H; inversion H as [|? y ? l' H1 H2]; subst; constructor.
      + apply (line_json_of as_index show_float py_str infer_json p c (v_input_type v) i x d F1 A). exact H1.
      + apply (IH F2). exact H2.
      + apply (line_json_of as_index show_float py_str infer_json p c (v_input_type v) i x d F1 A). exact H1.
      + apply (IH F2). exact H2. }
  intro j. split.
  - intro H. match type of H with context [map_res ?f ?l] => destruct (map_res f l) as [l0|] eqn:M end; [|discriminate]. cbn [bind] in H. injection H as <-.
    exists l0. split; [reflexivity|]. apply G. reflexivity.
  - intros (l & -> & H). apply G in H. rewrite H. reflexivity.
Qed.

(** C67.  The options of [errors()] leave out the url, the context and the input,
    and nothing else. *)
Theorem C67_options : forall url u c i v,
  errors' url u c i v =
  match errors' url true true true v with
  | Raise x => Raise x
  | Ok ds => Ok (map (fun d => {| d_type := d_type d; d_loc := d_loc d; d_msg := d_msg d;
                                  d_input := if i then d_input d else None;
                                  d_ctx := if c then d_ctx d else None;
                                  d_url := if u then d_url d else None |}) ds)
  end.
Proof.
  intros url u c i v. unfold errors. induction (v_lines v) as [|l ls IH]; [reflexivity|]. cbn [map_res]. rewrite IH. clear IH.
  unfold as_dict at 1 3. destruct (render' (v_input_type v) (l_type l)) as [m|x]; [|reflexivity]. cbn [bind].
  destruct (map_res _ ls) as [ds|x]; [|reflexivity]. cbn [bind map d_type d_loc d_msg d_input d_ctx d_url].
  destruct u, c, i; try reflexivity; destruct (is_custom (l_type l)); reflexivity.
Qed.

(** C67.  With hidden inputs, [str(error)] is the text of [errors()]: the count, the
    title, and for each entry its place, message, type and url. *)
Theorem C67_text : forall url env c i v ds title,
  v_hide_input v = true -> bare (v_title v) = PStr title -> Forall (fun l => loc_ok (l_loc l)) (v_lines v) ->
  errors' url env c i v = Ok ds -> display' url env v = Some (report title ds).
Proof.
  intros url env c i v ds title Hh Ht F E. unfold display. rewrite Ht, Hh. unfold report, error_count.
  pose proof (map_res_len _ _ _ E) as L. rewrite L.
  assert (P : (if Nat.eqb (length (v_lines v)) 1 then [] else lit "s") = match ds with [_] => [] | _ => lit "s" end).
  { rewrite <- L. destruct ds as [|d [|d' ds]]; reflexivity. }
  rewrite P. do 8 f_equal. unfold errors in E. revert E. generalize (if env then Some url else None). intros p E.
  apply map_res_Forall2 in E. clear - E F. induction E as [|l d ls ds A E IH]; [reflexivity|]. inversion F as [|? ? F1 F2]; subst. cbn [map].
  f_equal; [eapply pretty_block; eassumption|apply IH; exact F2].
Qed.

(** C67.  With hidden inputs, [str(error)] does not depend on the inputs. *)
Theorem C67_hidden : forall url env v v',
  v_hide_input v = true -> v_hide_input v' = true -> v_title v' = v_title v -> v_input_type v' = v_input_type v ->
  Forall2 same_but_input (v_lines v) (v_lines v') -> display' url env v' = display' url env v.
Proof.
  intros url env v v' H H' Et Ei F. unfold display, error_count. rewrite H, H', Et, Ei. destruct (bare (v_title v)); try reflexivity.
  pose proof (Forall2_len _ _ _ F) as L. rewrite L. do 8 f_equal. generalize (if env then Some url else None). intro p. clear - F.
  induction F as [|l l' ls ls' [A B] F IH]; [reflexivity|]. cbn [map]. rewrite IH. f_equal. unfold pretty. rewrite A, B. reflexivity.
Qed.
End Props.
Print Assumptions C65_rebuilt.
Print Assumptions C65_named.
Print Assumptions C66_message.
Print Assumptions C66_custom.
Print Assumptions C66_total.
Print Assumptions C67_counts.
Print Assumptions C67_entries.
Print Assumptions C67_json_agrees.
Print Assumptions C67_options.
Print Assumptions C67_text.
Print Assumptions C67_hidden.

(** * Non-vacuity and findings, with some simple oracles *)
Definition no_index (_ : pyval) : option Z := None.
Definition no_float (_ : pyval) : option f64 := None.
Definition shown_text (_ : pyval) : str := lit "<object>".
Definition name_of (v : pyval) : option str := match v with PInt _ => Some (lit "int") | PStr _ => Some (lit "str") | _ => None end.
Definition same_text (s : str) : str := s.
Definition json_text (v : pyval) : option json :=
  match v with PInt z => Some (JInt z) | PStr s => Some (JStr s) | PDict [] => Some (JObj []) | _ => Some (JStr (lit "?")) end.
(** Rust's Display of the two floats used below. *)
Definition ex_float (f : f64) : str :=
  match f with S754_finite false m e => if (e =? 12) then lit "18446744073709552000" else lit "1.1" | _ => lit "0" end.
Definition ex_obj : pyval := PObj 7 [].
Definition ex_to_float (v : pyval) : option f64 :=
  match v with PObj 7 [] => Some (S754_finite false 4953959590107546 (-52)) | _ => None end.
Definition ex_url : str := lit "https://errors.pydantic.dev/2.11/v/".

Definition gt_row := row_of (lit "greater_than").
Definition missing_row := row_of (lit "missing").
Definition too_short_row := row_of (lit "too_short").
Definition tag_row := row_of (lit "union_tag_invalid").
Definition multiple_row := row_of (lit "multiple_of").
Definition line_of (e : error_type) (loc : location) (v : pyval) : line := {| l_type := e; l_loc := loc; l_input := v |}.
Definition verr (ls : list line) : verror := {| v_lines := ls; v_title := PStr (lit "Model"); v_input_type := ITPython; v_hide_input := false |}.
Definition ex_lines : list line :=
  [line_of (Known gt_row [FNum (NInt 5)] None) (LRev [LInt 2; LStr (lit "a.b")]) (PInt 3);
   line_of (Known missing_row [] None) LEmpty (PStr (lit "x"));
   line_of (Known too_short_row [FStr (lit "List"); FInt 1; FInt 0] (Some [(PStr (lit "actual_length"), PInt 0); (PStr (lit "min_length"), PBool true); (PStr (lit "field_type"), PStr (lit "List")); (PStr (lit "note"), PNone)])) LEmpty PNone].

(** A value with three known errors meets the hypotheses of C65, and is rebuilt. *)
Lemma row_of_in t : valid_type t = true -> In (row_of t) table.
Proof. unfold valid_type, row_of. destruct (lookup t) as [r|] eqn:L; [intros _|discriminate]. apply lookup_some in L. exact (proj1 L). Qed.
Example C65_nonvacuous :
  Forall (fun l => raised no_index no_float (l_type l) /\ loc_ok (l_loc l)) ex_lines
  /\ (exists v', rebuild no_index no_float ex_float shown_text shown_text ex_url true (verr ex_lines) = Ok v' /\ v' <> verr ex_lines)
  /\ option_map (fun d => dict_get (PStr (lit "note")) d) (match ex_lines with [_; _; l] => py_dict (l_type l) | _ => None end) = Some (Some PNone).
Proof.
  split; [|split].
  - repeat apply Forall_cons; try apply Forall_nil.
    + split.
      * apply raised_validator; [apply row_of_in; vm_compute; reflexivity| |repeat constructor].
        change (map snd (r_fields gt_row)) with [TNum]. constructor; [|constructor]. apply ht_int. unfold in_Z. lia.
      * cbn [loc_ok l_loc line_of]. split; [discriminate|]. constructor; [unfold in_Z; lia|]. constructor; [exact I|constructor].
    + split; [|exact I]. apply raised_validator; [apply row_of_in; vm_compute; reflexivity| |constructor]. change (map snd (r_fields missing_row)) with (@nil ctx_ty). constructor.
    + split; [|exact I].
      apply (raised_named no_index no_float (lit "too_short") (Some [(PStr (lit "actual_length"), PInt 0); (PStr (lit "min_length"), PBool true); (PStr (lit "field_type"), PStr (lit "List")); (PStr (lit "note"), PNone)])).
      * exists [lit "actual_length"; lit "min_length"; lit "field_type"; lit "note"]. split; [|reflexivity].
        apply nodup_str_NoDup. vm_compute. reflexivity.
      * vm_compute. reflexivity.
  - eexists. split; [vm_compute; reflexivity|]. vm_compute. discriminate.
  - vm_compute. reflexivity.
Qed.

(** The message of the third error, and its place in the text. *)
Example C66_nonvacuous :
  render_message no_index ex_float shown_text ITPython (Known too_short_row [FStr (lit "List"); FInt 1; FInt 0] None)
    = Ok (lit "List should have at least 1 item after validation, not 0")
  /\ render_message no_index ex_float shown_text ITPython (Known tag_row [FStr (lit "'kind'"); FStr (lit "cat"); FStr (lit "'{dog}'")] None)
    = Ok (lit "Input tag 'cat' found using 'kind' does not match any of the expected tags: '{dog}'")
  /\ render_message no_index ex_float shown_text ITPython (Custom (lit "t") (lit "{a} is not {b} {c}") (Some [(PStr (lit "a"), PInt 3); (PStr (lit "b"), PStr (lit "{a}"))]))
    = Ok (lit "3 is not {a} {c}").
Proof. vm_compute. repeat split; reflexivity. Qed.

Example C67_nonvacuous :
  display no_index ex_float shown_text shown_text name_of same_text [] ex_url false
    {| v_lines := firstn 2 ex_lines; v_title := PStr (lit "Model"); v_input_type := ITPython; v_hide_input := true |}
  = Some (lit "2 validation errors for Model" ++ newline
          ++ lit "`a.b`.2" ++ newline ++ lit "  Input should be greater than 5 [type=greater_than]" ++ newline
          ++ lit "  Field required [type=missing]").
Proof. vm_compute. reflexivity. Qed.

(** Finding: a ValidationError with a custom error can be pickled but not unpickled:
    KeyError. *)
Theorem C65_custom_refuted :
  exists v ds, errors no_index ex_float shown_text ex_url true true true v = Ok ds
    /\ rebuild no_index no_float ex_float shown_text shown_text ex_url true v = Raise KeyError.
Proof. exists (verr [line_of (Custom (lit "my_error") (lit "no good") None) LEmpty PNone]). eexists. split; [vm_compute; reflexivity|]. vm_compute. reflexivity. Qed.
Print Assumptions C65_custom_refuted.

(** Finding: a custom error with the name of a known one comes back as the known
    one, with another message. *)
Theorem C65_custom_named_refuted :
  exists v v' d d', errors no_index ex_float shown_text ex_url false true true v = Ok [d]
    /\ rebuild no_index no_float ex_float shown_text shown_text ex_url true v = Ok v'
    /\ errors no_index ex_float shown_text ex_url false true true v' = Ok [d']
    /\ d_msg d = lit "no good" /\ d_msg d' = lit "Field required".
Proof.
  exists (verr [line_of (Custom (lit "missing") (lit "no good") None) LEmpty PNone]). eexists. eexists. eexists.
  split; [vm_compute; reflexivity|]. split; [vm_compute; reflexivity|]. split; [vm_compute; reflexivity|]. split; reflexivity.
Qed.
Print Assumptions C65_custom_named_refuted.

(** Finding: a limit beyond 64 bits is a float in the rebuilt error: its message
    shows another number. *)
Theorem C65_big_limit_refuted :
  exists v v' d d', errors no_index ex_float shown_text ex_url false true true v = Ok [d]
    /\ rebuild no_index no_float ex_float shown_text shown_text ex_url true v = Ok v'
    /\ errors no_index ex_float shown_text ex_url false true true v' = Ok [d']
    /\ d_msg d = lit "Input should be greater than 18446744073709551616"
    /\ d_msg d' = lit "Input should be greater than 18446744073709552000".
Proof.
  exists (verr [line_of (Known gt_row [FNum (NBig (2 ^ 64))] None) LEmpty (PInt 3)]). eexists. eexists. eexists.
  split; [vm_compute; reflexivity|]. split; [vm_compute; reflexivity|]. split; [vm_compute; reflexivity|]. split; vm_compute; reflexivity.
Qed.
Print Assumptions C65_big_limit_refuted.

(** Finding: with a limit beyond the floats, unpickling raises TypeError. *)
Theorem C65_huge_limit_refuted :
  exists v, rebuild no_index no_float ex_float shown_text shown_text ex_url true v = Raise TypeError
    /\ Forall (fun l => exists r vals, l_type l = Known r vals None /\ Forall2 has_type (map snd (r_fields r)) vals) (v_lines v).
Proof.
  exists (verr [line_of (Known gt_row [FNum (NBig (2 ^ 1100))] None) LEmpty (PInt 3)]). split; [vm_compute; reflexivity|].
  constructor; [|constructor]. exists gt_row, [FNum (NBig (2 ^ 1100))]. split; [reflexivity|].
  change (map snd (r_fields gt_row)) with [TNum]. constructor; [|constructor]. apply ht_big. intros [_ H]. vm_compute in H. discriminate.
Qed.
Print Assumptions C65_huge_limit_refuted.

(** Finding: decimal.rs:205-257 gives the limit as text in the message and as Decimal
    in the context; the rebuilt error shows the Decimal as a float. *)
Theorem C65_decimal_limit_refuted :
  exists v v' d d', errors no_index ex_float shown_text ex_url false true true v = Ok [d]
    /\ rebuild no_index ex_to_float ex_float shown_text shown_text ex_url true v = Ok v'
    /\ errors no_index ex_float shown_text ex_url false true true v' = Ok [d']
    /\ d_msg d = lit "Input should be a multiple of 1.10" /\ d_msg d' = lit "Input should be a multiple of 1.1".
Proof.
  exists (verr [line_of (Known multiple_row [FNum (NStr (lit "1.10"))] (Some [(PStr (lit "multiple_of"), ex_obj)])) LEmpty (PInt 3)]). eexists. eexists. eexists.
  split; [vm_compute; reflexivity|]. split; [vm_compute; reflexivity|]. split; [vm_compute; reflexivity|]. split; vm_compute; reflexivity.
Qed.
Print Assumptions C65_decimal_limit_refuted.

(** Finding: the tag of an input is text of the template in turn. *)
Theorem C66_tag_refuted :
  render_message no_index ex_float shown_text ITPython (Known tag_row [FStr (lit "'kind'"); FStr (lit "{expected_tags}"); FStr (lit "'cat'")] None)
  = Ok (lit "Input tag ''cat'' found using 'kind' does not match any of the expected tags: 'cat'").
Proof. vm_compute. reflexivity. Qed.
Print Assumptions C66_tag_refuted.

(** Finding: so are the values of a custom error's context, and the order of the
    context decides. *)
Theorem C66_custom_order_refuted :
  exists a b, render_message no_index ex_float shown_text ITPython (Custom (lit "t") (lit "{a}") (Some [a; b])) = Ok (lit "3")
    /\ render_message no_index ex_float shown_text ITPython (Custom (lit "t") (lit "{a}") (Some [b; a])) = Ok (lit "{b}").
Proof. exists (PStr (lit "a"), PStr (lit "{b}")), (PStr (lit "b"), PInt 3). split; vm_compute; reflexivity. Qed.
Print Assumptions C66_custom_order_refuted.

(** Finding: [json()] gives a url for a custom error, [errors()] does not. *)
Theorem C67_custom_url_refuted :
  exists v d l, errors no_index ex_float shown_text ex_url true true true v = Ok [d] /\ d_url d = None
    /\ to_json no_index ex_float shown_text json_text ex_url true true true v = Ok (JArr [JObj l])
    /\ In (lit "url", JStr (ex_url ++ lit "my_error")) l.
Proof.
  exists (verr [line_of (Custom (lit "my_error") (lit "no good") None) LEmpty PNone]). eexists. eexists.
  split; [vm_compute; reflexivity|]. split; [reflexivity|]. split; [vm_compute; reflexivity|]. right. right. right. right. left. vm_compute. reflexivity.
Qed.
Print Assumptions C67_custom_url_refuted.

(** Finding: entries of a custom error's context with the names of the error's own
    two fields are not reported. *)
Theorem C67_custom_context_refuted :
  exists c, c <> [] /\ py_dict (Custom (lit "my_error") (lit "no good") (Some c)) = Some [].
Proof. exists [(PStr (lit "error_type"), PInt 1); (PStr (lit "message_template"), PInt 2)]. split; [discriminate|]. vm_compute. reflexivity. Qed.
Print Assumptions C67_custom_context_refuted.

(** Finding: with a title that is not a string ([from_exception_data] takes any
    object), [str(error)] panics. *)
Theorem C67_title_refuted :
  exists v, from_exception_data no_index no_float shown_text (PInt 3) [] (lit "python") false = Ok v
    /\ display no_index ex_float shown_text shown_text name_of same_text [] ex_url true v = None.
Proof. exists {| v_lines := []; v_title := PInt 3; v_input_type := ITPython; v_hide_input := false |}. split; vm_compute; reflexivity. Qed.
Print Assumptions C67_title_refuted.

(** Finding: the text of a place does not tell an index from a key. *)
Theorem C67_place_refuted : exists l l', loc_ok l /\ loc_ok l' /\ l <> l' /\ show_loc l = show_loc l'.
Proof.
  exists (LRev [LInt 1]), (LRev [LStr (lit "1")]). split; [|split; [|split]].
  - split; [discriminate|]. constructor; [unfold in_Z; lia|constructor].
  - split; [discriminate|]. constructor; [exact I|constructor].
  - discriminate.
  - vm_compute. reflexivity.
Qed.
Print Assumptions C67_place_refuted.
