(** Proofs about error messages and reports: rebuilding a [ValidationError], the
    messages of known and custom errors, the agreement of the reports. *)
From Coq Require Import List NArith ZArith Bool Lia.
From Verif Require Import Base Float64 Values Decimal VState ErrTable ErrReport ErrReportSpec ErrReportProofs ErrReportProofs2.
Import ListNotations.
Open Scope Z_scope.

Section S.
Variable as_index : pyval -> option Z.
Variable as_float : pyval -> option f64.
Variable show_float : f64 -> str.
Variable py_str : pyval -> str.
Variable py_repr : pyval -> str.
Variable type_name : pyval -> option str.
Variable abbreviate : str -> str.
Variable infer_json : pyval -> option json.
Variable exn_text : str.
Notation render := (render_message as_index show_float py_str).
Notation errs := (errors as_index show_float py_str).
Notation raised' := (raised as_index as_float).

(** * Locations *)
Lemma loc_item_back i : match i with LInt z => in_Z (- 2 ^ 63) (2 ^ 63) z | LStr _ => True end ->
  loc_item_of_py as_index py_repr (loc_item_py i) = i.
Proof.
  destruct i as [s|z]; [reflexivity|]. intros [H1 H2]. unfold loc_item_of_py. cbn [loc_item_py bare].
  unfold extract_i64, extract_int, index_of, in_range. cbn [bare].
  rewrite (proj2 (Z.leb_le _ _) H1), (proj2 (Z.ltb_lt _ _) H2). reflexivity.
Qed.
Lemma loc_back l : loc_ok l -> loc_of_py as_index py_repr (Some (loc_py l)) = Ok l.
Proof.
  destruct l as [|l]; [reflexivity|]. intros [N F]. unfold loc_of_py, loc_py. cbn [bare loc_items].
  assert (M : map (loc_item_of_py as_index py_repr) (map loc_item_py (rev l)) = rev l).
  { assert (F' : Forall (fun i => match i with LInt z => in_Z (- 2 ^ 63) (2 ^ 63) z | LStr _ => True end) (rev l)).
    { rewrite Forall_forall in *. intros i I. apply F. apply in_rev. exact I. }
    clear - F'. induction F' as [|i is H F IH]; [reflexivity|]. cbn [map]. rewrite IH. f_equal. apply loc_item_back. exact H. }
  destruct (map loc_item_py (rev l)) as [|v vs] eqn:E.
  - destruct l as [|i l]; [contradiction N; reflexivity|]. cbn [rev] in E. rewrite map_app in E.
    symmetry in E. apply app_cons_not_nil in E. destruct E.
  - rewrite M, rev_involutive. reflexivity.
Qed.

(** * Rebuilding *)
Definition twin (l l' : line) : Prop :=
  l_loc l' = l_loc l /\ l_input l' = l_input l /\ type_string (l_type l') = type_string (l_type l)
  /\ is_custom (l_type l') = is_custom (l_type l) /\ py_dict (l_type l') = py_dict (l_type l)
  /\ forall it, render it (l_type l') = render it (l_type l).
Definition twins (v v' : verror) : Prop :=
  v_title v' = v_title v /\ v_input_type v' = v_input_type v /\ v_hide_input v' = v_hide_input v
  /\ Forall2 twin (v_lines v) (v_lines v').

Lemma line_rebuilt prefix it l : raised' (l_type l) -> loc_ok (l_loc l) ->
  exists d l', as_dict as_index show_float py_str prefix true it true l = Ok d
    /\ line_of_data as_index as_float py_repr (data_of_details d) = Ok l' /\ twin l l'.
Proof.
  intros R K. destruct (raised_rebuilt as_index as_float (l_type l) R) as (e' & E & D & r & vals & c & c' & El & Ee).
  unfold as_dict. rewrite El. cbn [render_message bind]. eexists. eexists. split; [reflexivity|].
  unfold line_of_data, data_of_details. cbn [i_type i_ctx i_loc i_input d_type d_ctx d_loc d_input].
  assert (N : match option_map PDict (py_dict (Known r vals c)) with
              | None => new_error as_index as_float (type_string (Known r vals c)) None
              | Some c0 => match bare c0 with PDict d => new_error as_index as_float (type_string (Known r vals c)) (Some d) | _ => Raise TypeError end
              end = Ok e').
  { rewrite El in E. destruct (py_dict (Known r vals c)) as [d|]; cbn [option_map bare]; exact E. }
  rewrite N. cbn [bind]. rewrite loc_back by exact K. cbn [bind]. split; [reflexivity|].
  unfold twin. cbn [l_type l_loc l_input]. rewrite El in *. subst e'. repeat split. exact D.
Qed.

Lemma itype_back it : itype_of_name (itype_name it) = Ok it.
Proof. destruct it; reflexivity. Qed.

Lemma rebuilt url env v : Forall (fun l => raised' (l_type l) /\ loc_ok (l_loc l)) (v_lines v) ->
  exists v', rebuild as_index as_float show_float py_str py_repr url env v = Ok v' /\ twins v v'.
Proof.
  intro F. unfold rebuild, errors.
  assert (H : exists ds ls, map_res (as_dict as_index show_float py_str (if env then Some url else None) true (v_input_type v) true) (v_lines v) = Ok ds
    /\ map_res (line_of_data as_index as_float py_repr) (map data_of_details ds) = Ok ls /\ Forall2 twin (v_lines v) ls).
  { clear - F. induction F as [|l ls [R K] F IH].
    - exists [], []. repeat split. constructor.
    - destruct IH as (ds & ls' & A & B & T). destruct (line_rebuilt (if env then Some url else None) (v_input_type v) l R K) as (d & l' & A1 & B1 & T1).
      exists (d :: ds), (l' :: ls'). cbn [map_res map]. rewrite A1, A. cbn [bind]. split; [reflexivity|]. rewrite B1, B. cbn [bind]. split; [reflexivity|].
      constructor; assumption. }
  destruct H as (ds & ls & A & B & T). rewrite A. cbn [bind]. unfold from_exception_data. rewrite B. cbn [bind]. rewrite itype_back. cbn [bind].
  eexists. split; [reflexivity|]. repeat split. cbn [v_lines]. exact T.
Qed.

Lemma twins_same v v' : twins v v' ->
  (forall url u c i, errs url u c i v' = errs url u c i v)
  /\ (forall url u c i, to_json as_index show_float py_str infer_json url u c i v' = to_json as_index show_float py_str infer_json url u c i v)
  /\ (forall url u, display as_index show_float py_str py_repr type_name abbreviate exn_text url u v' = display as_index show_float py_str py_repr type_name abbreviate exn_text url u v).
Proof.
  intros (Et & Ei & Eh & T).
  assert (L : length (v_lines v') = length (v_lines v)) by (symmetry; apply (Forall2_len _ _ _ T)).
  split; [|split].
  - intros url u c i. unfold errors. rewrite Ei. generalize (if u then Some url else None). intro p. clear Et Ei Eh L.
    induction T as [|l l' ls ls' (A & B & C & D & E & F) T IH]; [reflexivity|]. cbn [map_res].
    unfold as_dict at 1 3. rewrite F, A, B, C, D, E, IH. unfold error_url. rewrite C. reflexivity.
  - intros url u c i. unfold to_json. rewrite Ei. generalize (if u then Some url else None). intro p. f_equal. clear Et Ei Eh L.
    induction T as [|l l' ls ls' (A & B & C & D & E & F) T IH]; [reflexivity|]. cbn [map_res].
    unfold line_json at 1 3. rewrite F, A, B, C, E, IH. unfold error_url. rewrite C. reflexivity.
  - intros url u. unfold display, error_count. rewrite Et, Ei, Eh, L. destruct (bare (v_title v)); try reflexivity.
    do 8 f_equal. generalize (if u then Some url else None). intro p. clear Et Ei Eh L.
    induction T as [|l l' ls ls' (A & B & C & D & E & F) T IH]; [reflexivity|]. cbn [map]. f_equal; [|exact IH].
    unfold pretty. rewrite F, A, B, C, D. unfold error_url. rewrite C. reflexivity.
Qed.

(** * Messages *)
Lemma template_of_ok keys t : template_ok keys t = true ->
  template_of t (parse [] t false) /\ Forall (fun p => match p with Hole k => In k keys | Text _ => True end) (parse [] t false).
Proof.
  unfold template_ok. generalize (parse [] t false). intros ps H. apply andb_prop in H. destruct H as [E H]. apply str_eqb_eq in E.
  rewrite forallb_forall in H. split; [split; [exact E|]|]; apply Forall_forall; intros [s|k] I; try exact Logic.I.
  - specialize (H _ I). cbn [piece_ok] in H. apply negb_true_iff in H. exact (has_no 123 s H).
  - specialize (H _ I). cbn [piece_ok] in H. apply andb_prop in H. destruct H as [H _]. apply andb_prop in H. destruct H as [A B].
    apply negb_true_iff in A, B. split; [exact (has_no 123 k A)|exact (has_no 125 k B)].
  - specialize (H _ I). cbn [piece_ok] in H. apply andb_prop in H. destruct H as [_ H]. apply existsb_exists in H. destruct H as (k' & I' & E').
    apply str_eqb_eq in E'. subst k'. exact I'.
Qed.

Lemma row_templates it r : In r table -> template_ok (r_render r) (template it r) = true.
Proof.
  intro I. pose proof (row_ok_in r I) as H. unfold row_ok in H.
  apply andb_prop in H. destruct H as [H _]. apply andb_prop in H. destruct H as [H _]. apply andb_prop in H. destruct H as [A B].
  destruct it; cbn [template]; assumption.
Qed.
Lemma row_keys r k : In r table -> In k (r_render r) -> key_ok r k = true.
Proof.
  intros I K. pose proof (row_ok_in r I) as H. unfold row_ok in H. apply andb_prop in H. destruct H as [H _]. apply andb_prop in H. destruct H as [_ H].
  rewrite forallb_forall in H. apply H. exact K.
Qed.

Lemma render_filled it r vals c ps : In r table -> template_of (template it r) ps ->
  tame (map (shown show_float py_str r vals) (r_render r)) ->
  render it (Known r vals c) = Ok (filled (map (fun k => (k, shown show_float py_str r vals k)) (r_render r)) ps).
Proof.
  intros I [E G] T. cbn [render_message]. f_equal.
  rewrite <- (replace_all_filled _ ps).
  - unfold replace_all. rewrite E. generalize (template it r). induction (r_render r) as [|k ks IH]; intro m; [reflexivity|]. cbn [map fold_left fst snd].
    apply IH. unfold tame in *. cbn [map removelast] in T. destruct ks; [constructor|]. cbn [map] in *. inversion T; assumption.
  - apply Forall_forall. intros kv K. apply in_map_iff in K. destruct K as (k & <- & K). cbn [fst].
    pose proof (row_keys r k I K) as O. unfold key_ok in O. apply andb_prop in O. destruct O as [O _]. apply andb_prop in O. destruct O as [A B].
    apply negb_true_iff in A, B. split; [exact (has_no 123 k A)|exact (has_no 125 k B)].
  - rewrite map_map. cbn [snd]. exact T.
  - exact G.
Qed.

Lemma show_field_text f : text_of show_float py_str f (show_field show_float py_str f).
Proof. destruct f as [s|z|[z|z|x|s]|[z|]|[v|]]; constructor. Qed.

Lemma field_named_in k fs vals f : field_named k fs vals = Some f -> In (k, f) (combine (map fst fs) vals).
Proof.
  revert vals. induction fs as [|[k' t] fs IH]; intros [|v vals] H; try discriminate. cbn [field_named] in H. cbn [map fst combine].
  destruct (str_eqb_dec k' k) as [[E B]|[E B]]; rewrite B in H; [injection H as ->; subst; left; reflexivity|right; apply IH; exact H].
Qed.
Lemma field_named_some k t fs vals : length fs = length vals -> In (k, t) fs -> NoDup (map fst fs) -> Forall2 has_type (map snd fs) vals ->
  exists f, field_named k fs vals = Some f /\ has_type t f.
Proof.
  revert vals. induction fs as [|[k' t'] fs IH]; intros [|v vals] L I N T; try discriminate; [destruct I|].
  cbn [map snd fst] in *. inversion T as [|? ? ? ? T1 T2]; subst. inversion N as [|? ? N1 N2]; subst. cbn [field_named].
  destruct (str_eqb_dec k' k) as [[E B]|[E B]]; rewrite B.
  - exists v. split; [reflexivity|]. destruct I as [I|I]; [injection I as -> ->; exact T1|]. exfalso. apply N1. rewrite E. change k with (fst (k, t)). apply in_map. exact I.
  - destruct I as [I|I]; [injection I as -> _; contradiction E; reflexivity|]. apply IH; try assumption. injection L as L. exact L.
Qed.

Lemma shown_shows r vals k : In r table -> Forall2 has_type (map snd (r_fields r)) vals -> In k (r_render r) ->
  shows show_float py_str r vals k (shown show_float py_str r vals k).
Proof.
  intros I T K. pose proof (row_keys r k I K) as O. unfold key_ok in O. apply andb_prop in O. destruct O as [_ O].
  assert (L : length (r_fields r) = length vals) by (apply Forall2_len in T; rewrite map_length in T; exact T).
  pose proof (row_fields_nodup r I) as N. unfold shown.
  destruct (str_eqb_dec k (lit "expected_plural")) as [[E B]|[E B]]; rewrite B in *.
  - subst k. destruct (r_plural r) as [k'|] eqn:P; [|discriminate].
    apply existsb_exists in O. destruct O as ([k0 t] & F & O). cbn [fst snd] in O. apply andb_prop in O. destruct O as [O1 O2]. apply str_eqb_eq in O1. subst k0.
    destruct (field_named_some k' t (r_fields r) vals L F N T) as (f & Ef & Hf). rewrite Ef.
    assert (Z : exists z, f = FInt z) by (destruct t; try discriminate O2; inversion Hf; eexists; reflexivity).
    destruct Z as [z ->]. apply field_named_in in Ef. cbn [plural_s].
    destruct (Z.eqb_spec z 1) as [->|D]; [eapply sh_one; eassumption|eapply sh_many; eassumption].
  - apply existsb_exists in O. destruct O as ([k0 t] & F & O). cbn [fst] in O. apply str_eqb_eq in O. subst k0.
    destruct (field_named_some k t (r_fields r) vals L F N T) as (f & Ef & Hf). rewrite Ef. eapply sh_field; [apply field_named_in; exact Ef|apply show_field_text].
Qed.

Lemma value_of_map g ks k : In k ks -> value_of (map (fun k => (k, g k)) ks) k = Some (g k).
Proof.
  induction ks as [|k' ks IH]; intro I; [destruct I|]. cbn [map value_of].
  destruct (str_eqb_dec k' k) as [[E B]|[E B]]; rewrite B; [subst; reflexivity|]. apply IH. destruct I as [I|I]; [contradiction|exact I].
Qed.

(** The message of a known error, piece by piece. *)
Lemma known_message it r vals c : In r table -> Forall2 has_type (map snd (r_fields r)) vals ->
  tame (map (shown show_float py_str r vals) (r_render r)) ->
  exists ps ts, template_of (template it r) ps
    /\ Forall2 (fun p t => match p with Text s => t = s | Hole k => shows show_float py_str r vals k t end) ps ts
    /\ render it (Known r vals c) = Ok (concat ts).
Proof.
  intros I T Tm. pose proof (row_templates it r I) as O. apply template_of_ok in O. destruct O as [Tp H].
  set (ps := parse [] (template it r) false) in *.
  exists ps. exists (map (fun p => match p with Text s => s | Hole k => shown show_float py_str r vals k end) ps).
  split; [exact Tp|]. split.
  - clear Tp Tm. induction H as [|p ps' Hp H IH]; cbn [map]; constructor; [|exact IH].
    destruct p as [s|k]; [reflexivity|]. apply shown_shows; assumption.
  - rewrite (render_filled it r vals c ps I Tp Tm). f_equal. unfold filled. f_equal.
    clear Tp Tm. induction H as [|p ps' Hp H IH]; cbn [map]; [reflexivity|]. f_equal; [|exact IH].
    destruct p as [s|k]; [reflexivity|]. rewrite value_of_map by exact Hp. reflexivity.
Qed.

(** Custom errors. *)
Lemma custom_message t m ps it c kvs : template_of m ps ->
  Forall2 (fun kv e => bare (fst kv) = PStr (fst e) /\ snd e = show_ctx_value as_index py_str (snd kv)) c kvs ->
  Forall (fun e => no_brace (fst e)) kvs -> tame (map snd kvs) ->
  render it (Custom t m (Some c)) = Ok (filled kvs ps).
Proof.
  intros [E G] F K T. cbn [render_message]. rewrite <- (replace_all_filled kvs ps K T G). rewrite E. clear E K T.
  unfold replace_all. revert m. induction F as [|[k v] [k' v'] c kvs [A B] F IH]; intro m; [reflexivity|].
  cbn [fst snd format_message fold_left] in *. rewrite A, B. apply IH.
Qed.

(** * The reports *)
Lemma map_res_len {A B} (f : A -> res B) l bs : map_res f l = Ok bs -> length bs = length l.
Proof. intro H. apply map_res_Forall2 in H. symmetry. apply (Forall2_len _ _ _ H). Qed.

Lemma line_json_of p c it i l d : is_custom (l_type l) = false ->
  as_dict as_index show_float py_str p c it i l = Ok d -> forall j,
  line_json as_index show_float py_str infer_json p c it i l = Ok j <-> json_of infer_json d j.
Proof.
  intros Cu A j. unfold as_dict in A. destruct (render it (l_type l)) as [m|] eqn:Rm; [|discriminate]. cbn [bind] in A. injection A as <-.
  unfold line_json. rewrite Rm. cbn [bind]. rewrite Cu.
  assert (Lj : forall loc, map loc_item_py loc = map loc_item_py (loc_items (l_loc l)) -> loc = loc_items (l_loc l)).
  { generalize (loc_items (l_loc l)). intros b a. revert b. induction a as [|x a IH]; intros [|y b] E; try discriminate; [reflexivity|].
    cbn [map] in E. injection E as E1 E2. rewrite (IH b E2). f_equal. destruct x, y; cbn [loc_item_py] in E1; congruence. }
  split.
  - intro H.
    destruct (if i then _ else _) as [inp|] eqn:Ei in H; [|discriminate]. cbn [bind] in H.
    destruct (if c then _ else _) as [ctx|] eqn:Ec in H; [|discriminate]. cbn [bind] in H. injection H as <-.
    match goal with |- json_of _ ?d ?x =>
      assert (Ex : x = JObj ([(lit "type", JStr (d_type d));
              (lit "loc", JArr (map (fun i => match i with LStr s => JStr s | LInt z => JInt z end) (loc_items (l_loc l))));
              (lit "msg", JStr (d_msg d))] ++ inp ++ ctx ++ match d_url d with Some u => [(lit "url", JStr u)] | None => [] end))
        by (destruct p; reflexivity) end.
    rewrite Ex. clear Ex. apply jo; cbn [d_loc d_input d_ctx d_type d_msg d_url].
    + reflexivity.
    + destruct i; [|injection Ei as <-; reflexivity]. destruct (infer_json (l_input l)) as [j|]; [|discriminate]. injection Ei as <-. exists j. split; reflexivity.
    + destruct c; [|injection Ec as <-; reflexivity]. destruct (py_dict (l_type l)) as [dd|]; [|injection Ec as <-; reflexivity].
      destruct (infer_json (PDict dd)) as [j|]; [|discriminate]. injection Ec as <-. exists j. split; reflexivity.
  - intro J. inversion J as [d loc inp ctx E1 E2 E3 Ed Ej]. subst d. cbn [d_loc d_input d_ctx d_type d_msg d_url] in *.
    injection E1 as E1. symmetry in E1. apply Lj in E1. subst loc.
    assert (Ei : (if i then match infer_json (l_input l) with Some j => Ok [(lit "input", j)] | None => Raise ValueErr end else Ok []) = Ok inp).
    { destruct i; [|rewrite E2; reflexivity]. destruct E2 as (x & -> & ->). reflexivity. }
    rewrite Ei. cbn [bind].
    assert (Ec : (if c then match py_dict (l_type l) with Some d => match infer_json (PDict d) with Some j => Ok [(lit "ctx", j)] | None => Raise ValueErr end | None => Ok [] end else Ok []) = Ok ctx).
    { destruct c; [|rewrite E3; reflexivity]. destruct (py_dict (l_type l)); [|rewrite E3; reflexivity]. destruct E3 as (x & -> & ->). reflexivity. }
    rewrite Ec. cbn [bind]. destruct p; reflexivity.
Qed.

Lemma pretty_block p c i it l d : as_dict as_index show_float py_str p c it i l = Ok d -> loc_ok (l_loc l) ->
  pretty as_index show_float py_str py_repr type_name abbreviate exn_text it p true l = block d.
Proof.
  intros A K. unfold as_dict in A. destruct (render it (l_type l)) as [m|] eqn:Rm; [|discriminate]. cbn [bind] in A. injection A as <-.
  unfold pretty, block. rewrite Rm. cbn [d_loc d_msg d_type d_url].
  assert (P : show_loc (l_loc l) = place_text (loc_py (l_loc l))).
  { destruct (l_loc l) as [|ll]; [reflexivity|]. destruct K as [N _]. unfold place_text, loc_py, show_loc. cbn [loc_items].
    assert (M : map item_text (map loc_item_py (rev ll)) = map show_loc_item (rev ll)).
    { rewrite map_map. apply map_ext. intros [s|z]; reflexivity. }
    destruct (map loc_item_py (rev ll)) as [|v vs] eqn:E; [|apply (f_equal (fun x => join (lit ".") x ++ newline)); symmetry; exact M].
    exfalso. destruct ll as [|x ll]; [contradiction N; reflexivity|]. cbn [rev] in E. rewrite map_app in E. symmetry in E. apply app_cons_not_nil in E. exact E. }
  rewrite P. cbn [app]. destruct p as [p|]; [|reflexivity]. destruct (is_custom (l_type l)); reflexivity.
Qed.
(** * Tame values *)
Lemma dec_Z_plain z : no_open (dec_Z z).
Proof.
  assert (D : forall n, no_open (dec_N n)).
  { intros n I. pose proof (dec_N_digits n) as F. rewrite Forall_forall in F. specialize (F _ I). discriminate F. }
  unfold dec_Z. destruct z; [intros [I|[]]; discriminate|apply D|]. intros [I|I]; [discriminate|exact (D _ I)].
Qed.
Definition front_ok (r : row) (k : str) : bool :=
  negb (str_eqb k (last (r_render r) [])) &&
  (str_eqb k (lit "expected_plural") ||
   forallb (fun kt => negb (str_eqb (fst kt) k) || match snd kt with TNum | TOptObj => false | _ => true end) (r_fields r)).
Lemma fronts_ok : forallb (fun r => forallb (front_ok r) (removelast (r_render r))) table = true.
Proof. vm_compute. reflexivity. Qed.
Lemma removelast_map {A B} (f : A -> B) l : removelast (map f l) = map f (removelast l).
Proof. induction l as [|a l IH]; [reflexivity|]. destruct l; [reflexivity|]. cbn [map removelast] in *. f_equal. exact IH. Qed.
Lemma field_typed k fs vals f : Forall2 has_type (map snd fs) vals -> field_named k fs vals = Some f -> exists t, In (k, t) fs /\ has_type t f.
Proof.
  revert vals. induction fs as [|[k' t] fs IH]; intros [|v vals] T H; try discriminate. cbn [field_named map snd] in *. inversion T as [|? ? ? ? T1 T2]; subst.
  destruct (str_eqb_dec k' k) as [[E B]|[E B]]; rewrite B in H.
  - injection H as ->. subst. exists t. split; [left; reflexivity|exact T1].
  - destruct (IH vals T2 H) as (t' & I & X). exists t'. split; [right; exact I|exact X].
Qed.
Lemma shown_tame r vals : In r table -> Forall2 has_type (map snd (r_fields r)) vals ->
  (forall k s, In (k, FStr s) (combine (map fst (r_fields r)) vals) -> k <> last (r_render r) [] -> no_open s) ->
  tame (map (shown show_float py_str r vals) (r_render r)).
Proof.
  intros I T H. unfold tame. rewrite removelast_map. apply Forall_forall. intros t K. apply in_map_iff in K. destruct K as (k & <- & K).
  pose proof fronts_ok as F. rewrite forallb_forall in F. specialize (F r I). rewrite forallb_forall in F. specialize (F k K).
  unfold front_ok in F. apply andb_prop in F. destruct F as [F1 F2]. apply negb_true_iff in F1. apply str_eqb_neq in F1. unfold shown.
  destruct (str_eqb k (lit "expected_plural")).
  - unfold plural_s. destruct (match r_plural r with Some _ => _ | None => _ end) as [[| z | | | ]|]; try (intros [X|[]]; discriminate).
    destruct (z =? 1); [intros []|intros [X|[]]; discriminate].
  - cbn [orb] in F2. destruct (field_named k (r_fields r) vals) as [f|] eqn:E; [|intros []].
    destruct (field_typed k (r_fields r) vals f T E) as (t & It & Ht). rewrite forallb_forall in F2. specialize (F2 _ It). cbn [fst snd] in F2.
    rewrite str_eqb_refl in F2. cbn [negb orb] in F2. apply field_named_in in E.
    inversion Ht; subst; try discriminate F2; cbn [show_field]; try apply dec_Z_plain.
    + exact (H k s E F1).
    + intro X. repeat (destruct X as [X|X]; [discriminate|]). exact X.
Qed.
End S.
