(** C91: what ints, floats, strings and literals are written as. *)
From Coq Require Import List NArith ZArith Bool Lia.
From Verif Require Import Base Float64 Utf8 Decimal Values BytesCodec Filter LookupKey Classes.
From Verif Require Import SerBase Ser SerSpec SerFieldsSpec SerProps.
Import ListNotations.
Open Scope nat_scope.

(** ** Vocabulary *)
(** The number that an int, a bool or an instance of a subclass of int is. *)
Inductive number : pyval -> Z -> Prop :=
| N_int z : number (PInt z) z
| N_sub c z : number (PSub c (PInt z)) z
| N_true : number (PBool true) 1
| N_false : number (PBool false) 0.
(** The float that a float or an instance of a subclass is. *)
Inductive floating : pyval -> f64 -> Prop :=
| F_float f : floating (PFloat f) f
| F_sub c f : floating (PSub c (PFloat f)) f.
Inductive text : pyval -> str -> Prop :=
| T_str s : text (PStr s) s
| T_sub c s : text (PSub c (PStr s)) s.
Definition exact_type (v : pyval) : Prop := match v with PSub _ _ | PBool _ => False | _ => True end.
(** The values a Literal usually has. *)
Definition simple_value (v : pyval) : Prop :=
  match v with
  | PNone | PBool _ => True
  | PInt z => (- 9223372036854775808 <= z <= 9223372036854775807)%Z
  | PStr s => forallb scalar s = true
  | _ => False
  end.

(** ** Ints: an int schema writes the number, without warnings; a bool is written as 0 or 1
    in JSON and stays what it is in Python. *)
Theorem C91_int : forall E c o v z, number v z ->
  to_json E SerInt c o v = Returned (JInt z) [] /\
  to_python E SerInt c true o v = Returned (PInt z) [] /\
  to_python E SerInt c false o v = if match v with PInt _ => true | _ => false end then Returned v [] else to_python E SerAny c false o v.
Proof.
  intros E c o v z H. unfold to_json, to_python, final_check.
  destruct H; (split; [|split]); cbn -[levels ser_limit]; destruct (o_warnings o); reflexivity.
Qed.
Print Assumptions C91_int.
(** Floats: the mode for infinities and nan decides; ints are written as the nearest float. *)
Theorem C91_float : forall E m c o v f, floating v f ->
  to_json E (SerFloat m) c o v = Returned (if f_is_nan f || f_is_infinite f
    then match m with INull => JNull | IConstants => JFloat f | IStrings => JStr (if f_is_nan f then lit "NaN" else match f with S754_infinity false => lit "Infinity" | _ => lit "-Infinity" end) end
    else JFloat f) [] /\
  to_python E (SerFloat m) c true o v = Returned (PFloat f) [] /\
  to_python E (SerFloat m) c false o v = if match v with PFloat _ => true | _ => false end then Returned v [] else to_python E SerAny c false o v.
Proof.
  intros E m c o v f H. unfold to_json, to_python, final_check.
  destruct H; (split; [|split]); cbn -[levels ser_limit]; destruct (o_warnings o); reflexivity.
Qed.
Print Assumptions C91_float.
Theorem C91_int_as_float : forall E m c o v z, number v z -> f_is_finite (f_of_Z z) = true ->
  to_json E (SerFloat m) c o v = Returned (JFloat (f_of_Z z)) [] /\
  to_python E (SerFloat m) c true o v = Returned (PFloat (f_of_Z z)) [] /\
  to_python E (SerFloat m) c false o v = to_python E SerAny c false o v.
Proof.
  intros E m c o v z H F. unfold to_json, to_python, final_check.
  assert (NF : float_js m (f_of_Z z) = JFloat (f_of_Z z)).
  { unfold float_js, nonfinite. destruct (f_of_Z z); try discriminate F; reflexivity. }
  assert (G : get_float v = Some (f_of_Z z)) by (destruct H; cbn -[f_of_Z]; now rewrite F).
  assert (T : is_float_type v = Subclass) by (destruct H; reflexivity).
  cbn -[levels ser_limit]. rewrite T, G. cbn -[levels ser_limit]. rewrite NF. split; [|split]; destruct (o_warnings o); reflexivity.
Qed.
Print Assumptions C91_int_as_float.
(** Strings. *)
Theorem C91_str : forall E c o v s, text v s -> forallb scalar s = true ->
  to_json E SerStr c o v = Returned (JStr s) [] /\ to_python E SerStr c true o v = Returned (PStr s) [] /\ to_python E SerStr c false o v = Returned v [].
Proof.
  intros E c o v s H S. unfold to_json, to_python, final_check.
  destruct H; (split; [|split]); cbn -[levels ser_limit]; unfold to_str; rewrite ?S; cbn; destruct (o_warnings o); reflexivity.
Qed.
Print Assumptions C91_str.

(** ** Literals as members of a union: the attempt succeeds iff the value is among the
    expected ones; None always passes, and 0 and 1 pass for False and True. *)
Definition allowed (expected : list pyval) (v : pyval) : Prop :=
  In v expected \/ v = PNone \/ exists b, v = PInt (Z.b2z b) /\ In (PBool b) expected.
Lemma level_simple E n v inc exc x : simple_value v -> enter v None x <> None -> l_py (levels E (S n)) v inc exc x = ret v.
Proof.
  intros S En. assert (Q : l_py (levels E (Datatypes.S n)) v inc exc x = match enter v None x with
     | Some x' => infer_py_body E (levels E n) (fun s => z_py (build E (levels E n) s)) v inc exc x' | None => guard_failed_py v x end).
  { cbn [levels]. unfold next_level. destruct (e_stack E); reflexivity. }
  rewrite Q. destruct (enter v None x) as [x'|]; [|now contradiction En]. destruct v; try contradiction; reflexivity.
Qed.
Lemma i64_simple z : simple_value (PInt z) -> i64 z = true.
Proof. intros [A B]. unfold i64. apply andb_true_iff. split; now apply Z.leb_le. Qed.
Lemma in_ints l z : Forall simple_value l -> existsb (Z.eqb z) (lit_ints l) = true <-> In (PInt z) l.
Proof.
  intros F. induction F as [|e l S F IH]; [split; [discriminate|contradiction]|].
  unfold lit_ints in *. cbn [flat_map]. rewrite existsb_app, orb_true_iff, IH. cbn [In]. destruct e; try contradiction; cbn [lit_int base existsb].
  1,2,4: split; [intros [H|H]; [discriminate|now right]|intros [H|H]; [discriminate|now right]].
  unfold lit_int. cbn [base]. rewrite (i64_simple _ S). cbn [existsb]. rewrite orb_false_r, Z.eqb_eq. split; (intros [H|H]; [left; congruence|now right]).
Qed.
Lemma in_strs l s : Forall simple_value l -> mem_str s (lit_strs l) = true <-> In (PStr s) l.
Proof.
  intros F. unfold mem_str. induction F as [|e l S F IH]; [split; [discriminate|contradiction]|].
  unfold lit_strs in *. cbn [flat_map]. rewrite existsb_app, orb_true_iff, IH. cbn [In]. destruct e; try contradiction; unfold lit_int, down_str; cbn [base existsb].
  1,2: split; [intros [H|H]; [discriminate|now right]|intros [H|H]; [discriminate|now right]].
  - rewrite (i64_simple _ S). cbn. split; [intros [H|H]; [discriminate|now right]|intros [H|H]; [discriminate|now right]].
  - cbn [existsb]. rewrite orb_false_r, str_eqb_eq. split; (intros [H|H]; [left; congruence|now right]).
Qed.
Lemma in_others l v : Forall simple_value l -> existsb (fun e => py_eq e v) (lit_others l) = true <-> exists e, In e l /\ (e = PNone \/ exists b, e = PBool b) /\ py_eq e v = true.
Proof.
  intros F. rewrite existsb_exists. split.
  - intros (e & I & P). unfold lit_others in I. apply filter_In in I. destruct I as [I C]. exists e. split; [exact I|]. split; [|exact P].
    pose proof (proj1 (Forall_forall _ _) F e I) as S. destruct e; try contradiction; [now left|right; eauto| |discriminate].
    exfalso. unfold lit_int in C. cbn [base] in C. now rewrite (i64_simple _ S) in C.
  - intros (e & I & K & P). exists e. split; [|exact P]. apply filter_In. split; [exact I|]. destruct K as [->|[b ->]]; reflexivity.
Qed.
Lemma others_allowed l v : Forall simple_value l -> simple_value v ->
  existsb (fun e => py_eq e v) (lit_others l) = true <-> (v = PNone /\ In v l) \/ (exists b, v = PBool b /\ (In v l)) \/ exists b, v = PInt (Z.b2z b) /\ In (PBool b) l.
Proof.
  intros F S. rewrite (in_others l v F). split.
  - intros (e & I & K & P). destruct K as [->|[b ->]]; destruct v; try contradiction; try discriminate P.
    + left. split; [reflexivity|exact I].
    + right. left. exists b0. split; [reflexivity|]. destruct b, b0; try discriminate P; exact I.
    + right. right. exists b. split; [|exact I]. cbn in P. destruct b; apply Z.eqb_eq in P; cbn; congruence.
  - intros [[-> I]|[(b & -> & I)|(b & -> & I)]].
    + exists PNone. split; [exact I|]. split; [now left|reflexivity].
    + exists (PBool b). split; [exact I|]. split; [right; eauto|]. now destruct b.
    + exists (PBool b). split; [exact I|]. split; [right; eauto|]. now destruct b.
Qed.
Theorem C91_literal_member : forall E c json o v chk expected, Forall simple_value expected -> simple_value v -> chk <> CNone ->
  (allowed expected v -> attempt_with E c json o v chk (SerLiteral expected) = Good v) /\
  (~ allowed expected v -> attempt_with E c json o v chk (SerLiteral expected) = Bad EUnexpected).
Proof.
  intros E c json o v chk expected F S K. unfold attempt_with.
  set (x := set_check chk (start c json o)). assert (CE : check_enabled (x_check x) = true) by (cbn; destruct chk; [contradiction K; reflexivity|reflexivity|reflexivity]).
  assert (J : x_json x = json) by reflexivity.
  assert (LS : l_py (levels E ser_limit) v (o_include o) (o_exclude o) x = ret v) by (apply (level_simple E 254); [exact S|discriminate]).
  assert (FB : v <> PNone -> fall_py (levels E ser_limit) v (o_include o) (o_exclude o) x = fail EUnexpected).
  { intros N. unfold fall_py, on_fallback. rewrite CE. destruct v; try reflexivity. now contradiction N. }
  generalize dependent (levels E ser_limit). intros L LS FB. cbn [build literal_ser simple z_py]. unfold lit_check. rewrite CE.
  pose proof (others_allowed expected v F S) as O. destruct v as [|b|z| |s| | | | | | | |]; try contradiction.
  - assert (Z : lit_int PNone = None /\ down_str PNone = None) by (split; reflexivity). destruct Z as [-> ->].
    split; [intros _|intros N; exfalso; apply N; right; now left].
    destruct (existsb _ _); cbn [bind ret]; unfold fall_py, on_fallback, bind, ret in *; cbn; rewrite LS; reflexivity.
  - assert (Z : lit_int (PBool b) = None /\ down_str (PBool b) = None) by (split; reflexivity). destruct Z as [-> ->].
    assert (A : allowed expected (PBool b) <-> existsb (fun e => py_eq e (PBool b)) (lit_others expected) = true).
    { rewrite O. unfold allowed. split.
      - intros [I|[I|(b' & I & _)]]; [right; left; eauto|discriminate|discriminate].
      - intros [[I _]|[(b' & I & J')|(b' & I & _)]]; [discriminate|now left|discriminate]. }
    split; intros H.
    + apply A in H. rewrite H. unfold bind, ret in *. cbn. now rewrite LS.
    + destruct (existsb _ _); [exfalso; now apply H, A|]. unfold bind, ret in *. cbn. rewrite FB by discriminate. reflexivity.
  - assert (Z : lit_int (PInt z) = Some z) by (unfold lit_int; cbn [base]; now rewrite (i64_simple z S)). rewrite Z.
    pose proof (in_ints expected z F) as I.
    assert (A : allowed expected (PInt z) <-> existsb (Z.eqb z) (lit_ints expected) = true \/ existsb (fun e => py_eq e (PInt z)) (lit_others expected) = true).
    { rewrite I, O. unfold allowed. split.
      - intros [H|[H|H]]; [now left|discriminate|right; right; now right].
      - intros [H|[[H _]|[(b & H & _)|H]]]; [now left|discriminate|discriminate|right; now right]. }
    rewrite A. clear A I O. destruct (existsb (Z.eqb z) _); [split; [intros _; unfold bind, ret; cbn [fst snd app]; now destruct (x_json x)|intros H; exfalso; apply H; now left]|].
    destruct (existsb _ _).
    + split; [intros _|intros H; exfalso; apply H; now right]. unfold bind, ret in *. cbn. now rewrite LS.
    + split; [intros [H|H]; discriminate|]. intros _. unfold bind, ret in *. cbn. rewrite FB by discriminate. reflexivity.
  - assert (Z : lit_int (PStr s) = None /\ down_str (PStr s) = Some s) by (split; reflexivity). destruct Z as [-> ->].
    pose proof (in_strs expected s F) as I.
    assert (OF : existsb (fun e => py_eq e (PStr s)) (lit_others expected) = false).
    { destruct (existsb _ _); [|reflexivity]. destruct (proj1 O eq_refl) as [[H _]|[(b & H & _)|(b & H & _)]]; discriminate. }
    assert (A : allowed expected (PStr s) <-> mem_str s (lit_strs expected) = true).
    { rewrite I. unfold allowed. split; [intros [H|[H|(b & H & _)]]; [exact H|discriminate|discriminate]|now left]. }
    rewrite A, OF. clear A I O OF. destruct (lit_strs expected) as [|s0 ss]; cbn [is_nil].
    + split; [discriminate|]. intros _. unfold bind, ret in *. cbn. rewrite FB by discriminate. reflexivity.
    + cbn in S. unfold to_str. rewrite S. unfold bind, ret in *. cbn [snd fst app]. destruct (mem_str s (s0 :: ss)).
      * split; [intros _; cbn [fst snd app]; now destruct (x_json x)|intros H; now contradiction H].
      * split; [discriminate|]. intros _. cbn. rewrite FB by discriminate. reflexivity.
Qed.
Print Assumptions C91_literal_member.
(** Finding: outside of a union nothing is checked: any value is written as it is, and no
    warning is given. *)
Theorem C91_literal_unchecked : forall E c json o v expected, to_python E (SerLiteral expected) c json o v = to_python E SerAny c json o v /\
  to_json E (SerLiteral expected) c o v = to_json E SerAny c o v.
Proof.
  intros. unfold to_python, to_json. generalize (levels E ser_limit). intros L. cbn [build literal_ser simple any_ser z_py z_js]. unfold lit_check. cbn [start x_check check_enabled].
  unfold bind, ret. cbn. split; [destruct (l_py L v _ _ _) as [w r]|destruct (l_js L v _ _ _) as [w r]]; destruct r; reflexivity.
Qed.
Print Assumptions C91_literal_unchecked.
Theorem C91_literal_warns_refuted : exists expected v, ~ allowed expected v /\ to_python E0 (SerLiteral expected) conf true (with_warnings WWarn opts) v = Returned v [].
Proof. exists [PStr (lit "a")], (PStr (lit "b")). split; [|vm_compute; reflexivity]. intros [[H|[]]|[H|(b & H & _)]]; discriminate. Qed.
Print Assumptions C91_literal_warns_refuted.
(** Finding: 1 passes for True, but True does not pass for 1. *)
Theorem C91_literal_bool_refuted : attempt_with E0 conf true opts (PInt 1) CStrict (SerLiteral [PBool true]) = Good (PInt 1) /\
  attempt_with E0 conf true opts (PBool true) CStrict (SerLiteral [PInt 1]) = Bad EUnexpected.
Proof. split; vm_compute; reflexivity. Qed.
Print Assumptions C91_literal_bool_refuted.
(** Finding: a bool where the schema says int is written as a number by to_json and in JSON
    mode, and as a bool in Python mode. *)
Theorem C91_bool_refuted : to_python E0 SerInt conf true opts (PBool true) = Returned (PInt 1) [] /\ to_python E0 SerInt conf false opts (PBool true) = Returned (PBool true) [].
Proof. split; vm_compute; reflexivity. Qed.
Print Assumptions C91_bool_refuted.

(** ** Cases *)
Example C91_ex_number : number (PSub 3 (PInt 7)) 7 /\ to_json E0 SerInt conf opts (PSub 3 (PInt 7)) = Returned (JInt 7) [].
Proof. split; [constructor|vm_compute; reflexivity]. Qed.
Example C91_ex_float : f_is_finite (f_of_Z 7) = true /\ to_json E0 (SerFloat INull) conf opts (PInt 7) = Returned (JFloat (f_of_Z 7)) [].
Proof. split; vm_compute; reflexivity. Qed.
Definition lits : list pyval := [PStr (lit "a"); PInt 1; PBool false; PNone].
Example C91_ex_literal : Forall simple_value lits /\ allowed lits (PStr (lit "a")) /\ allowed lits (PInt 0) /\ ~ allowed lits (PBool true) /\
  to_python E0 (SerUnion [SerLiteral lits; SerInt]) conf true (with_warnings WWarn opts) (PStr (lit "a")) = Returned (PStr (lit "a")) [].
Proof.
  split; [repeat constructor; cbn; lia|]. split; [left; now left|]. split; [right; right; exists false; split; [reflexivity|right; right; now left]|].
  split; [|vm_compute; reflexivity]. intros [[H|[H|[H|[H|[]]]]]|[H|(b & H & _)]]; try discriminate. 
Qed.
