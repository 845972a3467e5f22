(** C52: JSON text. *)
From Coq Require Import List NArith ZArith Bool Lia.
From Verif Require Import Base Utf8 Float64 Decimal Values BytesCodec JsonText JsonTextSpec JsonTextProofs JsonTextUnique.
Import ListNotations.
Open Scope N_scope.

(** A text denoting [j] and nothing else. *)
Definition denotes (reads : str -> f64) (text : str) (j : json) : Prop :=
  json_text reads j text /\ forall j', json_text reads j' text -> j' = j.

(** Whatever the indentation, the bytes written are the UTF-8 encoding of a text that
    RFC 8259 reads as the value written, and as no other. *)
Theorem C52_parses ryu reads indent j : writable reads ryu j ->
  exists out text, to_json_text ryu indent j = Some out /\ from_utf8 out = Some text /\ denotes reads text j.
Proof.
  intros Hw. unfold to_json_text.
  assert (Hd : forall t, value reads j t -> from_utf8 (utf8 t) = Some t /\ denotes reads t j).
  { intros t Ht. split; [apply from_utf8_utf8, (proj1 (grammar_scalars reads) _ _ Ht)|].
    assert (Hj : json_text reads j t).
    { exists [], t, []. rewrite app_nil_r. repeat split; try constructor. exact Ht. }
    split; [exact Hj|]. intros j' Hj'. exact (json_text_unique reads _ _ _ Hj' Hj). }
  destruct indent as [n|].
  - destruct (write_indented ryu n j 0%nat {| f_indent := Some n; f_level := 0; f_has_value := false |}) as [f' [E _]]; [split; reflexivity|].
    rewrite E. exists (utf8 (indented quoted (scalar_text ryu) n 0%nat j)), (indented quoted (scalar_text ryu) n 0%nat j).
    split; [reflexivity|]. apply Hd, indented_value, Hw.
  - rewrite (write_compact ryu j {| f_indent := None; f_level := 0; f_has_value := false |} eq_refl).
    exists (utf8 (compact quoted (scalar_text ryu) j)), (compact quoted (scalar_text ryu) j).
    split; [reflexivity|]. apply Hd, compact_value, Hw.
Qed.
Print Assumptions C52_parses.

(** The same bytes, written with any two indentations, come from the same value. *)
Theorem C52_injective ryu reads i1 i2 j1 j2 out :
  writable reads ryu j1 -> writable reads ryu j2 ->
  to_json_text ryu i1 j1 = Some out -> to_json_text ryu i2 j2 = Some out -> j1 = j2.
Proof.
  intros H1 H2 E1 E2.
  destruct (C52_parses ryu reads i1 j1 H1) as (o1 & t1 & F1 & G1 & D1 & U1).
  destruct (C52_parses ryu reads i2 j2 H2) as (o2 & t2 & F2 & G2 & D2 & U2).
  assert (t1 = t2) as -> by congruence. exact (U2 _ D1).
Qed.
Print Assumptions C52_injective.

(** Every Unicode string is written as a quoted text that reads back as it: no panic on
    a character boundary, no character left unescaped that must be escaped. *)
Theorem C52_strings ryu reads indent s : scalars s ->
  exists out text, to_json_text ryu indent (JStr s) = Some out /\ from_utf8 out = Some text /\
    string_text text s /\ denotes reads text (JStr s).
Proof.
  intros Hs. destruct (C52_parses ryu reads indent (JStr s) (w_str reads ryu s Hs)) as (out & text & E & F & D).
  exists out, text. repeat split; try assumption; try apply D.
  destruct D as [(w1 & v & w2 & Et & H1 & H2 & H3) U].
  unfold to_json_text in E. cbn [write] in E. rewrite format_escaped_str_spec in E. assert (out = utf8 (quoted s)) as -> by congruence.
  rewrite from_utf8_utf8 in F; [|exact (string_scalars _ _ (quoted_string s Hs))]. assert (text = quoted s) as -> by congruence. apply quoted_string, Hs.
Qed.
Print Assumptions C52_strings.

(** Writing never panics, whatever the value. *)
Theorem C52_no_panic ryu indent j : exists out, to_json_text ryu indent j = Some out.
Proof.
  unfold to_json_text. destruct indent as [n|].
  - destruct (write_indented ryu n j 0%nat {| f_indent := Some n; f_level := 0; f_has_value := false |}) as [f' [E _]]; [split; reflexivity|].
    rewrite E. eauto.
  - rewrite (write_compact ryu j {| f_indent := None; f_level := 0; f_has_value := false |} eq_refl). eauto.
Qed.
Print Assumptions C52_no_panic.

(** The layout: with an indentation of [n], one item per line, [n] spaces per level,
    ": " after keys; without, no white space.  The texts of keys and scalars are those
    the value denotes. *)
Theorem C52_layout ryu : exists quoted scalar_text,
  (forall s, scalars s -> string_text (quoted s) s) /\
  (forall reads j, writable reads ryu j -> match j with JStr _ | JArr _ | JObj _ => True | _ => value reads j (scalar_text j) end) /\
  (forall n j, to_json_text ryu (Some n) j = Some (utf8 (indented quoted scalar_text n 0%nat j))) /\
  (forall j, to_json_text ryu None j = Some (utf8 (compact quoted scalar_text j))).
Proof.
  exists quoted, (scalar_text ryu). split; [exact quoted_string|]. split; [intros reads j; exact (scalar_value ryu reads j)|]. split.
  - intros n j. unfold to_json_text.
    destruct (write_indented ryu n j 0%nat {| f_indent := Some n; f_level := 0; f_has_value := false |}) as [f' [E _]]; [split; reflexivity|].
    rewrite E. reflexivity.
  - intros j. unfold to_json_text.
    rewrite (write_compact ryu j {| f_indent := None; f_level := 0; f_has_value := false |} eq_refl). reflexivity.
Qed.
Print Assumptions C52_layout.

(** The length announced for an array or object, which counts items that are filtered
    out later, does not change what is written, as long as it is not less than what
    follows. *)
Theorem C52_length_hint ryu f len : 
  (forall l, match len with Some n => (length l <= n)%nat | None => True end ->
     match write_seq (write ryu) len l f, write_seq (write ryu) (Some (length l)) l f with
     | Some (a, _), Some (b, _) => a = b | _, _ => False end) /\
  (forall l, match len with Some n => (length l <= n)%nat | None => True end ->
     match write_map (write ryu) len l f, write_map (write ryu) (Some (length l)) l f with
     | Some (a, _), Some (b, _) => a = b | _, _ => False end).
Proof.
  assert (HA : forall l g, exists p, write ryu (JArr l) g = Some p).
  { intros l [[n|] lv h]; [destruct (write_indented ryu n (JArr l) lv {| f_indent := Some n; f_level := lv; f_has_value := h |}) as [f' [E _]]; [split; reflexivity|]; eauto|].
    rewrite (write_compact ryu (JArr l) {| f_indent := None; f_level := lv; f_has_value := h |} eq_refl). eauto. }
  assert (HO : forall l g, exists p, write ryu (JObj l) g = Some p).
  { intros l [[n|] lv h]; [destruct (write_indented ryu n (JObj l) lv {| f_indent := Some n; f_level := lv; f_has_value := h |}) as [f' [E _]]; [split; reflexivity|]; eauto|].
    rewrite (write_compact ryu (JObj l) {| f_indent := None; f_level := lv; f_has_value := h |} eq_refl). eauto. }
  split; intros l Hlen; (destruct l as [|x l];
    [destruct len as [[|n]|]; destruct f as [[k|] lv h]; reflexivity|]).
  - replace (write_seq (write ryu) len (x :: l) f) with (write_seq (write ryu) (Some (length (x :: l))) (x :: l) f)
      by (destruct len as [[|n]|]; [cbn [length] in Hlen; lia|reflexivity|reflexivity]).
    destruct (HA (x :: l) f) as [[a g] E]. rewrite write_arr in E. rewrite E. reflexivity.
  - replace (write_map (write ryu) len (x :: l) f) with (write_map (write ryu) (Some (length (x :: l))) (x :: l) f)
      by (destruct len as [[|n]|]; [cbn [length] in Hlen; lia|reflexivity|reflexivity]).
    destruct (HO (x :: l) f) as [[a g] E]. rewrite write_obj in E. rewrite E. reflexivity.
Qed.
Print Assumptions C52_length_hint.

(** NaN and the infinities, which `ser_json_inf_nan='constants'` writes as such, are not
    JSON: no value has that text. *)
Theorem C52_nan_refuted : exists j, forall ryu reads indent,
  exists out text, to_json_text ryu indent j = Some out /\ from_utf8 out = Some text /\ forall j', ~ json_text reads j' text.
Proof.
  exists (JFloat S754_nan). intros ryu reads indent. exists (lit "NaN"), (lit "NaN").
  split; [destruct indent; reflexivity|]. split; [reflexivity|].
  intros j' (w1 & v & w2 & E & H1 & H2 & H3). destruct (value_kind _ _ _ H2) as (c & r & -> & Hk).
  destruct w1 as [|x w1].
  - injection E as <- _. destruct j' as [|[]| | | | |]; discriminate Hk.
  - injection E as <- _. inversion H1 as [|? ? Hx _]. discriminate Hx.
Qed.
Print Assumptions C52_nan_refuted.

(** ** Example: escapes, nesting, an empty array, a float, indentation 2. *)
Definition ex_float : f64 := S754_finite false 6755399441055744 (-52).
Definition ex_ryu (f : f64) : str := lit "1.5".
Definition ex_reads (s : str) : f64 := ex_float.
Definition ex_json : json :=
  JObj [(lit "a" ++ [34; 10; 1; 233; 128512], JArr [JInt (-12); JFloat ex_float; JArr []; JNull]); (lit "b", JBool true)].

Example C52_ex_writable : writable ex_reads ex_ryu ex_json.
Proof.
  constructor. repeat constructor; try reflexivity.
  exists [], [49], [46; 53], []. repeat split; auto.
  - right; exists 49, []; repeat split; constructor.
  - right. exists [53]. repeat split; [discriminate|repeat constructor].
  - left. discriminate.
Qed.
Example C52_ex_compact :
  to_json_text ex_ryu None ex_json
  = Some ([123; 34; 97; 92; 34; 92; 110; 92; 117; 48; 48; 48; 49; 195; 169; 240; 159; 152; 128; 34]
          ++ lit ":[-12,1.5,[],null]," ++ [34; 98; 34] ++ lit ":true}").
Proof. reflexivity. Qed.
Example C52_ex_indented :
  to_json_text ex_ryu (Some 2%nat) (JObj [(lit "k", JArr [JInt 1; JArr []])])
  = Some ([123; 10; 32; 32; 34; 107; 34; 58; 32; 91; 10; 32; 32; 32; 32; 49; 44; 10; 32; 32; 32; 32; 91; 93; 10; 32; 32; 93; 10; 125]).
Proof. reflexivity. Qed.
