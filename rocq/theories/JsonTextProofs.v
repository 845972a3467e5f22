(** Proofs about JsonText.v. *)
From Coq Require Import List NArith ZArith Bool Lia.
From Verif Require Import Base Utf8 Float64 Decimal Values BytesCodec JsonText JsonTextSpec.
Import ListNotations.
Open Scope N_scope.
Ltac Zify.zify_post_hook ::= Z.to_euclidean_division_equations.

(** ** Escaping *)

Definition esc (c : N) : str := if ESCAPE c =? 0 then [c] else write_char_escape (ESCAPE c) c.

(** No ASCII byte is followed by a continuation byte. *)
Fixpoint ascii_ends (bs : bytes) : Prop :=
  match bs with
  | b :: r => (b < 128 -> match r with b' :: _ => is_cont b' = false | [] => True end) /\ ascii_ends r
  | [] => True
  end.

Definition starts (bs : bytes) : Prop := match bs with b :: _ => is_cont b = false | [] => True end.

Lemma utf8_starts s : starts (utf8 s).
Proof.
  destruct s as [|c s]; [exact I|]. unfold utf8. cbn [flat_map]. unfold utf8_char, starts, is_cont.
  destruct (N.ltb_spec c 128); [cbn [app]; rewrite (leb_f 128 c) by lia; reflexivity|].
  destruct (N.ltb_spec c 2048); [cbn [app]|destruct (N.ltb_spec c 65536); cbn [app]].
  all: rewrite ltb_f by lia; apply andb_false_r.
Qed.

Lemma ascii_ends_app b r : (b < 128 -> starts r) -> ascii_ends r -> ascii_ends (b :: r).
Proof. intros H1 H2. split; [exact H1|exact H2]. Qed.

Lemma utf8_ascii_ends s : ascii_ends (utf8 s).
Proof.
  induction s as [|c s IH]; [exact I|].
  pose proof (utf8_starts s) as Hs.
  change (utf8 (c :: s)) with (utf8_char c ++ utf8 s). unfold utf8_char.
  destruct (N.ltb_spec c 128); [cbn [app]; apply ascii_ends_app; auto|].
  destruct (N.ltb_spec c 2048); [|destruct (N.ltb_spec c 65536)]; cbn [app];
    repeat (apply ascii_ends_app; [intros; try lia|]); auto.
Qed.

Lemma escape_small b : ESCAPE b <> 0 -> b < 128.
Proof.
  unfold ESCAPE. destruct (N.ltb_spec b 32); [lia|].
  destruct (N.eqb_spec b 34); [lia|]. destruct (N.eqb_spec b 92); [lia|]. congruence.
Qed.

Lemma boundary_app pre rest : starts rest -> is_char_boundary (pre ++ rest) (length pre) = true.
Proof.
  intros H. unfold is_char_boundary. rewrite nth_error_app2 by lia. rewrite Nat.sub_diag.
  destruct rest as [|b r]; cbn [nth_error].
  - rewrite app_nil_r. apply Nat.eqb_refl.
  - cbn in H. rewrite H. reflexivity.
Qed.

Lemma slice_mid p m r : starts (m ++ r) -> starts r ->
  str_slice (p ++ m ++ r) (length p) (length p + length m) = Some m.
Proof.
  intros H1 H2. unfold str_slice. rewrite boundary_app by exact H1.
  replace (p ++ m ++ r) with ((p ++ m) ++ r) by (symmetry; apply app_assoc).
  replace (length p + length m)%nat with (length (p ++ m)) by (rewrite app_length; reflexivity).
  rewrite boundary_app by exact H2. rewrite app_length.
  replace (Nat.leb (length p) (length p + length m)) with true by (symmetry; apply Nat.leb_le; lia).
  cbn [andb]. f_equal. rewrite <- app_assoc. rewrite skipn_app, skipn_all, Nat.sub_diag. cbn [skipn app].
  replace (length p + length m - length p)%nat with (length m) by lia.
  rewrite firstn_app, Nat.sub_diag, firstn_all. cbn [firstn]. apply app_nil_r.
Qed.

(** The loop, with the bytes before [start], the pending fragment and the rest. *)
Lemma escape_loop_spec rest : forall done frag out,
  starts (frag ++ rest) -> ascii_ends rest ->
  escape_loop (done ++ frag ++ rest) rest (length done + length frag) (length done) out
  = Some (out ++ frag ++ flat_map esc rest).
Proof.
  induction rest as [|b r IH]; intros done frag out Hs He.
  - cbn [escape_loop flat_map]. rewrite !app_nil_r in *.
    destruct frag as [|x frag].
    + rewrite !app_nil_r. rewrite Nat.eqb_refl. reflexivity.
    + destruct (Nat.eqb_spec (length done) (length (done ++ x :: frag))) as [E|E];
        [rewrite app_length in E; cbn [length] in E; lia|].
      pose proof (slice_mid done (x :: frag) []) as Hm.
      rewrite app_nil_r, app_length in *. rewrite Hm; [reflexivity|exact Hs|exact I].
  - destruct He as [He1 He2]. cbn [escape_loop flat_map]. cbv zeta.
    unfold esc at 1.
    destruct (N.eqb_spec (ESCAPE b) 0) as [E|E].
    + specialize (IH done (frag ++ [b]) out). rewrite app_length in IH. cbn [length] in IH.
      rewrite <- !app_assoc in IH. cbn [app] in IH.
      replace (length done + (length frag + 1))%nat with (S (length done + length frag)) in IH by lia.
      cbn [app]. apply IH; assumption.
    + pose proof (escape_small b E) as Hb. specialize (He1 Hb).
      assert (Hsr : starts r) by (destruct r; [exact I|exact He1]).
      assert (Hsb : starts (b :: r)) by (cbn; unfold is_cont; rewrite (leb_f 128 b) by lia; reflexivity).
      assert (Hstep : forall out', escape_loop (done ++ frag ++ b :: r) r (S (length done + length frag)) (S (length done + length frag)) out'
                = Some (out' ++ flat_map esc r)).
      { intros out'. specialize (IH (done ++ frag ++ [b]) [] out').
        rewrite !app_length in IH. cbn [length app] in IH. rewrite <- !app_assoc in IH. cbn [app] in IH.
        replace (length done + (length frag + 1) + 0)%nat with (S (length done + length frag)) in IH by lia.
        replace (length done + (length frag + 1))%nat with (S (length done + length frag)) in IH by lia.
        apply IH; assumption. }
      destruct frag as [|x frag].
      * replace (Nat.ltb (length done) (length done + length (@nil N))) with false
          by (symmetry; apply Nat.ltb_ge; cbn [length]; lia).
        rewrite Hstep. cbn [app]. now rewrite <- app_assoc.
      * replace (Nat.ltb (length done) (length done + length (x :: frag))) with true
          by (symmetry; apply Nat.ltb_lt; cbn [length]; lia).
        rewrite (slice_mid done (x :: frag) (b :: r)) by assumption.
        rewrite Hstep. f_equal. rewrite <- !app_assoc. reflexivity.
Qed.

Lemma esc_ascii c : Forall (fun x => x < 128) (esc c) \/ esc c = [c].
Proof.
  unfold esc. destruct (N.eqb_spec (ESCAPE c) 0) as [E|E]; [right; reflexivity|left].
  pose proof (escape_small c E). unfold write_char_escape, hex_char.
  destruct (N.eqb_spec (ESCAPE c) UU).
  - repeat constructor; try lia; destruct (_ <? 10); lia.
  - repeat constructor; try lia. unfold ESCAPE.
    destruct (N.ltb_spec c 32).
    + assert (Forall (fun x => x < 128) ESCAPE_ROWS01) as HF by (repeat constructor).
      rewrite Forall_forall in HF. destruct (nth_in_or_default (N.to_nat c) ESCAPE_ROWS01 0) as [Hin| ->]; [apply HF, Hin|lia].
    + destruct (c =? 34); [reflexivity|]. destruct (c =? 92); reflexivity.
Qed.

Lemma utf8_ascii t : Forall (fun x => x < 128) t -> utf8 t = t.
Proof.
  induction 1 as [|x t Hx Ht IH]; [reflexivity|].
  change (utf8 (x :: t)) with (utf8_char x ++ utf8 t). rewrite IH. unfold utf8_char. rewrite ltb_t by exact Hx. reflexivity.
Qed.

Lemma escape_big b : 128 <= b -> esc b = [b].
Proof.
  intros H. unfold esc. destruct (N.eqb_spec (ESCAPE b) 0); [reflexivity|].
  pose proof (escape_small b n). lia.
Qed.

Lemma esc_utf8_char c : flat_map esc (utf8_char c) = utf8 (esc c).
Proof.
  unfold utf8_char. destruct (N.ltb_spec c 128) as [L|L].
  - cbn [flat_map]. rewrite app_nil_r. destruct (esc_ascii c) as [H|H]; [symmetry; apply utf8_ascii, H|].
    rewrite H. symmetry. apply utf8_ascii. repeat constructor. exact L.
  - rewrite (escape_big c L). unfold utf8. cbn [flat_map]. rewrite app_nil_r. unfold utf8_char. rewrite (ltb_f c 128) by exact L.
    destruct (N.ltb_spec c 2048); [|destruct (N.ltb_spec c 65536)]; cbn [flat_map];
      rewrite !escape_big by lia; reflexivity.
Qed.

Lemma esc_utf8 s : flat_map esc (utf8 s) = utf8 (flat_map esc s).
Proof.
  induction s as [|c s IH]; [reflexivity|].
  change (utf8 (c :: s)) with (utf8_char c ++ utf8 s). rewrite flat_map_app, IH, esc_utf8_char.
  cbn [flat_map]. symmetry. apply utf8_app.
Qed.

Definition quoted (s : str) : str := 34 :: flat_map esc s ++ [34].

Lemma format_escaped_str_spec s : format_escaped_str s = Some (utf8 (quoted s)).
Proof.
  unfold format_escaped_str.
  pose proof (escape_loop_spec (utf8 s) [] [] [] (utf8_starts s) (utf8_ascii_ends s)) as H.
  cbn [app length Nat.add] in H. rewrite H. unfold quoted. f_equal.
  change (34 :: flat_map esc s ++ [34]) with ([34] ++ flat_map esc s ++ [34]).
  rewrite !utf8_app, esc_utf8. reflexivity.
Qed.

Lemma hex_char_digit n : n < 16 -> hex_digit (hex_char n) n.
Proof.
  intros H. unfold hex_digit, hex_char. destruct (N.ltb_spec n 10); [left|right; left]; lia.
Qed.

Lemma esc_chars c t s : scalar c = true -> chars t s -> chars (esc c ++ t) (c :: s).
Proof.
  intros Hc Ht. unfold esc. destruct (N.eqb_spec (ESCAPE c) 0) as [E|E].
  - cbn [app]. apply ch_plain; try assumption; unfold ESCAPE in E.
    + destruct (N.ltb_spec c 32) as [L|L]; [exfalso|exact L].
      assert (Forall (fun x => x <> 0) ESCAPE_ROWS01) as HF by (repeat constructor; discriminate).
      rewrite Forall_forall in HF. apply (HF (nth (N.to_nat c) ESCAPE_ROWS01 0)); [apply nth_In; cbn [length ESCAPE_ROWS01]; lia|exact E].
    + intros ->. discriminate.
    + intros ->. discriminate.
  - pose proof (escape_small c E) as Hb. unfold ESCAPE in *.
    destruct (N.ltb_spec c 32) as [L|L].
    + assert (Hu : forall n, n < 32 -> n = c -> chars ([92; 117; 48; 48; hex_char (c / 16); hex_char (c mod 16)] ++ t) (c :: s)).
      { intros n _ _. cbn [app]. apply ch_u; [|exact Hc|exact Ht].
        exists 0, 0, (c / 16), (c mod 16). repeat split; try (apply hex_char_digit; lia); try lia; left; lia. }
      assert (Hk : (N.to_nat c < 32)%nat) by lia.
      assert (Ec : c = N.of_nat (N.to_nat c)) by lia.
      revert E Hk Ec. generalize (N.to_nat c) as k. intros k E Hk Ec. revert E.
      do 32 (destruct k as [|k]; [cbn [nth ESCAPE_ROWS01]; intros _; unfold write_char_escape; subst c;
        first [ exact (Hu 0 ltac:(lia) ltac:(lia)) | exact (Hu _ L eq_refl)
              | apply ch_b; exact Ht | apply ch_t; exact Ht | apply ch_n; exact Ht | apply ch_f; exact Ht | apply ch_r; exact Ht ]|]).
      lia.
    + destruct (N.eqb_spec c 34) as [->|]; [apply ch_quote, Ht|].
      destruct (N.eqb_spec c 92) as [->|]; [apply ch_backslash, Ht|]. congruence.
Qed.

Lemma quoted_string s : scalars s -> string_text (quoted s) s.
Proof.
  intros H. exists (flat_map esc s). split; [reflexivity|].
  induction H as [|c s Hc Hs IH]; [constructor|]. cbn [flat_map]. apply esc_chars; assumption.
Qed.

(** ** Layout *)

Section JsonInd.
  Variable P : json -> Prop.
  Hypothesis Hnull : P JNull.
  Hypothesis Hbool : forall b, P (JBool b).
  Hypothesis Hint : forall z, P (JInt z).
  Hypothesis Hfloat : forall f, P (JFloat f).
  Hypothesis Hstr : forall s, P (JStr s).
  Hypothesis Harr : forall l, Forall P l -> P (JArr l).
  Hypothesis Hobj : forall l, Forall (fun kv => P (snd kv)) l -> P (JObj l).
  Fixpoint json_rec' (j : json) : P j :=
    match j with
    | JNull => Hnull
    | JBool b => Hbool b
    | JInt z => Hint z
    | JFloat f => Hfloat f
    | JStr s => Hstr s
    | JArr l =>
        Harr l ((fix go l : Forall P l :=
                   match l with [] => Forall_nil _ | x :: r => Forall_cons x (json_rec' x) (go r) end) l)
    | JObj l =>
        Hobj l ((fix go l : Forall (fun kv => P (snd kv)) l :=
                   match l with [] => Forall_nil _ | (k, x) :: r => Forall_cons (k, x) (json_rec' x) (go r) end) l)
    end.
End JsonInd.

Lemma utf8_cons_ascii c s : c < 128 -> utf8 (c :: s) = c :: utf8 s.
Proof. intros H. change (utf8 (c :: s)) with (utf8_char c ++ utf8 s). unfold utf8_char. rewrite ltb_t by exact H. reflexivity. Qed.

Lemma utf8_spaces n : utf8 (repeat 32 n) = repeat 32 n.
Proof. induction n as [|n IH]; [reflexivity|]. cbn [repeat]. rewrite utf8_cons_ascii by lia. now rewrite IH. Qed.

Section Text.
Variable ryu : f64 -> str.

Definition scalar_text (j : json) : str :=
  match j with
  | JNull => lit "null"
  | JBool true => lit "true"
  | JBool false => lit "false"
  | JInt z => dec_Z z
  | JFloat f => f64_text ryu f
  | _ => []
  end.

Lemma write_arr l f : write ryu (JArr l) f = write_seq (write ryu) (Some (length l)) l f.
Proof. reflexivity. Qed.
Lemma write_obj l f : write ryu (JObj l) f = write_map (write ryu) (Some (length l)) l f.
Proof. reflexivity. Qed.

Lemma is_first_if (b : bool) : is_first (if b then StFirst else StRest) = b.
Proof. destruct b; reflexivity. Qed.

(** Compact. *)
Definition is_compact (f : formatter) : Prop := f_indent f = None.

Lemma compact_elements l : forall first f, is_compact f -> l <> [] ->
  Forall (fun j => forall f, is_compact f -> write ryu j f = Some (utf8 (compact quoted scalar_text j), f)) l ->
  write_elements (write ryu) l (if first : bool then StFirst else StRest) f
  = Some ((if first then [] else [44]) ++ utf8 (separated (compact quoted scalar_text) [] l) ++ [93], f).
Proof.
  induction l as [|j l IH]; intros first f Hf Hne HF; [congruence|].
  inversion HF as [|? ? Hj Hl]; subst. cbn [write_elements]. fold (write_elements (write ryu)).
  rewrite (Hj f Hf). unfold begin_item, end_item. rewrite Hf.
  rewrite is_first_if.
  destruct l as [|j' l].
  - cbn [write_elements close_block]. unfold end_block. rewrite Hf. cbn [separated app]. reflexivity.
  - rewrite (IH false f Hf ltac:(discriminate) Hl).
    change (separated (compact quoted scalar_text) [] (j :: j' :: l))
      with ([] ++ compact quoted scalar_text j ++ [44] ++ separated (compact quoted scalar_text) [] (j' :: l)).
    rewrite !utf8_app. rewrite <- !app_assoc. reflexivity.
Qed.

Lemma compact_entries l : forall first f, is_compact f -> l <> [] ->
  Forall (fun kv => forall f, is_compact f -> write ryu (snd kv) f = Some (utf8 (compact quoted scalar_text (snd kv)), f)) l ->
  write_entries (write ryu) l (if first : bool then StFirst else StRest) f
  = Some ((if first then [] else [44]) ++ utf8 (separated_entries quoted (compact quoted scalar_text) [] (lit ":") l) ++ [125], f).
Proof.
  induction l as [|[k j] l IH]; intros first f Hf Hne HF; [congruence|].
  inversion HF as [|? ? Hj Hl]; subst. cbn [snd] in Hj. cbn [write_entries]. fold (write_entries (write ryu)).
  rewrite format_escaped_str_spec, (Hj f Hf). unfold begin_item, begin_value, end_item. rewrite Hf.
  rewrite is_first_if.
  destruct l as [|[k' j'] l].
  - cbn [write_entries close_block]. unfold end_block. rewrite Hf. cbn [separated_entries app].
    rewrite !utf8_app. rewrite <- !app_assoc. reflexivity.
  - rewrite (IH false f Hf ltac:(discriminate) Hl).
    change (separated_entries quoted (compact quoted scalar_text) [] (lit ":") ((k, j) :: (k', j') :: l))
      with ([] ++ quoted k ++ lit ":" ++ compact quoted scalar_text j ++ [44]
            ++ separated_entries quoted (compact quoted scalar_text) [] (lit ":") ((k', j') :: l)).
    rewrite !utf8_app. rewrite <- !app_assoc. reflexivity.
Qed.

Lemma write_compact j : forall f, is_compact f -> write ryu j f = Some (utf8 (compact quoted scalar_text j), f).
Proof.
  induction j as [|b|z|x|s|l IH|l IH] using json_rec'; intros f Hf; try reflexivity.
  - destruct b; reflexivity.
  - cbn [write]. rewrite format_escaped_str_spec. reflexivity.
  - rewrite write_arr. destruct l as [|j l].
    + cbn [length]. unfold write_seq, open_block, begin_block. rewrite Hf. unfold end_block. rewrite Hf. reflexivity.
    + unfold write_seq, open_block, begin_block. rewrite Hf. cbn [length].
      rewrite (compact_elements (j :: l) true f Hf ltac:(discriminate) IH). cbn [compact].
      rewrite !utf8_app. reflexivity.
  - rewrite write_obj. destruct l as [|j l].
    + cbn [length]. unfold write_map, open_block, begin_block. rewrite Hf. unfold end_block. rewrite Hf. reflexivity.
    + unfold write_map, open_block, begin_block. rewrite Hf. cbn [length].
      rewrite (compact_entries (j :: l) true f Hf ltac:(discriminate) IH). cbn [compact].
      rewrite !utf8_app. reflexivity.
Qed.

(** Indented.  Only [f_has_value] may differ afterwards. *)
Definition pretty (n level : nat) (f : formatter) : Prop := f_indent f = Some n /\ f_level f = level.

Definition writes_indented (n : nat) (j : json) : Prop :=
  forall level f, pretty n level f ->
    exists f', write ryu j f = Some (utf8 (indented quoted scalar_text n level j), f') /\ pretty n level f'.

Lemma pretty_end n level f : pretty n level f -> pretty n level (end_item f) /\ f_has_value (end_item f) = true.
Proof. intros [H1 H2]. unfold end_item. rewrite H1. cbn. unfold pretty. cbn. auto. Qed.

Lemma utf8_newline n level : utf8 (newline n level) = 10 :: indent_bytes n level.
Proof. unfold newline. rewrite utf8_cons_ascii by lia. now rewrite utf8_spaces. Qed.

Lemma begin_item_pretty n level f (first : bool) : pretty n level f ->
  begin_item (is_first (if first then StFirst else StRest)) f
  = (if first then [] else [44]) ++ utf8 (newline n level).
Proof.
  intros [H1 H2]. unfold begin_item. rewrite H1, H2, utf8_newline. destruct first; reflexivity.
Qed.

Lemma close_pretty n level f close st : pretty n (S level) f -> f_has_value f = true -> st <> StEmpty -> close < 128 ->
  exists f', close_block close st f = (utf8 (newline n level ++ [close]), f') /\ pretty n level f'.
Proof.
  intros [H1 H2] Hv Hst Hc. exists {| f_indent := Some n; f_level := level; f_has_value := true |}.
  split; [|split; reflexivity].
  destruct st; [congruence| |]; unfold close_block, end_block; rewrite H1, H2, Hv; cbn [pred f_level];
    rewrite utf8_app, utf8_newline, (utf8_cons_ascii close []) by exact Hc; reflexivity.
Qed.

Lemma indented_elements n level l : forall (first : bool) f, pretty n (S level) f -> l <> [] ->
  Forall (writes_indented n) l ->
  exists f', write_elements (write ryu) l (if first then StFirst else StRest) f
  = Some ((if first then [] else [44])
          ++ utf8 (separated (indented quoted scalar_text n (S level)) (newline n (S level)) l ++ newline n level ++ [93]), f')
    /\ pretty n level f'.
Proof.
  induction l as [|j l IH]; intros first f Hf Hne HF; [congruence|].
  inversion HF as [|? ? Hj Hl]; subst. cbn [write_elements]. fold (write_elements (write ryu)).
  destruct (Hj _ f Hf) as [f1 [E1 Hf1]]. rewrite E1, (begin_item_pretty n (S level) f first Hf).
  destruct (pretty_end _ _ _ Hf1) as [Hf2 Hv].
  destruct l as [|j' l].
  - cbn [write_elements].
    destruct (close_pretty n level (end_item f1) 93 StRest Hf2 Hv ltac:(discriminate) ltac:(lia)) as [f3 [E3 Hf3]].
    rewrite E3. exists f3. split; [|exact Hf3]. cbn [separated].
    rewrite !utf8_app. rewrite <- !app_assoc. reflexivity.
  - destruct (IH false (end_item f1) Hf2 ltac:(discriminate) Hl) as [f3 [E3 Hf3]].
    rewrite E3. exists f3. split; [|exact Hf3].
    change (separated (indented quoted scalar_text n (S level)) (newline n (S level)) (j :: j' :: l))
      with (newline n (S level) ++ indented quoted scalar_text n (S level) j ++ [44]
            ++ separated (indented quoted scalar_text n (S level)) (newline n (S level)) (j' :: l)).
    rewrite !utf8_app. rewrite <- !app_assoc. reflexivity.
Qed.

Lemma indented_entries n level l : forall (first : bool) f, pretty n (S level) f -> l <> [] ->
  Forall (fun kv => writes_indented n (snd kv)) l ->
  exists f', write_entries (write ryu) l (if first then StFirst else StRest) f
  = Some ((if first then [] else [44])
          ++ utf8 (separated_entries quoted (indented quoted scalar_text n (S level)) (newline n (S level)) (lit ": ") l
                   ++ newline n level ++ [125]), f')
    /\ pretty n level f'.
Proof.
  induction l as [|[k j] l IH]; intros first f Hf Hne HF; [congruence|].
  inversion HF as [|? ? Hj Hl]; subst. cbn [snd] in Hj. cbn [write_entries]. fold (write_entries (write ryu)).
  rewrite format_escaped_str_spec.
  destruct (Hj _ f Hf) as [f1 [E1 Hf1]]. rewrite E1, (begin_item_pretty n (S level) f first Hf).
  replace (begin_value f) with (utf8 (lit ": ")) by (unfold begin_value; destruct Hf as [-> _]; reflexivity).
  destruct (pretty_end _ _ _ Hf1) as [Hf2 Hv].
  destruct l as [|[k' j'] l].
  - cbn [write_entries].
    destruct (close_pretty n level (end_item f1) 125 StRest Hf2 Hv ltac:(discriminate) ltac:(lia)) as [f3 [E3 Hf3]].
    rewrite E3. exists f3. split; [|exact Hf3]. cbn [separated_entries].
    rewrite !utf8_app. rewrite <- !app_assoc. reflexivity.
  - destruct (IH false (end_item f1) Hf2 ltac:(discriminate) Hl) as [f3 [E3 Hf3]].
    rewrite E3. exists f3. split; [|exact Hf3].
    change (separated_entries quoted (indented quoted scalar_text n (S level)) (newline n (S level)) (lit ": ") ((k, j) :: (k', j') :: l))
      with (newline n (S level) ++ quoted k ++ lit ": " ++ indented quoted scalar_text n (S level) j ++ [44]
            ++ separated_entries quoted (indented quoted scalar_text n (S level)) (newline n (S level)) (lit ": ") ((k', j') :: l)).
    rewrite !utf8_app. rewrite <- !app_assoc. reflexivity.
Qed.

Lemma write_indented n j : writes_indented n j.
Proof.
  induction j as [|b|z|x|s|l IH|l IH] using json_rec'; intros level f Hf.
  - exists f. split; [reflexivity|exact Hf].
  - exists f. split; [destruct b; reflexivity|exact Hf].
  - exists f. split; [reflexivity|exact Hf].
  - exists f. split; [reflexivity|exact Hf].
  - exists f. split; [|exact Hf]. cbn [write]. rewrite format_escaped_str_spec. reflexivity.
  - rewrite write_arr. destruct Hf as [H1 H2]. destruct l as [|j l].
    + unfold write_seq, open_block, begin_block, end_block. rewrite H1. cbn [length f_indent f_has_value f_level pred app].
      eexists. split; [reflexivity|]. split; [reflexivity|exact H2].
    + unfold write_seq, open_block, begin_block. rewrite H1. cbn [length].
      destruct (indented_elements n level (j :: l) true {| f_indent := Some n; f_level := S (f_level f); f_has_value := false |}) as [f' [E Hf']];
        [split; cbn; congruence|discriminate|exact IH|].
      rewrite E. exists f'. split; [|exact Hf']. cbn [indented]. rewrite !utf8_app. reflexivity.
  - rewrite write_obj. destruct Hf as [H1 H2]. destruct l as [|j l].
    + unfold write_map, open_block, begin_block, end_block. rewrite H1. cbn [length f_indent f_has_value f_level pred app].
      eexists. split; [reflexivity|]. split; [reflexivity|exact H2].
    + unfold write_map, open_block, begin_block. rewrite H1. cbn [length].
      destruct (indented_entries n level (j :: l) true {| f_indent := Some n; f_level := S (f_level f); f_has_value := false |}) as [f' [E Hf']];
        [split; cbn; congruence|discriminate|exact IH|].
      rewrite E. exists f'. split; [|exact Hf']. cbn [indented]. rewrite !utf8_app. reflexivity.
Qed.

(** ** The layouts are JSON texts *)

Lemma ws_newline n level : ws (newline n level).
Proof.
  constructor; [reflexivity|]. induction (n * level)%nat; cbn [repeat]; [constructor|constructor; [reflexivity|assumption]].
Qed.

Lemma dec_N_int n : int_part (dec_N n).
Proof.
  destruct (N.eq_dec n 0) as [->|Hn]; [left; reflexivity|right].
  destruct (dec_N_canonical n Hn) as [HF [c [r [E Hc]]]]. exists c, r. rewrite E in *. inversion HF. auto.
Qed.

Lemma dec_Z_text z : int_text (dec_Z z) z.
Proof.
  destruct z as [|p|p]; unfold dec_Z.
  - apply (it_plus [48]). left. reflexivity.
  - pose proof (it_plus (dec_N (N.pos p)) (dec_N_int _)) as H. rewrite dec_N_value in H. exact H.
  - pose proof (it_minus (dec_N (N.pos p)) (dec_N_int _)) as H. rewrite dec_N_value in H. exact H.
Qed.

Variable reads : str -> f64.

Lemma scalar_value j : writable reads ryu j ->
  match j with JStr _ | JArr _ | JObj _ => True | _ => value reads j (scalar_text j) end.
Proof.
  intros H. destruct H as [|b|z|f Hf Ht Hr| | | ]; try exact I.
  - constructor.
  - destruct b; constructor.
  - cbn [scalar_text]. constructor. apply dec_Z_text.
  - cbn [scalar_text]. replace (f64_text ryu f) with (ryu f) by (destruct f; try discriminate; reflexivity).
    rewrite <- Hr at 1. constructor. exact Ht.
Qed.

(** Items laid out with any white space before each and after the last. *)
Lemma separated_elements item nl w l :
  ws nl -> ws w -> l <> [] -> Forall (fun j => value reads j (item j)) l ->
  elements reads l (separated item nl l ++ w).
Proof.
  intros Hnl Hw. induction l as [|j l IH]; intros Hne HF; [congruence|].
  inversion HF as [|? ? Hj Hl]; subst. destruct l as [|j' l].
  - cbn [separated]. rewrite <- app_assoc. apply e_one; assumption.
  - change (separated item nl (j :: j' :: l)) with (nl ++ item j ++ [44] ++ separated item nl (j' :: l)).
    rewrite <- !app_assoc. change ([44] ++ separated item nl (j' :: l) ++ w) with ([] ++ [44] ++ separated item nl (j' :: l) ++ w).
    apply e_more; [exact Hnl|exact Hj|constructor|]. apply IH; [discriminate|exact Hl].
Qed.

Lemma separated_members item nl sep w l :
  ws nl -> (exists w2 w3, sep = w2 ++ [58] ++ w3 /\ ws w2 /\ ws w3) -> ws w -> l <> [] ->
  Forall (fun kv => scalars (fst kv) /\ value reads (snd kv) (item (snd kv))) l ->
  members reads l (separated_entries quoted item nl sep l ++ w).
Proof.
  intros Hnl (w2 & w3 & -> & Hw2 & Hw3) Hw. induction l as [|[k j] l IH]; intros Hne HF; [congruence|].
  inversion HF as [|? ? [Hk Hj] Hl]; subst. cbn [fst snd] in *. destruct l as [|[k' j'] l].
  - cbn [separated_entries]. rewrite <- !app_assoc. apply m_one; try assumption. apply quoted_string, Hk.
  - change (separated_entries quoted item nl (w2 ++ [58] ++ w3) ((k, j) :: (k', j') :: l))
      with (nl ++ quoted k ++ (w2 ++ [58] ++ w3) ++ item j ++ [44] ++ separated_entries quoted item nl (w2 ++ [58] ++ w3) ((k', j') :: l)).
    rewrite <- !app_assoc.
    pose proof (m_more reads k (quoted k) j nl w2 w3 (item j) [] ((k', j') :: l)) as Hm. cbn [app] in Hm.
    apply Hm; try assumption; [apply quoted_string, Hk|constructor|].
    specialize (IH ltac:(discriminate) Hl). cbn [app] in IH. exact IH.
Qed.

Lemma compact_value j : writable reads ryu j -> value reads j (compact quoted scalar_text j).
Proof.
  induction j as [|b|z|x|s|l IH|l IH] using json_rec'; intros Hw;
    try (exact (scalar_value _ Hw)).
  - inversion Hw; subst. cbn [compact]. constructor. now apply quoted_string.
  - inversion Hw as [| | | | |? HF|]; subst. destruct l as [|j l].
    + apply (v_arr_empty reads []). constructor.
    + cbn [compact]. apply v_arr.
      rewrite <- (app_nil_r (separated _ _ _)). apply separated_elements; [constructor|constructor|discriminate|].
      rewrite Forall_forall in *. auto.
  - inversion Hw as [| | | | | |? HF]; subst. destruct l as [|j l].
    + apply (v_obj_empty reads []). constructor.
    + cbn [compact]. apply v_obj.
      rewrite <- (app_nil_r (separated_entries _ _ _ _ _)).
      apply separated_members; [constructor| |constructor|discriminate|].
      * exists [], []. split; [reflexivity|split; constructor].
      * rewrite Forall_forall in *. intros kv Hin. destruct (HF kv Hin). auto.
Qed.

Lemma indented_value n j : forall level, writable reads ryu j -> value reads j (indented quoted scalar_text n level j).
Proof.
  induction j as [|b|z|x|s|l IH|l IH] using json_rec'; intros level Hw;
    try (exact (scalar_value _ Hw)).
  - inversion Hw; subst. cbn [indented]. constructor. now apply quoted_string.
  - inversion Hw as [| | | | |? HF|]; subst. destruct l as [|j l].
    + apply (v_arr_empty reads []). constructor.
    + cbn [indented].
      replace ([91] ++ separated (indented quoted scalar_text n (S level)) (newline n (S level)) (j :: l) ++ newline n level ++ [93])
        with ([91] ++ (separated (indented quoted scalar_text n (S level)) (newline n (S level)) (j :: l) ++ newline n level) ++ [93])
        by (rewrite <- !app_assoc; reflexivity).
      apply v_arr. apply separated_elements; [apply ws_newline|apply ws_newline|discriminate|].
      rewrite Forall_forall in *. intros; apply IH; auto.
  - inversion Hw as [| | | | | |? HF]; subst. destruct l as [|j l].
    + apply (v_obj_empty reads []). constructor.
    + cbn [indented].
      replace ([123] ++ separated_entries quoted (indented quoted scalar_text n (S level)) (newline n (S level)) (lit ": ") (j :: l) ++ newline n level ++ [125])
        with ([123] ++ (separated_entries quoted (indented quoted scalar_text n (S level)) (newline n (S level)) (lit ": ") (j :: l) ++ newline n level) ++ [125])
        by (rewrite <- !app_assoc; reflexivity).
      apply v_obj. apply separated_members; [apply ws_newline| |apply ws_newline|discriminate|].
      * exists [], [32]. split; [reflexivity|split; [constructor|repeat constructor]].
      * rewrite Forall_forall in *. intros kv Hin. destruct (HF kv Hin). split; [assumption|]. apply IH; assumption.
Qed.
End Text.
