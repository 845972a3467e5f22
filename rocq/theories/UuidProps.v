(** C74: uuid schemas. *)
From Coq Require Import List NArith ZArith Bool Lia PeanoNat.
From Verif Require Import Base Utf8 Values VState Child Inputs Scalars BytesCodec BytesCodecSpec BytesCodecProofs Uuid UuidSpec UuidProofs.
Import ListNotations.
Open Scope N_scope.

Section C74.
Variable parse_msg : str -> str.
Variable length_msg : nat -> str.
Variable py_str : pyval -> str.
Variable f64_to_string : Float64.f64 -> str.
Notation uuid_validate := (uuid_validate parse_msg length_msg py_str f64_to_string).
Notation get_uuid := (get_uuid parse_msg length_msg py_str f64_to_string).
Definition exactness_of (is_py : bool) : exactness := if is_py then Lax else Exact.
Definition strictness (st : option bool) (c : uuid_cfg) : bool := match st with Some s => s | None => uv_strict c end.

Lemma text_run : forall i, match text_of i with
  | Some t => exists x, validate_str py_str f64_to_string true false i = VOk (t, x)
  | None => exists e, validate_str py_str f64_to_string true false i = VErr e
  end.
Proof.
  intros [v|j|t|v]; cbn [text_of validate_str].
  - destruct v as [|b|z|f|t|b|l|l|l|l|l|cls a|cls w]; cbn [strip]; eauto; try (eexists; reflexivity). destruct (strip w); eauto; eexists; reflexivity.
  - destruct j; eauto; eexists; reflexivity.
  - eauto.
  - destruct (as_str v); eauto; eexists; reflexivity.
Qed.
Lemma bytes_run : forall i, text_of i = None -> match bytes_of i with
  | Some b => exists v x, validate_bytes true MUtf8 i = VOk (v, x) /\ strip v = PBytes b
  | None => exists e, validate_bytes true MUtf8 i = VErr e
  end.
Proof.
  intros [v|j|t|v] H; cbn [bytes_of validate_bytes text_of] in *.
  - destruct v as [|b|z|f|t|b|l|l|l|l|l|cls a|cls w]; cbn [strip] in *; try discriminate H; try (eexists; reflexivity); [eauto|].
    destruct (strip w) eqn:E; try discriminate H; try (eexists; reflexivity). exists (PSub cls w), Strict. split; [reflexivity|]. cbn [strip]. exact E.
  - destruct j; try discriminate H; eexists; reflexivity.
  - discriminate.
  - rewrite H. eexists; reflexivity.
Qed.

(** What becomes of 16 bytes. *)
Definition judged (c : uuid_cfg) (b : bytes) : uures :=
  match uv_version c with
  | Some v => if (get_version_num b =? v) && is_rfc4122 b then UuNew (mk_uuid (as_u128 b) SafeYes) else UuErr (UuVersion v)
  | None => UuNew (mk_uuid (as_u128 b) SafeYes)
  end.
Lemma run : forall st is_py c i, strictness st c && is_py = false ->
  uuid_validate st is_py c (UuOther i) =
  (match text_of i with
   | Some t => match try_parse (utf8 t) with Some b => judged c b | None => UuErr (UuParsing (parse_msg t)) end
   | None =>
       match bytes_of i with
       | Some b =>
           match (match from_utf8 b with Some t => try_parse (utf8 t) | None => None end) with
           | Some u => judged c u
           | None => if Nat.eqb (length b) 16 then judged c b else UuErr (UuParsing (length_msg (length b)))
           end
       | None => UuErr UuType
       end
   end, exactness_of is_py).
Proof.
  intros st is_py c i H. unfold strictness in H. unfold Uuid.uuid_validate, Uuid.get_uuid, exactness_of. rewrite H.
  assert (J : forall b, match (if version_ok c b then inl b else inr (UuVersion (match uv_version c with Some v => v | None => 0 end))) with
     | inl b => match uv_version c with
                | Some v => if negb (get_version_num b =? v) || negb (is_rfc4122 b) then (UuErr (UuVersion v), if is_py then Lax else Exact) else (UuNew (mk_uuid (as_u128 b) SafeYes), if is_py then Lax else Exact)
                | None => (UuNew (mk_uuid (as_u128 b) SafeYes), if is_py then Lax else Exact) end
     | inr e => (UuErr e, if is_py then Lax else Exact) end = (judged c b, if is_py then Lax else Exact)).
  { intros b. unfold version_ok, judged. destruct (uv_version c) as [v|]; [|reflexivity]. destruct (get_version_num b =? v) eqn:Ev; [|reflexivity].
    rewrite Ev. cbn [negb orb andb]. destruct (is_rfc4122 b); reflexivity. }
  pose proof (text_run i) as T. pose proof (bytes_run i) as B. destruct (text_of i) as [t|].
  - destruct T as [x ->]. destruct (try_parse (utf8 t)) as [b|]; [apply J|reflexivity].
  - destruct T as [e ->]. specialize (B eq_refl). destruct (bytes_of i) as [b|].
    + destruct B as (v & x & -> & Ev). rewrite Ev. destruct (match from_utf8 b with Some t => try_parse (utf8 t) | None => None end) as [u|]; [apply J|].
      unfold from_slice. destruct (Nat.eqb (length b) 16); [apply J|reflexivity].
    + destruct B as [e' ->]. reflexivity.
Qed.
Lemma judged_spec : forall c b, length b = 16%nat -> Forall (fun x => x < 256) b ->
  (wanted (uv_version c) (as_u128 b) -> judged c b = UuNew (mk_uuid (as_u128 b) SafeYes))
  /\ (~ wanted (uv_version c) (as_u128 b) -> exists v, uv_version c = Some v /\ judged c b = UuErr (UuVersion v)).
Proof.
  intros c b L F. unfold judged, wanted. destruct (uv_version c) as [v|].
  - pose proof (version_bits b v L F) as V. destruct ((get_version_num b =? v) && is_rfc4122 b); split; intros H; try reflexivity.
    + contradiction H. apply V. reflexivity.
    + apply V in H. discriminate.
    + exists v. auto.
  - split; [reflexivity|]. intros H. contradiction H. exact I.
Qed.

(** C74, text: the number it is written for, if it has the version. *)
Theorem C74_text : forall st is_py c i t, strictness st c && is_py = false -> text_of i = Some t ->
  (forall n, form t n -> wanted (uv_version c) n ->
     uuid_validate st is_py c (UuOther i) = (UuNew (mk_uuid n SafeYes), exactness_of is_py))
  /\ (forall n, form t n -> ~ wanted (uv_version c) n ->
     exists v, uv_version c = Some v /\ uuid_validate st is_py c (UuOther i) = (UuErr (UuVersion v), exactness_of is_py))
  /\ ((forall n, ~ form t n) -> uuid_validate st is_py c (UuOther i) = (UuErr (UuParsing (parse_msg t)), exactness_of is_py)).
Proof.
  intros st is_py c i t H Ht. rewrite (run st is_py c i H), Ht.
  assert (K : forall n, form t n -> exists b, try_parse (utf8 t) = Some b /\ length b = 16%nat /\ Forall (fun x => x < 256) b /\ as_u128 b = n).
  { intros n F. apply form_utf8 in F. apply try_parse_iff in F. destruct F as (b & E & L & N). exists b. destruct (try_parse_good _ _ E) as [G _]. auto. }
  split; [|split].
  - intros n F W. destruct (K n F) as (b & -> & L & G & <-). rewrite (proj1 (judged_spec c b L G) W). reflexivity.
  - intros n F W. destruct (K n F) as (b & -> & L & G & <-). destruct (proj2 (judged_spec c b L G) W) as (v & Ev & ->). exists v. auto.
  - intros N. destruct (try_parse (utf8 t)) as [b|] eqn:E; [|reflexivity]. destruct (try_parse_good _ _ E) as [G L].
    contradiction (N (as_u128 b)). apply form_utf8, try_parse_iff. exists b. auto.
Qed.

(** C74, bytes: 16 of them are the number, most significant first; otherwise they are text. *)
Theorem C74_bytes : forall st c i b, strictness st c = false -> text_of i = None -> bytes_of i = Some b -> Forall (fun x => x < 256) b ->
  (forall n, (big_endian b n /\ length b = 16%nat \/ form b n) -> wanted (uv_version c) n ->
     uuid_validate st true c (UuOther i) = (UuNew (mk_uuid n SafeYes), Lax))
  /\ (forall n, (big_endian b n /\ length b = 16%nat \/ form b n) -> ~ wanted (uv_version c) n ->
     exists v, uv_version c = Some v /\ uuid_validate st true c (UuOther i) = (UuErr (UuVersion v), Lax))
  /\ (length b <> 16%nat -> (forall n, ~ form b n) ->
     exists m, uuid_validate st true c (UuOther i) = (UuErr (UuParsing m), Lax)).
Proof.
  intros st c i b H Ht Hb Fb. rewrite (run st true c i) by (rewrite H; reflexivity). rewrite Ht, Hb.
  assert (U : forall u, (match from_utf8 b with Some t => try_parse (utf8 t) | None => None end) = Some u -> try_parse b = Some u).
  { intros u Hu. destruct (from_utf8 b) as [t|] eqn:E; [|discriminate]. apply from_utf8_sound in E. destruct E as [<- _]. exact Hu. }
  assert (V : forall n, form b n -> (match from_utf8 b with Some t => try_parse (utf8 t) | None => None end) = try_parse b).
  { intros n F. pose proof (form_ascii _ _ F) as A. assert (Sc : scalars b).
    { revert A. apply Forall_impl. intros a Ha. unfold scalar. destruct (N.ltb_spec a 55296); [reflexivity|lia]. }
    pose proof (from_utf8_utf8 b Sc) as E. rewrite (utf8_ascii b (or_introl A)) in E. rewrite E, (utf8_ascii b (or_introl A)). reflexivity. }
  assert (NL : length b = 16%nat -> (match from_utf8 b with Some t => try_parse (utf8 t) | None => None end) = None).
  { intros L. destruct (match from_utf8 b with Some t => try_parse (utf8 t) | None => None end) as [u|] eqn:E; [|reflexivity]. pose proof (U u eq_refl) as E'. unfold try_parse in E'. rewrite L in E'. discriminate E'. }
  assert (K : forall n, (big_endian b n /\ length b = 16%nat \/ form b n) -> exists u, length u = 16%nat /\ Forall (fun x => x < 256) u /\ as_u128 u = n
     /\ (match (match from_utf8 b with Some t => try_parse (utf8 t) | None => None end) with
           | Some u => judged c u
           | None => if Nat.eqb (length b) 16 then judged c b else UuErr (UuParsing (length_msg (length b)))
           end) = judged c u).
  { intros n [[B L]|F].
    - exists b. apply big_endian_iff in B. destruct B as [_ B]. rewrite (NL L), L. auto.
    - rewrite (V n F). pose proof (proj2 (try_parse_iff b n) F) as (u & E & L & En). exists u. rewrite E. destruct (try_parse_good _ _ E) as [G _]. auto. }
  split; [|split].
  - intros n F W. destruct (K n F) as (u & L & G & <- & ->). rewrite (proj1 (judged_spec c u L G) W). reflexivity.
  - intros n F W. destruct (K n F) as (u & L & G & <- & ->). destruct (proj2 (judged_spec c u L G) W) as (v & Ev & ->). exists v. auto.
  - intros L N. destruct (match from_utf8 b with Some t => try_parse (utf8 t) | None => None end) as [u|] eqn:E.
    + pose proof (U u eq_refl) as E'. destruct (try_parse_good _ _ E') as [G Lu]. contradiction (N (as_u128 u)). apply try_parse_iff. exists u. auto.
    + apply Nat.eqb_neq in L. rewrite L. exists (length_msg (length b)). reflexivity.
Qed.

(** C74: a UUID object is returned itself, exactly if it has the version; what is neither is refused, and
    with strictness every Python object but a UUID is. *)
Theorem C74_object : forall st is_py c o,
  (wanted (uv_version c) (uu_int o) -> uuid_validate st is_py c (UuObject o) = (UuSame, Exact))
  /\ (~ wanted (uv_version c) (uu_int o) -> exists v, uv_version c = Some v /\ uuid_validate st is_py c (UuObject o) = (UuErr (UuVersion v), Exact)).
Proof.
  intros st is_py c o. unfold Uuid.uuid_validate, wanted. destruct (uv_version c) as [v|].
  - pose proof (py_version_iff (uu_int o)) as V. destruct (py_version (uu_int o)) as [w|] eqn:E; [|split; intros H; [apply V in H; discriminate|eauto]].
    destruct (N.eqb_spec w v) as [->|Ne]; split; intros H; try reflexivity.
    + contradiction H. apply V. reflexivity.
    + apply V in H. congruence.
    + eauto.
  - split; [reflexivity|]. intros H. contradiction H. exact I.
Qed.
Theorem C74_refused : forall st is_py c i,
  (strictness st c = true -> is_py = true -> uuid_validate st is_py c (UuOther i) = (UuErr UuInstance, Exact))
  /\ (strictness st c && is_py = false -> text_of i = None -> bytes_of i = None -> uuid_validate st is_py c (UuOther i) = (UuErr UuType, exactness_of is_py)).
Proof.
  intros st is_py c i. split.
  - intros H ->. unfold Uuid.uuid_validate. unfold strictness in H. rewrite H. reflexivity.
  - intros H Ht Hb. rewrite (run st is_py c i H), Ht, Hb. reflexivity.
Qed.

(** C74: the JSON of a UUID is 36 characters, lower case, and read back is that UUID; so are its digits in any of the forms. *)
Theorem C74_round_trip : forall o, uu_int o < 2 ^ 128 ->
  form (uuid_to_string o) (uu_int o)
  /\ length (uuid_to_string o) = 36%nat
  /\ (forall c, In c (uuid_to_string o) -> lower_hex c \/ c = 45)
  /\ forall st c, wanted (uv_version c) (uu_int o) ->
     uuid_validate st false c (UuOther (IJson (JStr (uuid_to_string o)))) = (UuNew (mk_uuid (uu_int o) SafeYes), Exact).
Proof.
  intros o H. destruct (to_be_spec 16 (uu_int o) H) as (A & B & L).
  assert (O : octets (from_u128 (uu_int o))) by exact B.
  pose proof (hex_roundtrip _ O) as R. pose proof (hex_encode_lower (from_u128 (uu_int o))) as Lw.
  set (d := hex_encode (from_u128 (uu_int o))) in *.
  assert (Ld : length d = 32%nat) by (destruct (decode_bytes _ _ R) as [_ E]; rewrite E; unfold from_u128; rewrite L; reflexivity).
  assert (D : digits d (uu_int o)) by (apply decode_digits; [exact Ld|]; exists (from_u128 (uu_int o)); auto).
  assert (E : uuid_to_string o = groups (firstn 8 d) (firstn 4 (skipn 8 d)) (firstn 4 (skipn 12 d)) (firstn 4 (skipn 16 d)) (skipn 20 d)) by reflexivity.
  assert (Z : sizes (firstn 8 d) (firstn 4 (skipn 8 d)) (firstn 4 (skipn 12 d)) (firstn 4 (skipn 16 d)) (skipn 20 d)).
  { unfold sizes. rewrite !firstn_length, !skipn_length, Ld. repeat split. }
  assert (J : firstn 8 d ++ firstn 4 (skipn 8 d) ++ firstn 4 (skipn 12 d) ++ firstn 4 (skipn 16 d) ++ skipn 20 d = d).
  { clear - Ld. do 32 (destruct d as [|? d]; [discriminate Ld|]). destruct d; [reflexivity|discriminate Ld]. }
  assert (F : form (uuid_to_string o) (uu_int o)) by (rewrite E; apply form_groups; [exact Z|rewrite J; exact D]).
  split; [exact F|]. split; [rewrite E; apply groups_length; exact Z|]. split.
  - intros c Hc. rewrite E in Hc. unfold groups in Hc. cbn [lit] in Hc.
    assert (P : In c d \/ c = 45).
    { rewrite <- J. rewrite !in_app_iff in *. destruct Hc as [Hc|[Hc|[Hc|[Hc|[Hc|[Hc|[Hc|[Hc|Hc]]]]]]]]; try tauto; destruct Hc as [<-|[]]; right; reflexivity. }
    destruct P as [P| ->]; [left; apply Lw; assumption|right; reflexivity].
  - intros st c W. destruct (C74_text st false c (IJson (JStr (uuid_to_string o))) (uuid_to_string o)) as [T _]; [apply andb_false_r|reflexivity|].
    apply (T _ F W).
Qed.
End C74.
Print Assumptions C74_text.
Print Assumptions C74_bytes.
Print Assumptions C74_object.
Print Assumptions C74_refused.
Print Assumptions C74_round_trip.

Definition no_msg (_ : str) : str := [].
Definition no_len (_ : nat) : str := [].
Definition no_str (_ : pyval) : str := [].
Definition no_f64 (_ : Float64.f64) : str := [].
Notation validate0 := (uuid_validate no_msg no_len no_str no_f64).
Definition v4 : uuid_cfg := {| uv_strict := false; uv_version := Some 4 |}.
Definition four : uuid_obj := mk_uuid 0x12345678123443219abcdef012345678 SafeUnknown.
Example C74_nonvacuous :
  form (lit "urn:uuid:12345678-1234-4321-9ABC-def012345678") (uu_int four)
  /\ wanted (Some 4) (uu_int four)
  /\ validate0 None true v4 (UuOther (IPy (PStr (lit "urn:uuid:12345678-1234-4321-9ABC-def012345678")))) = (UuNew (mk_uuid (uu_int four) SafeYes), Lax)
  /\ validate0 None true v4 (UuOther (IPy (PStr (lit "12345678-1234-1321-9abc-def012345678")))) = (UuErr (UuVersion 4), Lax)
  /\ validate0 None true v4 (UuObject four) = (UuSame, Exact)
  /\ uuid_to_string four = lit "12345678-1234-4321-9abc-def012345678".
Proof.
  split; [|split; [vm_compute; split; reflexivity|vm_compute; repeat split]].
  apply try_parse_iff. eexists. split; [vm_compute; reflexivity|]. split; reflexivity.
Qed.

(** Finding: a validated UUID claims to have been generated in a multiprocessing-safe way, whatever the one it was written from said. *)
Theorem C74_safe_refuted : exists o st c o',
  validate0 st false c (UuOther (IJson (JStr (uuid_to_string o)))) = (UuNew o', Exact) /\ uu_int o' = uu_int o /\ uu_safe o = SafeNo /\ uu_safe o' = SafeYes.
Proof.
  exists (mk_uuid (uu_int four) SafeNo), None, v4, (mk_uuid (uu_int four) SafeYes). vm_compute. repeat split.
Qed.
(** Finding: a schema for version 2 is not refused but panics. *)
Theorem C74_build_refuted : build_version (Some 2) = None /\ forall v, build_version (Some v) <> None <-> In v [1; 3; 4; 5; 6; 7; 8].
Proof.
  split; [reflexivity|]. intros v. unfold build_version, version_of_u8. destruct (existsb (N.eqb v) [1; 3; 4; 5; 6; 7; 8]) eqn:E.
  - split; [|discriminate]. intros _. apply existsb_exists in E. destruct E as (x & I & E). apply N.eqb_eq in E. subst. exact I.
  - split; [intros H; contradiction H; reflexivity|]. intros I. rewrite (proj2 (existsb_exists _ _)) in E; [discriminate|]. exists v. split; [exact I|apply N.eqb_refl].
Qed.
Print Assumptions C74_safe_refuted.
Print Assumptions C74_build_refuted.
