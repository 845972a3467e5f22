(** C53: bytes written as text and read back. *)
From Coq Require Import List NArith ZArith Bool Lia.
From Verif Require Import Base Utf8 BytesCodec BytesCodecSpec BytesCodecProofs.
Import ListNotations.
Open Scope N_scope.

(** C53.  Whatever the mode, when a byte string can be serialized as text,
    validating that text in the same mode gives back the byte string. *)
Theorem C53_bytes_roundtrip : forall m bs s,
  octets bs -> bytes_to_string m bs = Some s -> deserialize_string m s = Some bs.
Proof.
  intros [] bs s Ho H; simpl in *.
  - apply from_utf8_sound in H as [H _]. congruence.
  - injection H as <-. apply (proj2 (deserialize_b64_iff _ bs)). split; [assumption|]. left.
    destruct (encode_padded URL_SAFE bs Ho) as [p [H _]]. exists p. exact H.
  - injection H as <-. apply hex_roundtrip. assumption.
Qed.
Print Assumptions C53_bytes_roundtrip.

(** C53.  Base-64 and hex can serialize every byte string; UTF-8 mode exactly
    those that encode some text, and that text is the result. *)
Theorem C53_bytes_serializable : forall m bs,
  octets bs ->
  (exists s, bytes_to_string m bs = Some s) <->
  (m = MUtf8 -> exists s, scalars s /\ utf8 s = bs).
Proof.
  intros m bs Ho. destruct m; simpl.
  - split.
    + intros [s H] _. apply from_utf8_sound in H as [H1 H2]. eauto.
    + intros H. destruct (H eq_refl) as [s [Hs <-]]. exists s. apply from_utf8_utf8. assumption.
  - split; [discriminate | eauto].
  - split; [discriminate | eauto].
Qed.
Print Assumptions C53_bytes_serializable.

(** C53.  The text written in base-64 mode is the padded RFC 4648 URL-safe text. *)
Theorem C53_base64_is_rfc4648 : forall bs s,
  octets bs -> bytes_to_string MBase64 bs = Some s -> b64_padded url_table bs s.
Proof. intros bs s Ho H. injection H as <-. apply (encode_padded URL_SAFE). assumption. Qed.
Print Assumptions C53_base64_is_rfc4648.

(** C53.  The texts read in base-64 mode: exactly the RFC 4648 texts over the
    URL-safe or the standard alphabet, with any amount of the due padding. *)
Theorem C53_base64_accepted : forall s bs,
  deserialize_string MBase64 s = Some bs <->
  octets bs /\ ((exists p, b64_text url_table bs p s) \/ (exists p, b64_text std_table bs p s)).
Proof. exact deserialize_b64_iff. Qed.
Print Assumptions C53_base64_accepted.

(** C53.  The texts read in hex mode: two hex digits per byte, either case;
    written in lower case. *)
Theorem C53_hex_accepted : forall s bs, deserialize_string MHex s = Some bs <-> hex_text bs s.
Proof. exact hex_decode_iff. Qed.
Print Assumptions C53_hex_accepted.
Theorem C53_hex_lower : forall bs s c,
  octets bs -> bytes_to_string MHex bs = Some s -> In c s -> In c (lit "0123456789abcdef").
Proof. intros bs s c Ho H Hc. injection H as <-. apply (hex_encode_lower bs); assumption. Qed.
Print Assumptions C53_hex_lower.

(** The RFC 4648 section 10 vectors and a URL-safe/standard case. *)
Example C53_case :
  octets (lit "fooba") /\
  bytes_to_string MBase64 (lit "fooba") = Some (lit "Zm9vYmE=") /\
  bytes_to_string MBase64 (lit "foob") = Some (lit "Zm9vYg==") /\
  bytes_to_string MBase64 [251; 255; 191] = Some (lit "-_-_") /\
  deserialize_string MBase64 (lit "+/+/") = Some [251; 255; 191] /\
  deserialize_string MBase64 (lit "-_+/") = None /\
  deserialize_string MBase64 (lit "Zm9vYg=") = Some (lit "foob") /\
  deserialize_string MBase64 (lit "Zm9vYh==") = None /\
  bytes_to_string MHex [0; 171; 255] = Some (lit "00abff") /\
  deserialize_string MHex (lit "00aBFf") = Some [0; 171; 255] /\
  bytes_to_string MUtf8 [195; 169] = Some [233] /\ bytes_to_string MUtf8 [195] = None.
Proof. split; [repeat constructor|]. vm_compute. intuition. Qed.
