(** C44: truncation of long values in error messages. *)
From Coq Require Import List NArith ZArith Bool Lia.
From Verif Require Import Base Utf8 Truncate TruncateProofs.
Import ListNotations.
Open Scope nat_scope.

(** C44.  For every text and limit: a short text is written unchanged; a long one
    is written as a prefix, three dots and a suffix of the text, cut between
    characters ([pre], [mid], [suf] are lists of whole characters), the two kept
    parts not overlapping and together within the limit.  Nothing panics. *)
Theorem C44_truncation_safe : forall s max,
  scalars s -> 1 <= max ->
  (length (utf8 s) <= max -> write_truncated (utf8 s) max = Some (utf8 s)) /\
  (max < length (utf8 s) ->
   exists pre mid suf,
     s = pre ++ mid ++ suf /\
     write_truncated (utf8 s) max = Some (utf8 (pre ++ lit "..." ++ suf)) /\
     length (utf8 pre) + length (utf8 suf) <= max).
Proof.
  intros s max Hs Hm. split.
  - intros H. unfold write_truncated. apply Nat.ltb_ge in H. rewrite H. reflexivity.
  - intros H. destruct (truncate_spec s max Hs Hm H) as [pre [mid [suf [E [W L]]]]].
    exists pre, mid, suf. split; [exact E|]. split; [rewrite W, !utf8_app; reflexivity|]. cbv zeta in L.
    assert (2 * ((max + 1) / 2) <= max + 1) by (apply Nat.mul_div_le; lia). lia.
Qed.
Print Assumptions C44_truncation_safe.

(** C44.  As much as possible is kept: at most three bytes less than half the
    limit on each side. *)
Theorem C44_truncation_keeps : forall s max,
  scalars s -> 1 <= max -> max < length (utf8 s) ->
  exists pre mid suf,
    s = pre ++ mid ++ suf /\
    write_truncated (utf8 s) max = Some (utf8 (pre ++ lit "..." ++ suf)) /\
    max <= 2 * (length (utf8 pre) + 3) /\ max <= 2 * (length (utf8 suf) + 4).
Proof.
  intros s max Hs Hm H. destruct (truncate_spec s max Hs Hm H) as [pre [mid [suf [E [W L]]]]].
  exists pre, mid, suf. split; [exact E|]. split; [rewrite W, !utf8_app; reflexivity|]. cbv zeta in L.
  assert (max < 2 * ((max + 1) / 2) + 1).
  { pose proof (Nat.mod_upper_bound (max + 1) 2 ltac:(lia)). pose proof (Nat.div_mod (max + 1) 2 ltac:(lia)). lia. }
  lia.
Qed.
Print Assumptions C44_truncation_keeps.

(** Four-byte characters around both cut points, limit 7. *)
Example C44_case :
  let s := lit "abc" ++ [128512; 128512; 233]%N ++ lit "xy" in
  scalars s /\ 7 < length (utf8 s) /\
  write_truncated (utf8 s) 7 = Some (utf8 (lit "abc...xy")) /\
  write_truncated (utf8 s) 8 = Some (utf8 (lit "abc...xy")) /\
  write_truncated (utf8 s) 9 = Some (utf8 (lit "abc..." ++ [233%N] ++ lit "xy")).
Proof. split; [repeat constructor|]. vm_compute. intuition; discriminate. Qed.
