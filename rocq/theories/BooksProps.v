(** C25 for a whole schema. *)
From Coq Require Import List NArith ZArith Bool Lia.
From Verif Require Import Base Float64 IntParse Numbers BytesCodec Values VState LookupKey Collections Child Inputs Scalars Literal Wrappers Union TaggedUnion Tuple ModelFields TypedDict Assign Arguments Classes Interp InterpSpec InterpExamples LooseSpec UnionSpec BooksSpec BooksProofs.
From Verif Require SolidProofs.
Import ListNotations.
Open Scope nat_scope.

(** C25: no collection, field set, class or union at any depth makes the match look better to
    the caller than it was before, or loses fields counted before. *)
Theorem C25_every_schema : forall E defs fuel sc, holds_of bookish defs sc -> keeps_books (run E defs fuel sc).
Proof. intros E defs fuel sc H. now apply keeps_spec, run_books. Qed.
Print Assumptions C25_every_schema.

(** C25: without smart unions it is so even when the result is an omission or an error of the
    user's code, and whatever the schema does about them. *)
Theorem C25_without_smart : forall E defs fuel sc i s r s', everywhere no_smart sc -> run E defs fuel sc i s = (r, s') ->
  exactness_le (st_exactness s') (st_exactness s) /\ count_le (st_fields_set s) (st_fields_set s').
Proof. intros E defs fuel sc i s r s' W R. pose proof (proj1 (SolidProofs.eval_solid E (refs E defs fuel 0) sc W) i s) as K. unfold run in R. rewrite R in K. exact K. Qed.
Print Assumptions C25_without_smart.
(** A record with a field that omits, whose field before it matched in lax mode only. *)
Definition loose_record : schema := STypedDict (xinfos ExtraIgnore) [xfield (lit "a") true xint; xfield (lit "b") false (SDefault DNone OnOmit false xint)] None.
Example C25_without_smart_ex :
  let x := st_extra (call_state ITPython ex_opts) in let s := {| st_exactness := Some Exact; st_fields_set := Some 3; st_partial := PartialOff; st_extra := x |} in
  everywhere no_smart loose_record /\
  (let '(r, t) := run ex_env (fun _ => None) 0 loose_record (IPy (PDict [(PStr (lit "a"), PStr (lit "1")); (PStr (lit "b"), PNone)])) s in
   r = VOk (PDict [(PStr (lit "a"), PInt 1)]) /\ st_exactness t = Some Lax /\ st_fields_set t = Some 4).
Proof.
  cbv zeta. split; [|vm_compute; repeat split]. constructor; [exact I|]. intros c [<- |[<- |[]]]; (constructor; [exact I|]); [intros ? []|].
  intros c [<- |[]]. constructor; [exact I|intros ? []].
Qed.

(** A list of records with a union in them: a lax match at the bottom shows at the top. *)
Definition cell : schema := SUnion UnionSmart None [(xint, lit "int"); (SBool false, lit "bool")].
Definition row : schema := STypedDict (xinfos ExtraIgnore) [xfield (lit "a") true cell; xfield (lit "b") false (SDefault (DValue (PInt 7)) OnRaise true cell); xfield (lit "c") false (SLaxOrStrict false cell xint);
  xfield (lit "d") false (SDefault (DValue (PInt 0)) OnDefault false xint)] None.
Lemma xint_bookish : everywhere bookish xint. Proof. constructor; [split; exact I|intros ? []]. Qed.
Lemma cell_bookish : everywhere bookish cell.
Proof. constructor; [split; [discriminate|exact I]|]. intros c [<- |[<- |[]]]; [apply xint_bookish|]. constructor; [split; exact I|intros ? []]. Qed.
Example C25_every_schema_ex :
  let sc := SList xcoll (Some row) in let s := floor_exactness Exact (call_state ITPython ex_opts) in
  let s := {| st_exactness := Some Exact; st_fields_set := Some 3; st_partial := st_partial s; st_extra := st_extra s |} in
  let i := IPy (PList [PDict [(PStr (lit "a"), PStr (lit "1")); (PStr (lit "c"), PInt 5); (PStr (lit "d"), PNone)]]) in
  holds_of bookish (fun _ => None) sc /\
  (let '(r, t) := run ex_env (fun _ => None) 0 sc i s in r = VOk (PList [PDict [(PStr (lit "a"), PInt 1); (PStr (lit "b"), PInt 7); (PStr (lit "c"), PInt 5); (PStr (lit "d"), PInt 0)]]) /\ st_exactness t = Some Lax /\ st_fields_set t <> Some 0).
Proof.
  cbv zeta. split; [|vm_compute; repeat split; discriminate]. split; [|discriminate].
  assert (N : everywhere no_smart xint) by (constructor; [exact I|intros ? []]).
  constructor; [split; exact I|]. intros c [<- |[]]. constructor; [split; exact I|]. intros c [<- |[<- |[<- |[<- |[]]]]].
  - apply cell_bookish.
  - constructor; [repeat split; [discriminate|now left]|]. intros c [<- |[]]. apply cell_bookish.
  - constructor; [split; [exact I|exact N]|]. intros c [<- |[<- |[]]]; [apply cell_bookish|apply xint_bookish].
  - constructor; [repeat split; [discriminate|now right]|]. intros c [<- |[]]. apply xint_bookish.
Qed.

(** C25: a default taken after an error of the user's code is outside the claim.  The error
    leaves the inner union before it has put back the caller's match, so the outer union takes
    the text "1" for a number though another member takes it as the text it is. *)
Definition broken : schema := SPlain (fun _ _ => inr (XOther 0)) None.
Definition record (sc inner : schema) : schema :=
  STypedDict (xinfos ExtraIgnore) [xfield (lit "a") true sc; xfield (lit "b") true (SDefault (DValue (PInt 0)) OnDefault false inner)] None.
Theorem C25_swallowed_refuted : exists i,
  let outer inner := SUnion UnionSmart None [(record xint inner, lit "int"); (record xstr inner, lit "str")] in
  let out inner := fst (run ex_env (fun _ => None) 0 (outer inner) i (call_state ITPython ex_opts)) in
  out (SUnion UnionSmart None [(broken, lit "x"); (xint, lit "y")]) = VOk (PDict [(PStr (lit "a"), PInt 1); (PStr (lit "b"), PInt 0)]) /\
  out broken = VOk (PDict [(PStr (lit "a"), PStr (lit "1")); (PStr (lit "b"), PInt 0)]).
Proof.
  exists (IPy (PDict [(PStr (lit "a"), PStr (lit "1")); (PStr (lit "b"), PInt 2)])). cbv zeta. split; vm_compute; reflexivity.
Qed.
Print Assumptions C25_swallowed_refuted.
