(** C81: generators are serialized like the lists of their items. *)
From Coq Require Import List NArith ZArith Bool Lia PeanoNat.
From Verif Require Import Base Values Filter SerBase Ser SerGen SerGenSpec SerProps.
Import ListNotations.
Open Scope nat_scope.

Lemma map_key_in : forall n k, key_in n k -> map_negative_index k (Some n) = map_negative_index k None.
Proof.
  intros n [z|s] H; [|reflexivity]. cbn in *. destruct (Z.ltb_spec z 0); [lia|]. destruct (Z.eqb_spec n 0); [lia|]. rewrite Z.mod_small by exact H. reflexivity.
Qed.
Lemma map_opt_in : forall n f, keys_in n f -> map_opt f (Some (Z.of_nat n)) = map_opt f None.
Proof.
  intros n [f|] H; [|reflexivity]. cbn [map_opt]. assert (E : map_negative_indices f (Some (Z.of_nat n)) = map_negative_indices f None); [|rewrite E; reflexivity].
  destruct f as [| |d|l|l|]; try reflexivity; cbn [map_negative_indices keys_in] in *.
  - assert (E : forall acc, map_keys (Some (Z.of_nat n)) d acc = map_keys None d acc); [|rewrite E; reflexivity].
    induction H as [|[k v] d Hk Hd IH]; intros acc; [reflexivity|]. cbn [map_keys]. rewrite (map_key_in _ k Hk). destruct (map_negative_index k None); [apply IH|reflexivity|reflexivity].
  - assert (E : map_elems (Some (Z.of_nat n)) l = map_elems None l); [|rewrite E; reflexivity].
    induction H as [|k l Hk Hl IH]; [reflexivity|]. cbn [map_elems]. rewrite (map_key_in _ k Hk), IH. reflexivity.
Qed.
Lemma index_filter_in : forall f i n inc exc, keys_in n inc -> keys_in n exc -> index_filter f i inc exc (Some (Z.of_nat n)) = index_filter f i inc exc None.
Proof. intros f i n inc exc Hi He. unfold index_filter. rewrite (map_opt_in n inc Hi), (map_opt_in n exc He). reflexivity. Qed.
Lemma loop_list : forall A f inc exc n (each : pyval -> incl -> incl -> M A) l i, keys_in n inc -> keys_in n exc ->
  gen_loop f inc exc each i (map Yield l) = filtered f inc exc (Some (Z.of_nat n)) each i l.
Proof.
  intros A f inc exc n each l. induction l as [|v l IH]; intros i Hi He; [reflexivity|]. cbn [map gen_loop filtered]. rewrite (index_filter_in f _ n inc exc Hi He).
  unfold bind. destruct (index_filter f (Z.of_nat i) inc exc None) as [[[ni ne]|]| |]; cbn [res_opt ret fail fst snd]; try reflexivity; rewrite (IH (S i) Hi He); reflexivity.
Qed.

Section C81.
Variable f : schema_filter.
Variable s : sz.
Variable inc exc : incl.
Variable x : extra.

(** C81: in JSON mode a generator is written as the list of what it yields, with the same
    filters, warnings and errors, if the filters name no index that the list lacks. *)
Theorem C81_json : forall L l, keys_in (length l) inc -> keys_in (length l) exc ->
  gen_py f s (map Yield l) inc exc x = z_py (list_ser L f s) (PList l) inc exc x
  /\ gen_js f s (map Yield l) inc exc x = z_js (list_ser L f s) (PList l) inc exc x.
Proof.
  intros L l Hi He. unfold gen_py, gen_js, list_ser. cbn [simple z_py z_js down_list base]. unfold zlen.
  split; rewrite (loop_list _ f inc exc (length l) _ l 0 Hi He); reflexivity.
Qed.
(** C81: if it raises an exception, so does the call. *)
Theorem C81_raises : forall l, In Throw l ->
  (exists e, snd (gen_py f s l inc exc x) = Bad e) /\ (exists e, snd (gen_js f s l inc exc x) = Bad e)
  /\ forall w ws, to_list w f s inc exc x (new_iter ws l) = None.
Proof.
  assert (G : forall A (each : pyval -> incl -> incl -> M A) l i, In Throw l -> exists e, snd (gen_loop f inc exc each i l) = Bad e).
  { intros A each l. induction l as [|[v|] l IH]; intros i H; [destruct H| |eexists; reflexivity]. destruct H as [H|H]; [discriminate H|].
    cbn [gen_loop]. unfold bind. destruct (index_filter f (Z.of_nat i) inc exc None) as [[[ni ne]|]| |]; cbn [res_opt ret fail fst snd]; try (eexists; reflexivity); [|apply IH, H].
    destruct (each v ni ne) as [ws [a|e]]; cbn [snd fst]; [|eexists; reflexivity]. destruct (IH (S i) H) as [e E]. destruct (gen_loop f inc exc each (S i) l) as [ws' o]. cbn [snd] in *. subst o. eexists. reflexivity. }
  intros l H. split; [|split].
  - unfold gen_py, bind. destruct (G _ (fun e i e' => z_py s e i e' x) l 0 H) as [e E]. rewrite E. eexists. reflexivity.
  - unfold gen_js, bind. destruct (G _ (fun e i e' => z_js s e i e' x) l 0 H) as [e E]. rewrite E. eexists. reflexivity.
  - intros w ws. unfold to_list, new_iter. cbn [it_rest].
    assert (D : forall l k i ws, length l < k -> In Throw l -> drain w f s inc exc x k {| it_rest := l; it_index := i; it_warned := ws |} = None).
    { clear l H ws. intros l. induction l as [|[v|] l IH]; intros k i ws Hk H; [destruct H| |].
      - destruct H as [H|H]; [discriminate H|]. destruct k as [|k]; [reflexivity|]. cbn [length] in Hk. cbn [drain]. unfold iter_next. cbn [it_rest it_index it_warned next_from].
        destruct (index_filter f (Z.of_nat i) inc exc None) as [[[ni ne]|]| |]; try reflexivity.
        + destruct (snd (z_py s v ni ne x)) as [a|e]; [|reflexivity]. unfold check_warnings. destruct w; [| |destruct (is_nil _); [|reflexivity]]; rewrite IH by (lia || exact H); reflexivity.
        + specialize (IH (S k) (S i) ws ltac:(lia) H). cbn [drain] in IH. unfold iter_next in IH. cbn [it_rest it_index it_warned] in IH. exact IH.
      - destruct k as [|k]; reflexivity. }
    apply D; [lia|exact H].
Qed.

(** C81: in Python mode next() takes from the generator the elements up to the first one
    that is not left out, and no more; it returns that element, serialized. *)
Theorem C81_next : forall w it v shown it', iter_next w f s inc exc x it = (Element v shown, it') ->
  exists skipped e ni ne ws,
    it_rest it = map Yield skipped ++ Yield e :: it_rest it'
    /\ (forall k, k < length skipped -> left_out f inc exc (it_index it + k))
    /\ index_filter f (Z.of_nat (it_index it + length skipped)) inc exc None = Ok (Some (ni, ne))
    /\ z_py s e ni ne x = (ws, Good v)
    /\ it_index it' = it_index it + length skipped + 1.
Proof.
  intros w [l i ws] v shown it'. unfold iter_next. cbn [it_rest it_index it_warned]. revert i. induction l as [|[e|] l IH]; intros i H; cbn [next_from] in H; try discriminate H.
  destruct (index_filter f (Z.of_nat i) inc exc None) as [[[ni ne]|]| |] eqn:F; try discriminate H.
  - injection H as H <-. exists [], e, ni, ne, (fst (z_py s e ni ne x)). cbn [map app length it_rest it_index]. rewrite Nat.add_0_r.
    split; [reflexivity|]. split; [intros k Hk; lia|]. split; [exact F|]. split; [|lia].
    destruct (z_py s e ni ne x) as [ws' [a|r]]; cbn [snd fst] in *; [|discriminate H]. unfold check_warnings in H.
    destruct w; [injection H as -> _|injection H as -> _|destruct (is_nil _); [injection H as -> _|discriminate H]]; reflexivity.
  - destruct (IH (S i) H) as (sk & e' & ni & ne & ws' & E & Sk & F' & Z & I). exists (e :: sk), e', ni, ne, ws'. cbn [map app length]. rewrite E.
    split; [reflexivity|]. split.
    + intros k Hk. destruct k as [|k]; [rewrite Nat.add_0_r; exact F|]. specialize (Sk k ltac:(lia)). replace (i + S k) with (S i + k) by lia. exact Sk.
    + split; [replace (i + S (length sk)) with (S i + length sk) by lia; exact F'|]. split; [exact Z|lia].
Qed.

(** C81: the elements of the iterator are those of the list that JSON mode and list
    schemas make, and the iterator raises if they do; no warnings are shown if there are
    none. *)
Theorem C81_python : forall w l, w <> WError ->
  match snd (gen_py f s l inc exc x) with
  | Good (PList r) => exists shown, to_list w f s inc exc x (new_iter [] l) = Some (r, shown)
      /\ (fst (gen_py f s l inc exc x) = [] -> shown = repeat [] (length r))
  | Good _ => False
  | Bad _ => to_list w f s inc exc x (new_iter [] l) = None
  end.
Proof.
  intros w l W.
  assert (D : forall l k i ws, length l < k ->
    let m := gen_loop f inc exc (fun e i e' => z_py s e i e' x) i l in
    match snd m with
    | Good r => exists shown, drain w f s inc exc x k {| it_rest := l; it_index := i; it_warned := ws |} = Some (r, shown) /\ (ws ++ fst m = [] -> shown = repeat [] (length r))
    | Bad _ => drain w f s inc exc x k {| it_rest := l; it_index := i; it_warned := ws |} = None
    end).
  { clear l. intros l. induction l as [|[v|] l IH]; intros k i ws Hk; cbn [gen_loop length] in *; (destruct k as [|k]; [lia|]); cbn [drain]; unfold iter_next; cbn [it_rest it_index it_warned next_from].
    - cbn. exists []. split; [reflexivity|]. intros _. reflexivity.
    - unfold bind. destruct (index_filter f (Z.of_nat i) inc exc None) as [[[ni ne]|]| |]; cbn [res_opt ret fail fst snd app]; try reflexivity.
      + destruct (z_py s v ni ne x) as [ws1 [a|e]]; cbn [snd fst]; [|reflexivity]. specialize (IH k (S i) (ws ++ ws1) ltac:(lia)). cbv zeta in IH.
        destruct (gen_loop f inc exc (fun e i e' => z_py s e i e' x) (S i) l) as [ws2 [r|e]]; cbn [snd fst] in *.
        * destruct IH as (shown & E & N). exists ((match w with WNone => [] | _ => ws ++ ws1 end) :: shown).
          split; [unfold check_warnings; destruct w; [| |contradiction]; rewrite E; reflexivity|].
          rewrite app_nil_r, app_assoc. intros Z. cbn [length repeat]. rewrite (N Z). f_equal. apply app_eq_nil in Z as [Z _]. rewrite Z. destruct w; reflexivity.
        * unfold check_warnings; destruct w; [| |contradiction]; rewrite IH; reflexivity.
      + specialize (IH (S k) (S i) ws ltac:(lia)). cbv zeta in IH. destruct (gen_loop f inc exc (fun e i e' => z_py s e i e' x) (S i) l) as [ws2 [r|e]]; cbn [snd fst drain] in *; unfold iter_next in IH; cbn [it_rest it_index it_warned] in IH; exact IH.
    - reflexivity. }
  specialize (D l (S (length l)) 0 [] ltac:(lia)). cbv zeta in D. unfold gen_py, bind, to_list, new_iter. cbn [it_rest].
  destruct (gen_loop f inc exc (fun e i e' => z_py s e i e' x) 0 l) as [ws [r|e]]; cbn [snd fst ret] in *; [|exact D].
  destruct D as (shown & E & N). exists shown. split; [exact E|]. rewrite app_nil_r. exact N.
Qed.

(** C81: each element shows, besides its own warnings, all the warnings that were shown
    with the elements before it and those recorded before the iterator was made. *)
Theorem C81_shown : forall it r shown, to_list WWarn f s inc exc x it = Some (r, shown) ->
  length shown = length r /\ growing (it_warned it) shown.
Proof.
  intros it r shown. unfold to_list. generalize (S (length (it_rest it))). intros n. revert it r shown. induction n as [|n IH]; intros it r shown H; [discriminate H|].
  cbn [drain] in H. destruct (iter_next WWarn f s inc exc x it) as [[v sh| |] it'] eqn:N; [|discriminate H|injection H as <- <-; split; [reflexivity|exact I]].
  destruct (drain WWarn f s inc exc x n it') as [[r' shown']|] eqn:D; [|discriminate H]. injection H as <- <-. destruct (IH it' r' shown' D) as [Len Grow]. split; [cbn [length]; rewrite Len; reflexivity|].
  assert (W : sh = it_warned it' /\ exists q, it_warned it' = it_warned it ++ q).
  { clear - N. destruct it as [l i ws]. unfold iter_next in N. cbn [it_rest it_index it_warned] in *. revert i N. induction l as [|[e|] l IH]; intros i N; cbn [next_from] in N; try discriminate N.
    destruct (index_filter f (Z.of_nat i) inc exc None) as [[[ni ne]|]| |]; try discriminate N; [|exact (IH _ N)].
    destruct (z_py s e ni ne x) as [ws' [a|b]]; cbn [snd fst check_warnings] in N; [|discriminate N]. injection N as _ <- <-. cbn [it_warned]. split; [reflexivity|exists ws'; reflexivity]. }
  destruct W as [-> Q]. cbn [growing]. split; assumption.
Qed.
(** C81: with warnings='error', once a warning is recorded no element is returned. *)
Theorem C81_error : forall it n, it_warned it <> [] -> Forall (fun a => forall v shown, a <> Element v shown) (fst (calls WError f s inc exc x n it)).
Proof.
  intros it n. revert it. induction n as [|n IH]; intros it W; [constructor|]. cbn [calls].
  assert (P : (forall v shown, fst (iter_next WError f s inc exc x it) <> Element v shown) /\ it_warned (snd (iter_next WError f s inc exc x it)) <> []).
  { destruct it as [l i ws]. unfold iter_next. cbn [it_rest it_index it_warned] in *. revert i. induction l as [|[e|] l IHl]; intros i; cbn [next_from fst snd it_warned]; try (split; [discriminate|exact W]).
    destruct (index_filter f (Z.of_nat i) inc exc None) as [[[ni ne]|]| |]; cbn [fst snd it_warned]; try (split; [discriminate|exact W]); [|apply IHl].
    assert (W' : ws ++ fst (z_py s e ni ne x) <> []) by (intros Z; apply app_eq_nil in Z as [Z _]; contradiction). split; [|exact W'].
    intros v shown. destruct (snd (z_py s e ni ne x)); [|discriminate]. unfold check_warnings. destruct (ws ++ fst (z_py s e ni ne x)); [contradiction|discriminate]. }
  destruct (iter_next WError f s inc exc x it) as [a it']. cbn [fst snd] in P. destruct P as [Pa Pw]. specialize (IH it' Pw). destruct (calls WError f s inc exc x n it') as [r it'']. constructor; assumption.
Qed.
End C81.
Print Assumptions C81_json.
Print Assumptions C81_raises.
Print Assumptions C81_next.
Print Assumptions C81_python.
Print Assumptions C81_shown.
Print Assumptions C81_error.

(** *** Examples: the items are ints. *)
Definition c81_level : level := levels E0 3.
Definition c81_items : sz := int_ser E0 c81_level.
Definition c81_x (json : bool) : extra := start conf json opts.
Definition c81_gen : list event := map Yield [PInt 1; PStr (lit "x"); PInt 3; PInt 4].
Example C81_ex_json : keys_in 4 (Some (FSet [KInt 2])) /\
  gen_js any_filter c81_items c81_gen None (Some (FSet [KInt 2])) (c81_x true) = ([WFallback (PStr (lit "x"))], Good (JArr [JInt 1; JStr (lit "x"); JInt 4])).
Proof. split; [repeat constructor; lia|lazy; reflexivity]. Qed.
Example C81_ex_python : to_list WWarn any_filter c81_items None (Some (FSet [KInt 1])) (c81_x false) (new_iter [] c81_gen) = Some ([PInt 1; PInt 3; PInt 4], [[]; []; []]).
Proof. lazy. reflexivity. Qed.
Example C81_ex_next : exists it, iter_next WWarn any_filter c81_items None (Some (FSet [KInt 0])) (c81_x false) (new_iter [] c81_gen) = (Element (PStr (lit "x")) [WFallback (PStr (lit "x"))], it).
Proof. eexists. lazy. reflexivity. Qed.
Example C81_ex_raises : In Throw [Yield (PInt 1); Throw] /\ to_list WWarn any_filter c81_items None None (c81_x false) (new_iter [] [Yield (PInt 1); Throw]) = None.
Proof. split; [right; left; reflexivity|lazy; reflexivity]. Qed.

(** One would expect a warning to be shown once.  It is shown again with each later
    element, and so is what was recorded before the iterator was made. *)
Theorem C81_once_refuted : exists w, to_list WWarn any_filter c81_items None None (c81_x false) (new_iter [] c81_gen) = Some ([PInt 1; PStr (lit "x"); PInt 3; PInt 4], [[]; [w]; [w]; [w]]).
Proof. exists (WFallback (PStr (lit "x"))). lazy. reflexivity. Qed.
Theorem C81_copied_refuted : exists w, to_list WWarn any_filter c81_items None None (c81_x false) (new_iter [w] (map Yield [PInt 1; PInt 2])) = Some ([PInt 1; PInt 2], [[w]; [w]]).
Proof. exists WUnion. lazy. reflexivity. Qed.
(** One would expect an element that fits its schema to be returned by next().  With
    warnings='error' it is not if one before it did not fit. *)
Theorem C81_error_refuted :
  fst (calls WError any_filter c81_items None None (c81_x false) 4 (new_iter [] c81_gen)) = [Element (PInt 1) []; Raises; Raises; Raises]
  /\ fst (calls WError any_filter c81_items None None (c81_x false) 2 (new_iter [] (skipn 2 c81_gen))) = [Element (PInt 3) []; Element (PInt 4) []].
Proof. split; lazy; reflexivity. Qed.
(** One would expect filters to mean for generators what they mean for lists.  An index
    counted from the end raises, and one past the end names nothing where in a list it
    wraps around. *)
Theorem C81_negative_refuted : exists exc,
  z_js (list_ser c81_level any_filter c81_items) (PList [PInt 1; PInt 2]) None exc (c81_x true) = ([], Good (JArr [JInt 1]))
  /\ snd (gen_js any_filter c81_items (map Yield [PInt 1; PInt 2]) None exc (c81_x true)) = Bad EOther.
Proof. exists (Some (FSet [KInt (-1)])). split; lazy; reflexivity. Qed.
Theorem C81_wraps_refuted : exists exc,
  z_js (list_ser c81_level any_filter c81_items) (PList [PInt 1; PInt 2]) None exc (c81_x true) = ([], Good (JArr [JInt 1]))
  /\ gen_js any_filter c81_items (map Yield [PInt 1; PInt 2]) None exc (c81_x true) = ([], Good (JArr [JInt 1; JInt 2])).
Proof. exists (Some (FSet [KInt 3])). split; lazy; reflexivity. Qed.
Print Assumptions C81_once_refuted.
Print Assumptions C81_copied_refuted.
Print Assumptions C81_error_refuted.
Print Assumptions C81_negative_refuted.
Print Assumptions C81_wraps_refuted.
