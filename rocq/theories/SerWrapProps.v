(** C82: wrap functions as serializers. *)
From Coq Require Import List NArith ZArith Bool Lia PeanoNat.
From Verif Require Import Base Values Filter SerBase Ser SerProps SerGen SerGenSpec SerGenProps SerWrap SerWrapSpec.
Import ListNotations.
Open Scope nat_scope.

Section C82.
Variable E : env.
Variable L : level.
Variable w : warnings_mode.
Variable u : when_used.
Variable is_field : bool.
Variable s r : sz.
Variable inc exc : incl.
Variable x : extra.

(** C82: a function that only calls its handler gets what the wrapped schema makes of the
    value with the filters of the call, once; the result schema is applied to that. *)
Theorem C82_identity : forall v a, should_use u v x = true -> z_py s v inc exc x = ([], Good a) ->
  wrap_py L w u false call_once s r [] v inc exc x = ([{| h_shown := []; h_answer := inl a |}], z_py r a None None x)
  /\ wrap_js L w u false call_once s r [] v inc exc x = ([{| h_shown := []; h_answer := inl a |}], z_js r a None None x).
Proof. intros v a U H. unfold wrap_py, wrap_js, wrap_call, call_once, run, handler, call_filter. rewrite U, H. cbn [fst snd app]. destruct w; split; reflexivity. Qed.

(** C82: a function that does not call its handler is a plain function. *)
Theorem C82_plain : forall f recorded v,
  let p := function_ser L u is_field (as_plain f) r (Some s) in
  wrap_py L w u is_field (plain_of f) s r recorded v inc exc x = ([], z_py p v inc exc x)
  /\ wrap_js L w u is_field (plain_of f) s r recorded v inc exc x = ([], z_js p v inc exc x)
  /\ wrap_key L w u is_field (plain_of f) s r recorded v x = ([], z_key p v x).
Proof.
  intros f recorded v. cbv zeta. unfold wrap_py, wrap_js, wrap_key, wrap_call, function_ser, plain_of, as_plain. cbn [simple z_py z_js z_key].
  destruct (should_use u v x); [|repeat split].
  destruct is_field; [destruct (x_model x) as [m|]; [|repeat split; reflexivity]; destruct (f (Some m) v) as [a|[| |]]|destruct (f None v) as [a|[| |]]]; repeat split; reflexivity.
Qed.

(** C82: how the function ends decides: its result is serialized with the result schema,
    without filters; an unexpected-value exception is a warning (an error when a union tries
    its members) and the value is inferred with the filters; any other exception, also a
    PydanticOmit of the handler that it lets pass, is an error. *)
Theorem C82_end : forall f recorded v l o, should_use u v x = true ->
  wrap_call w is_field f s recorded v inc exc x = (l, Some o) ->
  wrap_py L w u is_field f s r recorded v inc exc x = (l,
    match o with
    | inl a => z_py r a None None x
    | inr XUnexpected => if check_enabled (x_check x) then fail EUnexpected else _ <- register WFunction x ;; l_py L v inc exc x
    | inr _ => fail EOther
    end).
Proof. intros f recorded v l o U H. unfold wrap_py. rewrite U, H. destruct o as [a|[| |]]; cbn [after_call wrap_error]; try reflexivity. destruct (check_enabled (x_check x)); reflexivity. Qed.

(** C82: calling the handler with each item and its index, leaving out what it says to
    leave out, makes the list that a list schema makes, or fails alike. *)
Theorem C82_items : forall l, keys_in (length l) inc -> keys_in (length l) exc ->
  let m := z_py (list_ser L any_filter s) (PList l) inc exc x in
  w <> WError \/ fst m = [] ->
  snd (run w s inc exc x [] (each_item 0 l [])) =
    match snd m with Good a => Some (inl a) | Bad EUnexpected => Some (inr XUnexpected) | Bad EOther => Some (inr XOther) | Bad ECrash => None end.
Proof.
  intros l Hi He. cbv zeta. unfold list_ser. cbn [simple z_py down_list base]. unfold zlen.
  rewrite <- (loop_list _ any_filter inc exc (length l) (fun e i e' => z_py s e i e' x) l 0 Hi He). clear Hi He.
  assert (G : forall l i h out, w <> WError \/ h ++ fst (gen_loop any_filter inc exc (fun e i e' => z_py s e i e' x) i (map Yield l)) = [] ->
    snd (run w s inc exc x h (each_item i l out)) =
      match snd (gen_loop any_filter inc exc (fun e i e' => z_py s e i e' x) i (map Yield l)) with
      | Good a => Some (inl (PList (out ++ a))) | Bad EUnexpected => Some (inr XUnexpected) | Bad EOther => Some (inr XOther) | Bad ECrash => None end).
  { clear l. intros l. induction l as [|v l IH]; intros i h out W; [cbn; rewrite app_nil_r; reflexivity|].
    cbn [map gen_loop each_item run] in *. unfold handler, call_filter. replace (0 <=? Z.of_nat i)%Z with true by (symmetry; apply Z.leb_le; lia).
    unfold bind in *. destruct (index_filter any_filter (Z.of_nat i) inc exc None) as [[[ni ne]|]| |]; cbn [res_opt ret fail fst snd app h_answer] in *; try reflexivity.
    - destruct (z_py s v ni ne x) as [ws [a|e]]; cbn [snd fst] in *; [|destruct e; reflexivity].
      assert (C : h_answer (checked w (h ++ ws) a) = inl a).
      { destruct w; [reflexivity|reflexivity|]. destruct W as [W|W]; [contradiction|]. cbn [checked h_answer].
        destruct (snd (gen_loop any_filter inc exc (fun e i e' => z_py s e i e' x) (S i) (map Yield l))); cbn [fst] in W; rewrite app_assoc in W; apply app_eq_nil in W as [W _]; rewrite W; reflexivity. }
      rewrite C. specialize (IH (S i) (h ++ ws) (out ++ [a])).
      destruct (gen_loop any_filter inc exc (fun e i e' => z_py s e i e' x) (S i) (map Yield l)) as [ws2 [b|e]]; cbn [fst snd] in *; rewrite <- app_assoc in IH.
      + rewrite app_nil_r in W. specialize (IH W). destruct (run w s inc exc x (h ++ ws) (each_item (S i) l (out ++ [a]))). cbn [snd] in *. rewrite IH, <- app_assoc. reflexivity.
      + specialize (IH W). destruct (run w s inc exc x (h ++ ws) (each_item (S i) l (out ++ [a]))). cbn [snd] in *. exact IH.
    - specialize (IH (S i) h out W). destruct (run w s inc exc x h (each_item (S i) l out)). cbn [snd] in *. exact IH. }
  intros W. rewrite (G l 0 [] []).
  - unfold bind. destruct (gen_loop any_filter inc exc (fun e i e' => z_py s e i e' x) 0 (map Yield l)) as [ws [b|e]]; reflexivity.
  - destruct W as [W|W]; [left; exact W|right]. unfold bind in W. destruct (gen_loop any_filter inc exc (fun e i e' => z_py s e i e' x) 0 (map Yield l)) as [ws [b|e]]; cbn [fst snd ret app] in *; [rewrite app_nil_r in W|]; exact W.
Qed.

(** C82: unless warnings are errors, neither what was recorded before nor earlier calls of
    the handler change what it answers and how the function ends. *)
Theorem C82_independent : forall p h h', w <> WError ->
  map h_answer (fst (run w s inc exc x h p)) = map h_answer (fst (run w s inc exc x h' p)) /\ snd (run w s inc exc x h p) = snd (run w s inc exc x h' p).
Proof.
  intros p h h' W. revert h h'. induction p as [v|e|v k next IH]; intros h h'; [split; reflexivity|split; reflexivity|]. cbn [run]. unfold handler.
  assert (C : forall g g' a, h_answer (checked w g a) = h_answer (checked w g' a)) by (intros g g' a; destruct w; [reflexivity|reflexivity|contradiction]).
  assert (R : forall a a' g g', h_answer a = h_answer a' ->
    map h_answer (fst (let (l, o) := run w s inc exc x g (next (h_answer a)) in (a :: l, o))) = map h_answer (fst (let (l, o) := run w s inc exc x g' (next (h_answer a')) in (a' :: l, o)))
    /\ snd (let (l, o) := run w s inc exc x g (next (h_answer a)) in (a :: l, o)) = snd (let (l, o) := run w s inc exc x g' (next (h_answer a')) in (a' :: l, o))).
  { intros a a' g g' H. rewrite H. destruct (IH (h_answer a') g g') as [I1 I2]. destruct (run w s inc exc x g (next (h_answer a'))), (run w s inc exc x g' (next (h_answer a'))). cbn [fst snd map] in *. rewrite H, I1, I2. split; reflexivity. }
  destruct (call_filter k inc exc) as [[[ni ne]|]| |]; try (apply R; reflexivity).
  destruct (snd (z_py s v ni ne x)) as [a|[| |]]; try (apply R; reflexivity); [apply R, C|split; reflexivity].
Qed.

(** C82: each call of the handler that returns shows, besides its own warnings, all those
    recorded before, in earlier calls of the handler too. *)
Theorem C82_shown : forall p h, growing h (map h_shown (List.filter returned (fst (run WWarn s inc exc x h p)))).
Proof.
  intros p. assert (G : forall l (h q : list warning), growing (h ++ q) l -> growing h l).
  { intros [|a l] h q H; [exact I|]. destruct H as [[b H] Hl]. split; [exists (q ++ b); rewrite H, app_assoc; reflexivity|exact Hl]. }
  induction p as [v|e|v k next IH]; intros h; [exact I|exact I|]. cbn [run]. unfold handler.
  assert (R : forall e, growing h (map h_shown (List.filter returned (fst (let (l, o) := run WWarn s inc exc x h (next (inr e)) in ({| h_shown := []; h_answer := inr e |} :: l, o)))))).
  { intros e. specialize (IH (inr e) h). destruct (run WWarn s inc exc x h (next (inr e))). exact IH. }
  destruct (call_filter k inc exc) as [[[ni ne]|]| |]; try apply R. clear R. destruct (z_py s v ni ne x) as [ws [a|e]]; cbn [fst snd].
  - cbn [checked h_answer]. specialize (IH (inl a) (h ++ ws)). destruct (run WWarn s inc exc x (h ++ ws) (next (inl a))). cbn [fst List.filter returned h_answer map h_shown growing] in *. split; [exists ws; reflexivity|exact IH].
  - destruct e; cbn [h_answer]; try exact I.
    + specialize (IH (inr XUnexpected) (h ++ ws)). destruct (run WWarn s inc exc x (h ++ ws) (next (inr XUnexpected))). cbn [fst List.filter returned h_answer] in *. exact (G _ _ _ IH).
    + specialize (IH (inr XOther) (h ++ ws)). destruct (run WWarn s inc exc x (h ++ ws) (next (inr XOther))). cbn [fst List.filter returned h_answer] in *. exact (G _ _ _ IH).
Qed.

(** C82: with warnings='error' the handler returns nothing once a warning is recorded. *)
Theorem C82_error : forall p h, h <> [] -> Forall (fun a => returned a = false) (fst (run WError s inc exc x h p)).
Proof.
  intros p. induction p as [v|e|v k next IH]; intros h H; [constructor|constructor|]. cbn [run]. unfold handler.
  assert (R : forall a g, returned a = false -> g <> [] -> Forall (fun a => returned a = false) (fst (let (l, o) := run WError s inc exc x g (next (h_answer a)) in (a :: l, o)))).
  { intros a g Ha Hg. specialize (IH (h_answer a) g Hg). destruct (run WError s inc exc x g (next (h_answer a))). constructor; assumption. }
  destruct (call_filter k inc exc) as [[[ni ne]|]| |]; try (apply R; [reflexivity|exact H]).
  assert (H' : h ++ fst (z_py s v ni ne x) <> []) by (intros Z; apply app_eq_nil in Z as [Z _]; contradiction).
  destruct (snd (z_py s v ni ne x)) as [a|[| |]]; try (apply R; [reflexivity|exact H']); [|constructor].
  apply R; [|exact H']. unfold checked, returned. cbn [h_answer]. destruct (h ++ fst (z_py s v ni ne x)); [contradiction|reflexivity].
Qed.
End C82.
Print Assumptions C82_identity.
Print Assumptions C82_plain.
Print Assumptions C82_end.
Print Assumptions C82_items.
Print Assumptions C82_independent.
Print Assumptions C82_shown.
Print Assumptions C82_error.

(** *** Examples: the wrapped schema is a list of ints, the result schema is any. *)
Definition c82_ints : sz := list_ser c81_level any_filter c81_items.
Definition c82_any : sz := any_ser c81_level.
Definition c82_not_first : incl := Some (FSet [KInt 0]).
Example C82_ex_identity :
  wrap_js c81_level WWarn Always false call_once c82_ints c82_any [] (PList [PInt 1; PInt 2]) None c82_not_first (c81_x true)
  = ([{| h_shown := []; h_answer := inl (PList [PInt 2]) |}], ([], Good (JArr [JInt 2]))).
Proof. lazy. reflexivity. Qed.
Example C82_ex_items : keys_in 3 c82_not_first /\
  run WWarn c81_items None c82_not_first (c81_x false) [] (each_item 0 [PInt 1; PStr (lit "x"); PInt 3] [])
  = ([{| h_shown := []; h_answer := inr XOmit |}; {| h_shown := [WFallback (PStr (lit "x"))]; h_answer := inl (PStr (lit "x")) |};
      {| h_shown := [WFallback (PStr (lit "x"))]; h_answer := inl (PInt 3) |}], Some (inl (PList [PStr (lit "x"); PInt 3]))).
Proof. split; [repeat constructor; lia|lazy; reflexivity]. Qed.
Example C82_ex_plain : exists f, plain_of f None (PInt 1) = WRaise XUnexpected /\
  wrap_py c81_level WWarn Always false (plain_of f) c81_items c82_any [] (PInt 1) None None (c81_x false) = ([], ([WFunction], Good (PInt 1))).
Proof. exists (fun _ _ => inr XUnexpected). split; lazy; reflexivity. Qed.

(** One would expect the filters of the call to hold whether or not the function is used.
    Where when_used says not to use it, they are dropped. *)
Theorem C82_filters_refuted :
  snd (wrap_py c81_level WWarn Always false call_once c82_ints c82_any [] (PList [PInt 1; PInt 2]) None c82_not_first (c81_x false)) = ([], Good (PList [PInt 2]))
  /\ snd (wrap_py c81_level WWarn WhenJson false call_once c82_ints c82_any [] (PList [PInt 1; PInt 2]) None c82_not_first (c81_x false)) = ([], Good (PList [PInt 1; PInt 2])).
Proof. split; lazy; reflexivity. Qed.
(** One would expect a warning to be shown once.  What was recorded before is shown by the
    handler, though the call shows it at its end, and again by each later call of it. *)
Theorem C82_once_refuted : exists w, 
  fst (wrap_py c81_level WWarn Always false (fun _ _ => each_item 0 [PInt 1; PInt 2] []) c81_items c82_any [w] PNone None None (c81_x false))
  = [{| h_shown := [w]; h_answer := inl (PInt 1) |}; {| h_shown := [w]; h_answer := inl (PInt 2) |}].
Proof. exists WUnion. lazy. reflexivity. Qed.
(** One would expect an item that is left out to be left out.  If the function lets the
    handler's PydanticOmit pass, the whole call fails. *)
Theorem C82_omit_refuted : exists f,
  snd (wrap_py c81_level WWarn Always false f c81_items c82_any [] (PInt 1) None c82_not_first (c81_x false)) = fail EOther
  /\ f None (PInt 1) = WCall (PInt 1) (Some (KInt 0)) (fun a => match a with inl b => WReturn b | inr e => WRaise e end).
Proof. exists (fun _ v => WCall v (Some (KInt 0)) (fun a => match a with inl b => WReturn b | inr e => WRaise e end)). split; lazy; reflexivity. Qed.
(** One would expect the handler to answer alike each time.  With warnings='error' a value
    that fits is refused after one that did not, even if the function caught that. *)
Definition c82_caught (_ : option pyval) (v : pyval) : wprog :=
  WCall (PStr (lit "x")) None (fun _ => WCall v None (fun a => match a with inl b => WReturn b | inr e => WRaise e end)).
Theorem C82_error_refuted :
  snd (wrap_py c81_level WError Always false c82_caught c81_items c82_any [] (PInt 1) None None (c81_x false)) = fail EOther
  /\ snd (wrap_py c81_level WError Always false call_once c81_items c82_any [] (PInt 1) None None (c81_x false)) = ([], Good (PInt 1))
  /\ snd (wrap_py c81_level WWarn Always false c82_caught c81_items c82_any [] (PInt 1) None None (c81_x false)) = ([], Good (PInt 1)).
Proof. repeat split; lazy; reflexivity. Qed.
Print Assumptions C82_filters_refuted.
Print Assumptions C82_once_refuted.
Print Assumptions C82_omit_refuted.
Print Assumptions C82_error_refuted.
