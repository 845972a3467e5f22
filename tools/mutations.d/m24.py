X("m551","SerGen.v","gen_loop","      | None => gen_loop f inc exc each (S i) l'\n","      | None => gen_loop f inc exc each i l'\n","C81: items left out are not counted in JSON mode")
X("m552","SerGen.v","gen_loop","  | Throw :: _ => fail EOther\n","  | Throw :: _ => ret []\n","C81: an exception of the generator ends the list")
X("m553","SerGen.v","gen_loop","          a <- each v ni ne ;;\n","          a <- each v inc exc ;;\n","C81: the filters of the whole are given to the items")
X("m554","SerGen.v","gen_js","gen_loop f inc exc (fun e i e' => z_js s e i e' x) 0 l","gen_loop f inc exc (fun e i e' => z_js s e i e' x) 1 l","C81: to_json counts from one")
X("m555","SerGen.v","gen_py","(fun e i e' => z_py s e i e' x) 0 l","(fun e i e' => z_py s e e' i x) 0 l","C81: include and exclude swapped for the items")
X("m556","SerGen.v","check_warnings","  | WWarn => Element v recorded\n","  | WWarn => Element v []\n","C81: warnings are not shown")
X("m557","SerGen.v","check_warnings","if is_nil recorded then Element v [] else Raises","Element v []","C81: warnings='error' does not raise")
X("m558","SerGen.v","next_from","      | Ok None => next_from w f s inc exc x l' (S i) ws\n","      | Ok None => next_from w f s inc exc x l' i ws\n","C81: items left out are not counted in Python mode")
X("m559","SerGen.v","next_from","  | Throw :: l' => (Raises, {| it_rest := l'; it_index := i; it_warned := ws |})","  | Throw :: l' => (Stops, {| it_rest := l'; it_index := i; it_warned := ws |})","C81: an exception of the generator ends the iteration")
X("m560","SerGen.v","next_from","           {| it_rest := l'; it_index := S i; it_warned := ws |})","           {| it_rest := l'; it_index := i; it_warned := ws |})","C81: the index is not counted up")
X("m561","SerGen.v","next_from","           {| it_rest := l'; it_index := S i; it_warned := ws |})","           {| it_rest := tl l'; it_index := S i; it_warned := ws |})","C81: next() takes one item too many")
X("m562","SerGen.v","new_iter","it_warned := recorded","it_warned := []","C81: warnings recorded before are dropped (the refutation must fail)")
X("m563","SerWrap.v","call_filter","index_filter any_filter z inc exc None else","Ok (Some (inc, exc)) else","C82: handler(value, index) ignores the filters")
X("m564","SerWrap.v","handler","(Some {| h_shown := []; h_answer := inr XOmit |}, h)","(Some {| h_shown := []; h_answer := inl PNone |}, h)","C82: what is left out is answered as None")
X("m565","SerWrap.v","handler","let m := z_py s v ni ne x in","let m := z_py s v None None x in","C82: the handler drops the filters")
X("m566","SerWrap.v","handler","       | Bad EUnexpected => Some {| h_shown := []; h_answer := inr XUnexpected |}","       | Bad EUnexpected => Some {| h_shown := []; h_answer := inr XOther |}","C82: the handler's unexpected-value exceptions become others")
X("m567","SerWrap.v","checked","  | WWarn => {| h_shown := recorded; h_answer := inl v |}","  | WWarn => {| h_shown := recorded; h_answer := if is_nil recorded then inl v else inr XOther |}","C82: the handler raises on warnings in warn mode")
X("m568","SerWrap.v","checked","h_answer := if is_nil recorded then inl v else inr XOther","h_answer := inl v","C82: warnings='error' does not raise in the handler")
X("m569","SerWrap.v","wrap_error","  | _ => fail EOther\n  end.\n(** function.rs:382","  | _ => ret tt\n  end.\n(** function.rs:382","C82: exceptions of the function are ignored")
X("m570","SerWrap.v","wrap_error","if check_enabled (x_check x) then fail EUnexpected else register WFunction x","register WFunction x","C82: a union does not try its next member")
X("m571","SerWrap.v","wrap_call","| None => ([], Some (inr XOther)) end","| None => run w s inc exc x recorded (f None v) end","C82: field functions are called outside of models")
X("m572","SerWrap.v","wrap_py","(fun a => z_py r a None None x) (l_py L v inc exc x) x)","(fun a => z_py r a inc exc x) (l_py L v inc exc x) x)","C82: the filters are applied twice")
X("m573","SerWrap.v","wrap_js","  else ([], z_js s v None None x)","  else ([], z_js r v None None x)","C82: where it is not used, the result schema serializes")
X("m574","SerWrap.v","wrap_key","(fun a => z_key r a x)","(fun a => match a with PNone => z_key r a x | _ => z_key s a x end)","C82: keys are written with the wrapped schema")
X("m575","SerWrap.v","run","let (o, h) := handler w s inc exc x h v k in","let (o, h') := handler w s inc exc x h v k in","C82: the handler forgets its warnings (the refutation must fail)")
X("m576","DecVal.v","dec_text","(-6 <? left)","(-7 <? left)","C83: (str still tells Decimals apart; only the example's notation changes)")
X("m577","DecVal.v","dec_text","if dot <=? 0 then lit \"0.\" ++ zeros (- dot) ++ int","if dot <=? 0 then lit \"0.\" ++ int","C83: zeros after the point are lost")
X("m578","DecVal.v","exp_text","(if x <? 0 then lit \"-\" else lit \"+\")","lit \"+\"","C83: the sign of the exponent is lost")
X("m579","DecVal.v","compare","signed n' c' * 10 ^ (e' - m))","signed n' c' * 10 ^ (e - m))","C83: bounds compared at the wrong scale")
X("m580","DecVal.v","compare","Some (if n then Gt else Lt)","Some (if n then Lt else Gt)","C83: infinite bounds the wrong way round")
X("m581","DecVal.v","signed","if neg then - Z.of_N c else Z.of_N c","Z.of_N c","C83: bounds ignore the sign")
X("m582","DecVal.v","whole","Some (c mod 10 ^ (- e) =? 0)","Some true","C83: multiple_of accepts fractions")
X("m583","DecVal.v","divide","fix_digits prec q (e - e' - shift)","fix_digits prec q (e - shift)","C83: the exponent of multiple_of is ignored")
X("m584","DecVal.v","multiple","| NaN false _ _, _ | _, NaN false _ _ => Some false","| NaN false _ _, _ | _, NaN false _ _ => Some true","C83: NaN is a multiple")
X("m585","DecVal.v","get_decimal","  | DJStr t | DJFloat t => create t Strict","  | DJStr t | DJFloat t => if strict then DErr KIsInstance else create t Strict","C83: strict mode refuses JSON texts")
X("m586","DecVal.v","get_decimal","  | DDec d => DOk d Exact\n","  | DDec d => match d with Fin n c e => DOk (Fin n (c * 10) (e - 1)) Exact | _ => DOk d Exact end\n","C83: Decimals are returned with another exponent")
X("m587","DecVal.v","of_int","Fin (z <? 0) (Z.abs_N z) 0","Fin false (Z.abs_N z) 0","C83: negative ints lose their sign")
X("m588","DecVal.v","bound","      if is_nan d then DErr k\n","      if is_nan d then next\n","C83: NaN satisfies every bound")
X("m589","DecVal.v","dec_validate","(negb (ds_allow_inf_nan s) || has_digits s) && negb (is_finite d)","(negb (ds_allow_inf_nan s) || has_digits s) && is_nan d","C83: infinities are accepted")
X("m590","DecVal.v","dec_validate","bound (ds_lt s) (fun c => match c with Lt => true | _ => false end)","bound (ds_lt s) (fun c => match c with Gt => false | _ => true end)","C83: lt accepts the bound itself")
X("m591","DecVal.v","dec_validate","bound (ds_ge s) (fun c => match c with Lt => false | _ => true end)","bound (ds_ge s) (fun c => match c with Gt => true | _ => false end)","C83: ge refuses the bound itself")
X("m592","DecVal.v","dec_validate","(bound (ds_gt s)","(bound (ds_ge s)","C83: gt is not checked")
X("m593","DecVal.v","dec_validate","if has_digits s then check_digits prec (ds_max_digits s) (ds_places s) (mk_decimal c e) else None","None","C83: digit limits are not checked")
X("m594","DecVal.v","dec_json_key","Definition dec_json_key (d : dec) : str := dec_text d.","Definition dec_json_key (d : dec) : str := dec_text (match d with Fin _ c e => Fin false c e | _ => d end).","C83: keys lose the sign")
