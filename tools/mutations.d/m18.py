X("m334","JsonText.v","ESCAPE","if b <? 32 then","if b <? 31 then","C52: control character 1F is not escaped")
X("m335","JsonText.v","ESCAPE_ROWS01","[UU; UU; UU; UU; UU; UU; UU; UU; BB; TT; NN; UU; FF; RR; UU; UU;","[UU; UU; UU; UU; UU; UU; UU; UU; BB; NN; TT; UU; FF; RR; UU; UU;","C52: tab and line feed escapes swapped")
X("m336","JsonText.v","ESCAPE","else if b =? 92 then BS","else if b =? 92 then 0","C52: backslash is not escaped")
X("m337","JsonText.v","write_char_escape","hex_char (byte / 16); hex_char (byte mod 16)]","hex_char (byte mod 16); hex_char (byte / 16)]","C52: hexadecimal digits swapped")
X("m338","JsonText.v","escape_loop","else escape_loop value rest' (S i) (S i) (out ++ write_char_escape escape byte)","else escape_loop value rest' (S i) i (out ++ write_char_escape escape byte)","C52: an escaped character is written again")
X("m339","JsonText.v","escape_loop","else if Nat.ltb start i then","else if Nat.ltb (S start) i then","C52: one-byte fragments before an escape are lost")
X("m340","JsonText.v","escape_loop","if Nat.eqb start (length value) then Some out","if Nat.leb (pred (length value)) start then Some out","C52: a last one-byte fragment is lost")
X("m341","JsonText.v","begin_item","(if first then [10] else [44; 10]) ++ indent_bytes","(if first then [10] else [10]) ++ indent_bytes","C52: no comma in indented output")
X("m342","JsonText.v","end_block","(if f_has_value f then 10 :: indent_bytes n (f_level f') else [])","(if f_has_value f then 10 :: indent_bytes n (f_level f) else [])","C52: closing brackets indented one level too deep")
X("m343","JsonText.v","end_item","f_has_value := true |}","f_has_value := f_has_value f |}","C52: the closing bracket stays on the last line")
X("m344","JsonText.v","close_block","match st with StEmpty => ([], f) | _ => end_block close f end","match st with StRest => end_block close f | _ => ([], f) end","C52: an array whose items were all filtered out is not closed")
X("m345","JsonText.v","write_elements","match go l' StRest (end_item f1) with\n          | None => None\n          | Some (r, f2) => Some (b ++ v ++ r, f2)\n          end\n      end\n  end.\n(** serializers/ser.rs:534","match go l' st (end_item f1) with\n          | None => None\n          | Some (r, f2) => Some (b ++ v ++ r, f2)\n          end\n      end\n  end.\n(** serializers/ser.rs:534","C52: array elements are not separated")
X("m346","JsonText.v","write_map","open_block 123 125 len f","open_block 123 93 len f","C52: an empty object is closed with a square bracket")
X("m347","JsonText.v","f64_text","| S754_infinity true => lit \"-Infinity\"\n  | S754_infinity false => lit \"Infinity\"\n  | _ => ryu f","| S754_infinity true => lit \"-Infinity\"\n  | S754_infinity false => lit \"Infinity\"\n  | S754_zero _ => lit \"0\"\n  | _ => ryu f","C52: 0.0 written as the integer 0")
X("m348","JsonText.v","begin_block","f_level := S (f_level f); f_has_value := false","f_level := f_level f; f_has_value := false","C52: nesting does not indent")
