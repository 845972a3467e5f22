X("m030","DecDigits.v","extract_digits_info","(decimals, Z.max digits decimals)","(decimals, digits)","C56: 0.001 counted as one digit")
X("m031","DecDigits.v","extract_digits_info","if 0 <=? dexp d then (0, digits + dexp d)","if 0 <=? dexp d then (0, digits)","C56: 1E+5 counted as one digit")
X("m032","DecDigits.v","check_digits","(m <? digits) && (m <? n_digits)","(m <=? digits) && (m <=? n_digits)","C56: max_digits off by one")
X("m033","DecDigits.v","check_digits","if (p <? decimals) && (p <? n_decimals) then","if (p <? decimals) then","C56: trailing zeros counted as decimal places")
X("m034","DecDigits.v","check_digits","let max_whole := sat_sub m p in","let max_whole := m in","C56: whole digits not limited by max_digits - decimal_places")
X("m035","DecDigits.v","check_digits","if e1 then Some DecimalMaxDigits","if e1 then None","C56: max_digits not enforced")
X("m036","Truncate.v","is_utf8_char_boundary","(-64 <=? i8)%Z","(-63 <=? i8)%Z","C44: byte 0xC0 is not a boundary (unreachable in UTF-8, so must be harmless) or 0xBF is")
X("m037","Truncate.v","floor_char_boundary","let lower_bound := index - 3 in","let lower_bound := index - 2 in","C44: four byte characters have no boundary in the window: undefined behaviour")
X("m038","Truncate.v","ceil_char_boundary","Nat.min (index + 4) (length v)","Nat.min (index + 2) (length v)","C44: cut inside a character")
X("m039","Truncate.v","write_truncated","(ceil_char_boundary v (length v - m))","(length v - m)","C44: cut inside a character")
X("m040","Truncate.v","write_truncated","if max_len <? length v then","if max_len <? length v + 1 then","C44: a text of exactly the limit is truncated")
X("m041","Truncate.v","write_truncated","let mid_point := (max_len + 1) / 2 in","let mid_point := (max_len + 3) / 2 in","C44: limit exceeded")
X("m042","BytesCodec.v","hex_encode","[hex_char ((b / 16) mod 16); hex_char (b mod 16)]","[hex_char (b mod 16); hex_char ((b / 16) mod 16)]","C53: nibbles swapped")
X("m043","BytesCodec.v","hex_char","else 87 + n","else 55 + n","C53: hex letters in upper case")
X("m044","BytesCodec.v","hex_val","(97 <=? c) && (c <=? 102)","(97 <=? c) && (c <=? 101)","C53: 'f' not decoded")
X("m045","BytesCodec.v","deserialize_string","if (c =? 47) || (c =? 43) then","if (c =? 47) then","C53: '+' of the standard alphabet rejected")
X("m046","BytesCodec.v","bytes_to_string","Some (b64_encode URL_SAFE bs)","Some (b64_encode STANDARD bs)","C53: wrong alphabet written")
X("m047","BytesCodec.v","b64_encode","sym al ((y mod 16) * 4 + z / 64)","sym al ((y mod 16) * 4 + z / 32)","C53: wrong bit packing")
X("m048","BytesCodec.v","b64_suffix","if d =? pad then if vb mod 16 =? 0 then DOk [4 * va + vb / 16] else DInvalidOther\n          else DInvalidByte pad","DOk [4 * va + vb / 16]","C53: junk after padding accepted")
