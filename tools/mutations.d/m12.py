X("m250","Generator.v","gen_next","Nat.leb mx index","Nat.ltb mx index","C43: one item more than max_length")
X("m251","Generator.v","gen_next","Nat.ltb (gn_index g) mn","Nat.leb (gn_index g) mn","C43: min_length off by one")
X("m252","Generator.v","gen_next","| NRaise e => (GRaise e, after (gn_index g) (gn_exactness g))","| NRaise e => (GRaise e, after (S (gn_index g)) (gn_exactness g))","C43: a source exception counts as an item")
X("m253","Generator.v","gen_next","to_exception (Some (index_loc index)) err","to_exception (Some (index_loc (S index))) err","C43: item errors at the wrong index")
X("m254","Generator.v","gen_next","gn_calls := S (gn_calls g);","gn_calls := S (S (gn_calls g));","C43: one item per next()")
X("m255","Generator.v","gen_next","(GYield w, after (S index) (st_exactness s'))","(GYield (input_object x), after (S index) (st_exactness s'))","C43: yields the raw item")
X("m256","Generator.v","generator_validate","gn_calls := 0;","gn_calls := 1;","C43: first item dropped")
X("m257","Generator.v","validate_iter","JStr (fst e)","JArr [JStr (fst e); snd e]","C43: JSON objects iterate items, not keys")
X("m258","Generator.v","gen_next","ETooShort CGenerator mn (gn_index g)","ETooShort CGenerator mn mn","C43: actual length wrong")
X("m259","Generator.v","gen_next","| NEnd =>\n      let g'","| NEnd => if Nat.eqb (gn_index g) 0 then (GStop, after 0 (gn_exactness g)) else\n      let g'","C43: min_length ignored for an empty source")
