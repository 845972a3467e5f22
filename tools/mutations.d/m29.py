X("m673","SerBase.v","next_mode","NeedsInference => Inferred | Inferred => NeedsInference","NeedsInference => Inferred | Inferred => Inferred","C89: an instance inside an instance is not written by its own class")
X("m674","SerBase.v","next_mode","NeedsInference => Inferred | Inferred => NeedsInference","NeedsInference => NeedsInference | Inferred => Inferred","C89: serialize_as_any has no effect")
X("m675","Ser.v","model_ser","            if is_inferred (x_duck x) then l_js L v inc exc x\n            else if root then r <- opt","            if root then r <- opt","C89: models ignore serialize_as_any in JSON mode")
X("m676","Ser.v","dataclass_ser","            if is_inferred (x_duck x) then l_py L v inc exc x\n            else if class_allows cls has_dataclass_fields v x then\n              match z_main s with\n              | Some f =>\n                  d <- m_py","            if class_allows cls has_dataclass_fields v x then\n              match z_main s with\n              | Some f =>\n                  d <- m_py","C89: dataclasses ignore serialize_as_any in Python mode")
X("m677","SerBase.v","nested_extra","x_config := c; x_check := CNone;","x_config := x_config x; x_check := CNone;","C89: the config of the outer class is used for an instance")
X("m678","SerBase.v","nested_extra","x_config := c; x_check := CNone; x_model := None; x_serialize_unknown := x_serialize_unknown x;\n     x_fallback := x_fallback x; x_duck := x_duck x;","x_config := c; x_check := CNone; x_model := None; x_serialize_unknown := x_serialize_unknown x;\n     x_fallback := x_fallback x; x_duck := SchemaBased;","C89: the mode is lost when a class's own serializer runs")
X("m679","Ser.v","start","x_duck := if o_as_any o then NeedsInference else SchemaBased;","x_duck := if o_as_any o then Inferred else SchemaBased;","C89: the outermost instance is written by the schema")
X("m680","Ser.v","used","if f_required f then 1 else 0","1","C50: an optional field counts as a required one")
X("m681","Ser.v","main_to_python","Nat.ltb (snd r) required_fields","Nat.ltb (S (snd r)) required_fields","C50: one required field may be missing")
X("m682","Ser.v","own_serializer","Some c => ci_ser (e_class E c)","Some c => ci_ser (e_class E 0%N)","C89: the serializer of another class is used")
X("m683","Url.v","is_punycode_domain","Some _ => true | None => false end) (split_dots","Some _ => true | None => true end) (split_dots","C72: every host counts as punycode")
