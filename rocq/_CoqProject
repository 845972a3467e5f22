-Q theories Verif
theories/Base.v
theories/RecGuard.v
theories/RecGuardSpec.v
theories/RecGuardProofs.v
theories/RecGuardProps.v
theories/Decimal.v
theories/IntParse.v
theories/IntParseSpec.v
theories/IntParseProofs.v
theories/IntParseProps.v
theories/TimeDelta.v
theories/TimeDeltaSpec.v
theories/TimeDeltaProofs.v
theories/TzInfo.v
theories/TzInfoProofs.v
theories/TimeProps.v
theories/DecDigits.v
theories/DecDigitsSpec.v
theories/DecDigitsProofs.v
theories/DecDigitsProps.v
theories/Utf8.v
theories/Truncate.v
theories/TruncateProofs.v
theories/TruncateProps.v
theories/BytesCodec.v
theories/BytesCodecSpec.v
theories/BytesCodecProofs.v
theories/BytesCodecProps.v
theories/Defs.v
theories/DefsSpec.v
theories/DefsProofs.v
theories/DefsProps.v
theories/Filter.v
theories/FilterSpec.v
theories/FilterProofs.v
theories/FilterProps.v
theories/Float64.v
theories/Float64Proofs.v
theories/Numbers.v
theories/NumbersSpec.v
theories/NumbersProofs.v
theories/NumbersProps.v
theories/Values.v
theories/VState.v
theories/Collections.v
theories/CollectionsSpec.v
theories/CollectionsProofs.v
theories/CollectionsProps.v
theories/LookupKey.v
theories/LookupKeySpec.v
theories/LookupKeyProofs.v
theories/LookupKeyProps.v
theories/Child.v
theories/ModelFields.v
theories/ModelFieldsSpec.v
theories/ModelFieldsProofs.v
theories/ModelFieldsProps.v
theories/Inputs.v
theories/TypedDict.v
theories/TypedDictSpec.v
theories/TypedDictProofs.v
theories/TypedDictProps.v
theories/Wrappers.v
theories/WrappersSpec.v
theories/WrappersProps.v
theories/Union.v
theories/UnionSpec.v
theories/UnionProofs.v
theories/UnionProps.v
theories/Scalars.v
theories/Literal.v
theories/LiteralSpec.v
theories/LiteralProofs.v
theories/LiteralProps.v
theories/TaggedUnion.v
theories/TaggedUnionProps.v
theories/Tuple.v
theories/TupleSpec.v
theories/TupleProofs.v
theories/TupleProps.v
theories/Generator.v
theories/GeneratorProps.v
theories/Assign.v
theories/AssignSpec.v
theories/AssignProofs.v
theories/AssignProps.v
theories/AssignLifeProps.v
theories/Arguments.v
theories/ArgumentsSpec.v
theories/ArgumentsProofs.v
theories/ArgumentsProps.v
theories/Classes.v
theories/Interp.v
theories/InterpSpec.v
theories/InterpExamples.v
theories/InterpProofs.v
theories/InterpProps.v
theories/ClassesProps.v
theories/RelSpec.v
theories/RelProofs.v
theories/RelProofs2.v
theories/RelProofs3.v
theories/RelProofs4.v
theories/RelProps.v
theories/ConformSpec.v
theories/ConformProofs.v
theories/ConformProofs2.v
theories/ConformProofs3.v
theories/ConformProofs4.v
theories/ConformProofs5.v
theories/ConformProofs6.v
theories/ConformProofs7.v
theories/ConformProofs8.v
theories/ConformProps.v
theories/JsonText.v
theories/JsonTextSpec.v
theories/JsonTextProofs.v
theories/JsonTextUnique.v
theories/JsonTextProps.v
theories/SerBase.v
theories/Ser.v
theories/SerInd.v
theories/SerQuiet.v
theories/SerSpec.v
theories/SerPure.v
theories/SerAgree.v
theories/SerText.v
theories/SerWarn.v
theories/SerProps.v
theories/SerFieldsSpec.v
theories/SerFieldsProofs.v
theories/SerFieldsProps.v
theories/StableSpec.v
theories/StableProofs.v
theories/StableProofs2.v
theories/StableProofs3.v
theories/StableProofs4.v
theories/StableProps.v
theories/StrictSpec.v
theories/StrictProofs.v
theories/StrictProofs2.v
theories/StrictProofs3.v
theories/StrictProofs4.v
theories/StrictProofs5.v
theories/StrictProofs6.v
theories/StrictProps.v
theories/LocateSpec.v
theories/LocateProofs.v
theories/LocateProofs2.v
theories/LocateProofs3.v
theories/LocateProofs4.v
theories/LocateProofs5.v
theories/LocateProofs6.v
theories/LocateProps.v
theories/RoundTripSpec.v
theories/RoundTripSer.v
theories/RoundTripForward.v
theories/RoundTripForward2.v
theories/RoundTripOut.v
theories/RoundTripProofs.v
theories/RoundTripProofs2.v
theories/RoundTripProofs3.v
theories/RoundTripProofs4.v
theories/RoundTripProps.v
theories/Enum.v
theories/EnumSpec.v
theories/EnumProofs.v
theories/EnumProps.v
theories/Arguments3.v
theories/Arguments3Spec.v
theories/Arguments3Proofs.v
theories/Arguments3Build.v
theories/Arguments3Props.v
theories/ErrTable.v
theories/ErrReport.v
theories/ErrReportSpec.v
theories/ErrReportProofs.v
theories/ErrReportProofs2.v
theories/ErrReportProofs3.v
theories/ErrReportProps.v
theories/Dates.v
theories/DatesSpec.v
theories/DatesProofs.v
theories/DatesProofs2.v
theories/DatesProps.v
theories/Deltas.v
theories/DeltasSpec.v
theories/DeltasProps.v
theories/Url.v
theories/UrlSpec.v
theories/UrlProofs.v
theories/UrlProofs2.v
theories/UrlProofs3.v
theories/UrlToy.v
theories/UrlProps.v
theories/Uuid.v
theories/UuidSpec.v
theories/UuidProofs.v
theories/UuidProps.v
theories/Complex.v
theories/ComplexSpec.v
theories/ComplexProps.v
theories/JsonCall.v
theories/JsonCallSpec.v
theories/JsonCallProps.v
theories/DateText.v
theories/DateTextSpec.v
theories/DateTextProofs.v
theories/DateTextProps.v
theories/DeltaText.v
theories/DeltaTextSpec.v
theories/DeltaTextProofs.v
theories/Round64.v
theories/DeltaTextProps.v
theories/SerGen.v
theories/SerGenSpec.v
theories/SerGenProps.v
theories/SerWrap.v
theories/SerWrapSpec.v
theories/SerWrapProps.v
theories/DecVal.v
theories/DecValSpec.v
theories/DecValProofs.v
theories/DecValProps.v
theories/Prebuilt.v
theories/PrebuiltSpec.v
theories/PrebuiltProps.v
theories/SerOf.v
theories/SerOfSpec.v
theories/SerOfCalm.v
theories/SerOfProofs.v
theories/SerOfProps.v
theories/Core.v
theories/CoreSpec.v
theories/CoreProofs.v
theories/CoreProofs2.v
theories/CoreProofs3.v
theories/CoreProofs4.v
theories/CoreProps.v
theories/CoreTable.v
theories/CoreTableProofs.v
theories/OptsSpec.v
theories/OptsProofs.v
theories/OptsCoreSpec.v
theories/OptsCoreProofs.v
theories/OptsProps.v
theories/StringsProps.v
theories/UrlUnicodeProps.v
theories/SerAnySpec.v
theories/SerAnyProofs.v
theories/SerAnyProps.v
theories/SerRequiredProps.v
theories/LooseSpec.v
theories/LooseQuiet.v
theories/LooseOff.v
theories/LooseProofs.v
theories/LooseProofs2.v
theories/LooseProofs3.v
theories/LooseProofs4.v
theories/LooseProofs5.v
theories/LooseProps.v
theories/SerScalarProps.v
theories/OrderSpec.v
theories/OrderProofs.v
theories/OrderProofs2.v
theories/OrderProofs3.v
theories/OrderProofs4.v
theories/OrderProofs5.v
theories/OrderProofs6.v
theories/OrderProps.v
theories/SerPrebuilt.v
theories/SerPrebuiltSpec.v
theories/SerPrebuiltProps.v
theories/SerCutSpec.v
theories/SerCutProofs.v
theories/SerCutProps.v
theories/SerPruneSpec.v
theories/SerPruneProofs.v
theories/SerPruneProps.v
theories/Api.v
theories/ApiSpec.v
theories/ApiProps.v
theories/LifeSpec.v
theories/LifeProps.v
theories/LifeSerProps.v
theories/PartialSpec.v
theories/LooseNone.v
theories/PartialProofs.v
theories/PartialProofs2.v
theories/PartialProps.v
theories/LimitProps.v
theories/UnionExtra.v
theories/UnionOrderSpec.v
theories/UnionOrderProps.v
theories/BooksSpec.v
theories/BooksProofs.v
theories/BooksProps.v
theories/SolidProofs.v
