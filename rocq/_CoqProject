-Q theories Verif
theories/Api.v
theories/ApiProofs.v
theories/ApiSound.v
theories/ApiSpec.v
theories/ApiTotal.v
theories/Base.v
theories/Blueprint.v
theories/BodyProofs.v
theories/ByteBuffer.v
theories/ByteProofs.v
theories/ByteSpec.v
theories/Capi.v
theories/CapiProofs.v
theories/CapiSpec.v
theories/ConformObject.v
theories/ConformProofs.v
theories/ConformSpec.v
theories/ConformUnique.v
theories/ConformValid.v
theories/CountProofs.v
theories/CountSpec.v
theories/CrashProofs.v
theories/CrashSpec.v
theories/DecProofs.v
theories/DenoteProofs.v
theories/Depth.v
theories/Element.v
theories/ElementProofs.v
theories/ElementSpec.v
theories/ElementUtils.v
theories/EnumMergeProofs.v
theories/Expand.v
theories/ExpandClosed.v
theories/ExpandFit.v
theories/ExpandPieces.v
theories/ExpandProofs.v
theories/ExpandShape.v
theories/ExpandSpec.v
theories/Extend.v
theories/FitProofs.v
theories/FuelMono.v
theories/GenConv.v
theories/GenSpec.v
theories/Given.v
theories/GivenSpec.v
theories/GivenWhole.v
theories/Headers.v
theories/HeadersProofs.v
theories/HeadersSpec.v
theories/HeadingsProofs.v
theories/HeadingsSpec.v
theories/InfoProofs.v
theories/JsonIo.v
theories/JsonIoProofs.v
theories/JsonSchema.v
theories/JsonSpec.v
theories/JsonValue.v
theories/Keywords.v
theories/KeywordsOrder.v
theories/KeywordsProofs.v
theories/KeywordsSpec.v
theories/LedgerProofs.v
theories/Lookahead.v
theories/LookaheadFill.v
theories/LookaheadKinds.v
theories/LookaheadParsed.v
theories/LookaheadSpec.v
theories/LookaheadText.v
theories/LookaheadWhole.v
theories/Markdown.v
theories/MarkdownProofs.v
theories/MarkdownSpec.v
theories/MarkdownTree.v
theories/MediaProofs.v
theories/MediaSpec.v
theories/MediaType.v
theories/MembersEnds.v
theories/MembersEntries.v
theories/MembersLeaves.v
theories/MembersMixin.v
theories/MembersParts.v
theories/MembersRead.v
theories/MembersSections.v
theories/MembersSpec.v
theories/MembersSteps.v
theories/MembersTree.v
theories/MembersWhole.v
theories/MergeProofs.v
theories/MergeSpec.v
theories/Mson.v
theories/MsonAlike.v
theories/MsonEnum.v
theories/MsonKinds.v
theories/MsonMember.v
theories/MsonMono.v
theories/MsonProofs.v
theories/MsonSane.v
theories/MsonShape.v
theories/MsonSpec.v
theories/MsonTame.v
theories/MsonTotal.v
theories/MsonTree.v
theories/MsonTypes.v
theories/MsonTypesEnds.v
theories/MsonTypesRead.v
theories/MsonTypesSpec.v
theories/MsonTypesWhole.v
theories/NamedTypes.v
theories/NamedTypesProofs.v
theories/NamedTypesSpec.v
theories/Owned.v
theories/OwnedSpec.v
theories/OwnedWhole.v
theories/Params.v
theories/ParamsEnds.v
theories/ParamsLine.v
theories/ParamsRead.v
theories/ParamsSpec.v
theories/ParamsText.v
theories/ParamsTraits.v
theories/ParamsWhole.v
theories/PatternProofs.v
theories/PatternSpec.v
theories/Payloads.v
theories/PayloadsLine.v
theories/PayloadsLoop.v
theories/PayloadsNodes.v
theories/PayloadsParts.v
theories/PayloadsShort.v
theories/PayloadsSpec.v
theories/PayloadsText.v
theories/PayloadsWhole.v
theories/Peg.v
theories/Preface.v
theories/PrefaceSpec.v
theories/PrefaceText.v
theories/PrefaceTotal.v
theories/PrefaceWhole.v
theories/Prop_Api.v
theories/Prop_Bytes.v
theories/Prop_Capi.v
theories/Prop_Element.v
theories/Prop_Expand.v
theories/Prop_Extend.v
theories/Prop_Gen.v
theories/Prop_Given.v
theories/Prop_Headers.v
theories/Prop_Headings.v
theories/Prop_Json.v
theories/Prop_Keywords.v
theories/Prop_Lookahead.v
theories/Prop_Markdown.v
theories/Prop_Media.v
theories/Prop_Members.v
theories/Prop_Mson.v
theories/Prop_MsonTypes.v
theories/Prop_NamedTypes.v
theories/Prop_Owned.v
theories/Prop_Params.v
theories/Prop_Pattern.v
theories/Prop_Payloads.v
theories/Prop_Preface.v
theories/Prop_Ready.v
theories/Prop_Register.v
theories/Prop_Relations.v
theories/Prop_Schema.v
theories/Prop_Sections.v
theories/Prop_Serialize.v
theories/Prop_Signature.v
theories/Prop_Size.v
theories/Prop_SoValue.v
theories/Prop_SourceMap.v
theories/Prop_Strings.v
theories/Prop_Transactions.v
theories/Prop_TypeDefs.v
theories/Prop_Types.v
theories/Prop_Uri.v
theories/Prop_Utf8.v
theories/Prop_Vacant.v
theories/Prop_Yaml.v
theories/ReadyGen.v
theories/ReadyProofs.v
theories/ReadySpec.v
theories/Regex.v
theories/RegexCaps.v
theories/RegexProofs.v
theories/RegexSpec.v
theories/Register.v
theories/RegisterProofs.v
theories/RegisterSpec.v
theories/Registry.v
theories/RegistryProofs.v
theories/Relations.v
theories/RelationsSpec.v
theories/RelationsText.v
theories/RelationsWhole.v
theories/SchemaProofs.v
theories/SchemaSpec.v
theories/Sections.v
theories/SectionsDoc.v
theories/SectionsFine.v
theories/SectionsItems.v
theories/SectionsKeys.v
theories/SectionsKinds.v
theories/SectionsLoop.v
theories/SectionsMeta.v
theories/SectionsParts.v
theories/SectionsSpec.v
theories/SectionsUnique.v
theories/SerializeProofs.v
theories/SerializeSo.v
theories/SerializeSpec.v
theories/Signature.v
theories/SignatureAttributes.v
theories/SignatureProofs.v
theories/SignatureSpec.v
theories/SignatureWhole.v
theories/SizeProofs.v
theories/SoValue.v
theories/SoValueProofs.v
theories/SoValueSpec.v
theories/Source.v
theories/SourceMap.v
theories/SourceMapProofs.v
theories/SourceMapSpec.v
theories/StringProofs.v
theories/StringSpec.v
theories/StringUtility.v
theories/Transactions.v
theories/TransactionsAction.v
theories/TransactionsBase.v
theories/TransactionsDoc.v
theories/TransactionsRefs.v
theories/TransactionsResource.v
theories/TransactionsSpec.v
theories/TypeDefs.v
theories/TypeDefsProofs.v
theories/TypeDefsSpec.v
theories/TypeDefsText.v
theories/TypeTables.v
theories/TypeTablesProofs.v
theories/TypeTablesSpec.v
theories/UriChars.v
theories/UriProofs.v
theories/UriReport.v
theories/UriSpec.v
theories/UriTemplate.v
theories/Utf8.v
theories/Utf8Proofs.v
theories/Utf8Read.v
theories/Utf8Spec.v
theories/Vacant.v
theories/VacantSpec.v
theories/ValidProofs.v
theories/YamlIo.v
theories/YamlIoProofs.v
theories/YamlSpec.v
