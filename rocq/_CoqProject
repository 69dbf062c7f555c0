-Q theories Verif
theories/Json.v
theories/JsonFacts.v
theories/Utf8.v
theories/Encoding.v
theories/EncodingProofs.v
theories/Pointer.v
theories/SchemaApi.v
theories/PointerProofs.v
theories/SchemaSer.v
theories/SchemaSpec.v
theories/SchemaProofs.v
theories/Properties_Schema.v
theories/Validate.v
theories/ValidateFacts.v
theories/Transform.v
theories/TransformSpec.v
theories/TransformProofs.v
theories/TransformSem.v
theories/TransformNullable.v
theories/TransformFormats.v
theories/TransformUneval.v
theories/TransformPost.v
theories/TransformRec.v
theories/TransformPipe.v
theories/TransformFrame.v
theories/TransformDoc.v
theories/Properties_Transform.v
theories/Generate.v
theories/GenerateSpec.v
theories/GenerateProofs.v
theories/GenerateRun.v
theories/GenerateTerm.v
theories/GenerateTrace.v
theories/GenerateDoc.v
theories/Properties_Generate.v
theories/Private.v
theories/ValidateKw.v
theories/PrivateNull.v
theories/PrivateProps.v
theories/PrivateTag.v
theories/RegexSyntax.v
theories/RegexProofs.v
theories/Rustdoc.v
theories/RustdocProofs.v
theories/ValidationAttrs.v
theories/ValidationProofs.v
theories/ValidationField.v
theories/ValidationCollect.v
theories/Properties_Private.v
theories/Properties_Text.v
theories/PrivateFlatten.v
theories/PrivateForFlatten.v
theories/PrepareEnum.v
theories/PrivateFlattenEnum.v
theories/Properties_Flatten.v
theories/ShapeFacts.v
theories/SerValue.v
theories/SerValueProofs.v
theories/Properties_Ser.v
theories/Attrs.v
theories/Properties_Attrs.v
theories/Properties_Root.v
theories/Types.v
theories/TypesSchema.v
theories/TypesShape.v
theories/Serde.v
theories/Properties_Types.v
theories/Derivation.v
theories/SerdeFacts.v
theories/SoundBase.v
theories/SoundStruct.v
theories/SoundFlat.v
theories/SoundTypes.v
theories/SoundStd.v
theories/SoundAdt.v
theories/SoundEnum.v
theories/Sound.v
theories/TypeId.v
theories/TypeSim.v
theories/TypeErase.v
theories/Properties_Id.v
theories/SoundIds.v
theories/SoundShape.v
theories/ValidateRefs.v
theories/Properties_Sound.v
theories/Required.v
theories/RequiredDerive.v
theories/RequiredSerde.v
theories/RequiredVariants.v
theories/Properties_Required.v
theories/Properties_RequiredEnum.v
theories/Properties_Contract.v
theories/Properties_Convert.v
theories/Wellformed.v
theories/WellformedFacts.v
theories/WellformedTypes.v
theories/Properties_Wellformed.v
theories/Independent.v
theories/Settings.v
theories/Drafts.v
theories/Properties_Drafts.v
theories/NameFormat.v
theories/NameFormatProofs.v
theories/Properties_Name.v
theories/GenericParams.v
theories/GenericParamsProofs.v
theories/Properties_Generic.v
theories/CommonAttrs.v
theories/CommonFacts.v
theories/CommonErrors.v
theories/Properties_Common.v
theories/Reads.v
theories/ReadsStep.v
theories/ReadsDoc.v
theories/Properties_Reads.v
theories/ReadsChecks.v
theories/Properties_Enforce.v
theories/Properties_Settings.v
theories/Accepts.v
theories/AcceptsStep.v
theories/AcceptsDoc.v
theories/Properties_Accepts.v
theories/RefsTransformed.v
theories/Properties_Refs.v
theories/ContractSym.v
theories/Properties_Both.v
theories/Defaults.v
theories/Properties_Default.v
theories/Metadata.v
theories/Properties_Metadata.v
theories/Titles.v
theories/TitlesReads.v
theories/Properties_Titles.v
theories/Properties_RequiredOnce.v
theories/Properties_VariantFields.v
theories/Properties_TupleFields.v
theories/Properties_TupleVariants.v
theories/DraftMeta.v
theories/Properties_DraftMeta.v
theories/Properties_DefinitionMeta.v
