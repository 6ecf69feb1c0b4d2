-Q theories Verif
theories/Base.v
theories/Uleb.v
theories/Utf8.v
theories/Protocol.v
theories/Encodings.v
theories/Types.v
theories/Parquet.v
theories/SampleFile.v
theories/ModelTests.v
theories/SpecUtf8.v
theories/SpecCompact.v
theories/SpecInput.v
theories/Schema.v
theories/Typing.v
theories/P_Arith.v
theories/P_Reads.v
theories/P_Utf8.v
theories/P_Inputs.v
theories/P_Skip.v
theories/P_Gen.v
theories/P_Fill.v
theories/P_Write.v
theories/P_Sink.v
theories/P_Roundtrip.v
theories/P_Prim.v
theories/P_PrimRefuted.v
theories/PropertiesPrim.v
theories/SampleSchema.v
theories/P_DataExamples.v
theories/P_Good.v
theories/P_Lawful.v
theories/P_Sim.v
theories/P_SimInst.v
theories/P_Robust.v
theories/P_RobustRefuted.v
theories/P_Valid.v
theories/SpecFields.v
theories/P_Laws.v
theories/P_Laws2.v
theories/P_LawExamples.v
theories/PropertiesData.v
theories/PropertiesInput.v
theories/PropertiesStruct.v
theories/P_EncSet.v
theories/PropertiesParquet.v
theories/SpecEvolve.v
theories/P_Evolve.v
theories/PropertiesEvolve.v
theories/Footer.v
theories/SpecFooter.v
theories/P_Footer.v
theories/PropertiesFooter.v
theories/SchemaTree.v
theories/SpecSchema.v
theories/P_Schema.v
theories/PropertiesSchema.v
theories/ErrorName.v
theories/P_ErrorName.v
theories/SpecBlame.v
theories/P_Blame.v
theories/SpecErrorText.v
theories/P_ErrorText.v
theories/PropertiesError.v
theories/SpecDefault.v
theories/P_Default.v
theories/PropertiesDefault.v
theories/Generator.v
theories/SpecGenerator.v
theories/P_Generator.v
theories/PropertiesGenerator.v
theories/Macro.v
theories/FormatRs.v
theories/ParquetIdl.v
theories/SpecIdl.v
theories/P_Idl.v
theories/PropertiesIdl.v
theories/P_Short.v
theories/PropertiesShort.v
theories/SchemaPrint.v
theories/SpecPrint.v
theories/P_Print.v
theories/PropertiesPrint.v
theories/ThriftLex.v
theories/ThriftParse.v
theories/ParquetThrift.v
theories/SpecThrift.v
theories/P_ThriftLex.v
theories/P_ThriftParse.v
theories/P_ThriftDoc.v
theories/PropertiesThrift.v
theories/Equality.v
theories/SpecEqual.v
theories/P_Equal.v
theories/PropertiesEqual.v
theories/SpecSize.v
theories/P_Size.v
theories/PropertiesSize.v
theories/RustLex.v
theories/RustMacro.v
theories/FormatText.v
theories/SpecRust.v
theories/P_RustLex.v
theories/P_RustMacro.v
theories/P_RustDoc.v
theories/SpecBoth.v
theories/P_BothLex.v
theories/P_Both.v
theories/PropertiesMacro.v
theories/Debug.v
theories/SpecDebug.v
theories/P_Debug.v
theories/P_DebugLines.v
theories/PropertiesDebug.v
theories/GenText.v
theories/SpecGenText.v
theories/P_GenText.v
theories/P_GenDoc.v
theories/GenDebug.v
theories/SpecGenNames.v
theories/P_GenNames.v
theories/PropertiesGenText.v
theories/P_Rewrite.v
theories/PropertiesRewrite.v
theories/SpecWork.v
theories/P_Work.v
theories/PropertiesWork.v
theories/SpecAccept.v
theories/P_Accept.v
theories/PropertiesAccept.v
theories/SpecPieces.v
theories/P_Pieces.v
theories/PropertiesPieces.v
theories/SpecReject.v
theories/P_Reject.v
theories/PropertiesReject.v
theories/Items.v
theories/SpecItems.v
theories/P_Items.v
theories/PropertiesItems.v
theories/SpecStream.v
theories/P_Stream.v
theories/PropertiesStream.v
theories/SpecStep.v
theories/P_Step.v
theories/PropertiesStep.v
theories/RustCode.v
theories/P_RustCode.v
theories/GenCode.v
theories/SpecCode.v
theories/P_GenCode.v
theories/PropertiesCode.v
theories/MacrosText.v
theories/MacroRules.v
theories/SpecExpand.v
theories/P_Expand.v
theories/P_ExpandItems.v
theories/P_ExpandUnion.v
theories/P_ExpandAll.v
theories/P_ExpandUnique.v
theories/P_ExpandFormat.v
theories/PropertiesExpand.v
theories/SpecLong.v
theories/P_Long.v
theories/PropertiesLong.v
theories/SpecWhole.v
theories/P_Whole.v
theories/PropertiesWhole.v
theories/UlebText.v
theories/ProtocolText.v
theories/TypesText.v
theories/RustSyntax.v
theories/RustEval.v
theories/RustProgram.v
theories/SpecText.v
theories/SpecTextIO.v
theories/P_TextLines.v
theories/P_TextTable.v
theories/P_TextTac.v
theories/P_TextUleb.v
theories/P_TextUleb2.v
theories/P_TextInput.v
theories/P_TextKeeps.v
theories/P_TextSkip.v
theories/P_TextSlice.v
theories/P_TextOutput.v
theories/P_TextLink.v
theories/P_TextAll.v
theories/PropertiesText.v
theories/EncodingsText.v
theories/RustTypes.v
theories/SpecTypesText.v
theories/P_TypesTable.v
theories/P_TypesFill.v
theories/P_TypesWrite.v
theories/P_TypesField.v
theories/P_TypesAll.v
theories/P_TypesExamples.v
theories/PropertiesTypesText.v
theories/TextRuntime.v
theories/P_RunAgree.v
theories/P_TextRuntime.v
theories/P_TextRuntimeW.v
theories/P_TextRuntimeAll.v
theories/PropertiesTextRuntime.v
theories/LibText.v
theories/LibProgram.v
theories/SpecLib.v
theories/P_LibTable.v
theories/P_LibBase.v
theories/P_Lib.v
theories/P_LibIndex.v
theories/P_LibFacts.v
theories/PropertiesLib.v
theories/SpecSchemaNames.v
theories/P_SchemaNames.v
theories/PropertiesSchemaNames.v
