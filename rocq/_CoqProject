-Q theories Verif

theories/Base.v
theories/OMap.v
theories/Consensus.v
theories/ConsensusFacts.v
theories/Ext.v
theories/ExtInstance.v
theories/Raw.v
theories/RawFacts.v
theories/TapTree.v
theories/TapTreeFacts.v
theories/Serialize.v
theories/SerializeFacts.v
theories/MapCodec.v
theories/V2Global.v
theories/V2Input.v
theories/V2Output.v
theories/MapFacts.v
theories/V2OutputFacts.v
theories/V2InputFacts.v
theories/V2GlobalFacts.v
theories/SpecCodec.v
theories/SpecCodecFacts.v
theories/PropertiesCodec.v
theories/V2Psbt.v
theories/SpecPsbt.v
theories/V2PsbtFacts.v
theories/V2CodecFacts.v
theories/V2WireFacts.v
theories/V2PairFacts.v
theories/SampleV2.v
theories/PropertiesV2Codec.v
theories/V2Roles.v
theories/SpecRoles.v
theories/V2RolesFacts.v
theories/PropertiesV2Roles.v
theories/SpecCombine.v
theories/V2CombineFacts.v
theories/PropertiesV2Combine.v
theories/SpecTx.v
theories/TxWireFacts.v
theories/SpecFields.v
theories/FieldFacts.v
theories/PropertiesV2Fields.v
theories/Script.v
theories/SighashType.v
theories/SpecSighash.v
theories/PropertiesSighash.v
theories/V2Sign.v
theories/SignInstance.v
theories/SpecSign.v
theories/V2SignFacts.v
theories/V2SignMergeFacts.v
theories/PropertiesV2Sign.v
theories/V2Finalize.v
theories/SpecFinalize.v
theories/V2FinalizeFacts.v
theories/MsInstance.v
theories/PropertiesV2Finalize.v
theories/V2SpendFacts.v
theories/PropertiesV2Spend.v
theories/PropertiesV2Satisfy.v
theories/V0Error.v
theories/V0Input.v
theories/V0Output.v
theories/V0Psbt.v
theories/V0OutputFacts.v
theories/V0InputFacts.v
theories/V0GlobalFacts.v
theories/SpecPsbt0.v
theories/V0PsbtFacts.v
theories/V0WireFacts.v
theories/V0PairFacts.v
theories/SampleV0.v
theories/PropertiesV0Codec.v
theories/SpecCombine0.v
theories/V0CombineFacts.v
theories/PropertiesV0Combine.v
theories/SpecExtract0.v
theories/V0ExtractFacts.v
theories/PropertiesV0Extract.v
theories/V0Sign.v
theories/SchnorrInstance.v
theories/SpecSign0.v
theories/V0SignFacts.v
theories/V0SignResultFacts.v
theories/V0CheckFacts.v
theories/PropertiesV0Sign.v
theories/PropertiesV0Check.v
theories/V0Finalize.v
theories/SpecFinalize0.v
theories/V0FinalizeFacts.v
theories/V0SpendFacts.v
theories/MsInstance0.v
theories/PropertiesV0Finalize.v
theories/PropertiesV0Extractor.v
theories/PropertiesV0Spend.v
theories/Text.v
theories/SpecText.v
theories/TextFacts.v
theories/PropertiesText.v
theories/V0Update.v
theories/SpecUpdate0.v
theories/V0UpdateFacts.v
theories/V0UpdateItemFacts.v
theories/V0UpdatePsbtFacts.v
theories/DescInstance.v
theories/PropertiesV0Update.v
theories/V0UpdateSignFacts.v
theories/PropertiesV0UpdateSign.v
theories/V0SighashMsgFacts.v
theories/PropertiesV0SighashMsg.v
theories/RealExt.v
theories/Vectors.v
theories/RealSign.v
theories/VectorsSign.v
theories/VectorsV0.v
theories/Serde.v
theories/SpecSerde.v
theories/SerdeFacts.v
theories/SerdeFieldFacts.v
theories/SerdeInstance.v
theories/PropertiesSerde.v
theories/SpecRegroup.v
theories/RegroupFacts.v
theories/ManyFacts.v
theories/PropertiesRegroup.v
theories/SpecWorkflow0.v
theories/UpdateWfFacts.v
theories/PropertiesV0Workflow.v
theories/V0WorkflowFacts.v
theories/KeyInstance.v
theories/PropertiesV0Whole.v
theories/SpecParallel0.v
theories/V0ParallelFacts.v
theories/PropertiesV0Parallel.v
theories/SpecParallel.v
theories/V2ParallelFacts.v
theories/PropertiesV2Parallel.v
theories/PropertiesV2Digest.v
theories/SpecTeam0.v
theories/V0TeamFacts.v
theories/PropertiesV0Team.v
theories/SpecFields0.v
theories/SpecTapTree.v
theories/TapTreeWireFacts.v
theories/PropertiesTx.v
theories/PropertiesV0Fields.v
theories/PropertiesTapTree.v
theories/SpecKept.v
theories/KeptFacts.v
theories/PropertiesKept.v
theories/SpecBuild.v
theories/BuildFacts.v
theories/PropertiesBuild.v
theories/SpecHistory.v
theories/HistoryFacts.v
theories/PropertiesHistory.v
theories/SpecHistory0.v
theories/HistoryFacts0.v
theories/PropertiesHistory0.v
theories/SpecErrors.v
theories/ErrorFacts.v
theories/DecodeErrorFacts.v
theories/PropertiesErrors.v
theories/ErrorText.v
theories/SpecErrorText.v
theories/ErrorTextFacts.v
theories/PropertiesErrorText.v
theories/CombineMut.v
theories/SpecCombineErr.v
theories/CombineErrFacts.v
theories/PropertiesCombineErr.v
theories/SpecFinalizeErr.v
theories/FinalizeErrFacts.v
theories/PropertiesFinalizeErr.v
theories/SpecErrorQuote.v
theories/ErrorQuoteFacts.v
theories/PropertiesErrorQuote.v
theories/SpecValueErrors.v
theories/ValueErrorFacts.v
theories/PropertiesValueErrors.v
theories/RoleErrorText.v
theories/SpecRoleErrors.v
theories/PropertiesRoleErrors.v
theories/PropertiesRoleErrors0.v
theories/Conversions.v
theories/SpecConversions.v
theories/PropertiesConversions.v
theories/SpecDigestErrors.v
theories/PropertiesDigestErrors.v
theories/SpecTwoVersions.v
theories/PropertiesTwoVersions.v
theories/SpecTwoFinalize.v
theories/PropertiesTwoFinalize.v
theories/SpecTwoCombine.v
theories/PropertiesTwoCombine.v
theories/SpecTwoRead.v
theories/PropertiesTwoRead.v
theories/SpecAccept.v
theories/AcceptFacts.v
theories/AcceptMapFacts.v
theories/AcceptAllFacts.v
theories/PropertiesAccept.v
theories/PropertiesTapPanic.v
theories/PropertiesDecodePanic.v
theories/PropertiesInterp.v
theories/SpecBuilds.v
theories/BuildsFacts.v
theories/PropertiesBuilds.v
theories/NumTheory.v
theories/RealLaws.v
theories/SpecReal.v
theories/PropertiesReal.v
theories/RealTaproot.v
theories/SpecCommit.v
theories/DigestFacts.v
theories/PropertiesCommit.v
theories/VectorsTaproot.v
theories/SpecCommit2.v
theories/PropertiesCommit2.v
theories/PropertiesCommit3.v
theories/SpecPush.v
theories/PropertiesPush.v
theories/PropertiesPad.v
theories/PropertiesMerkleDamgard.v
theories/SpecCollision.v
theories/PropertiesCollision.v
