-Q theories Verif
theories/Bits.v
theories/GoBase.v
theories/GoFloat32.v
theories/GoLoop.v
theories/GoMatrix.v
theories/GoMatrixR.v
theories/ModelAccess.v
theories/ModelBitReader.v
theories/ModelBitWriter.v
theories/ModelBoxes.v
theories/ModelColour.v
theories/ModelCompare.v
theories/ModelConcurrency.v
theories/ModelDCT.v
theories/ModelDecode.v
theories/ModelEntropy.v
theories/ModelFile.v
theories/ModelFilters.v
theories/ModelFrameHeader.v
theories/ModelGroups.v
theories/ModelHF.v
theories/ModelHFCoeff.v
theories/ModelHFDequant.v
theories/ModelHFGlobal.v
theories/ModelHFGroup.v
theories/ModelHFPass.v
theories/ModelHFWeights.v
theories/ModelHeader.v
theories/ModelHelpers.v
theories/ModelICC.v
theories/ModelIO.v
theories/ModelImage.v
theories/ModelLF.v
theories/ModelLFCoeff.v
theories/ModelLFGroup.v
theories/ModelMATree.v
theories/ModelModDecode.v
theories/ModelModFrame.v
theories/ModelModStream.v
theories/ModelModular.v
theories/ModelNoise.v
theories/ModelPool.v
theories/ModelPool2.v
theories/ModelReader.v
theories/ModelSections.v
theories/ModelToImage.v
theories/ModelToc.v
theories/ModelTool.v
theories/ModelUtil.v
theories/ModelVarBlock.v
theories/ModelVarDCT.v
theories/ModelVarFrame.v
theories/ModelWriters.v
theories/ProofANS.v
theories/ProofAlias.v
theories/ProofAliasStd.v
theories/ProofBitReader.v
theories/ProofBitReader2.v
theories/ProofBitWriter.v
theories/ProofBoxes.v
theories/ProofCfL.v
theories/ProofCfL2.v
theories/ProofChannel.v
theories/ProofCluster.v
theories/ProofCodes.v
theories/ProofColour.v
theories/ProofColour2.v
theories/ProofColour3.v
theories/ProofConcurrency.v
theories/ProofDCT.v
theories/ProofDCTMath.v
theories/ProofDecode.v
theories/ProofDist.v
theories/ProofFile.v
theories/ProofFilters.v
theories/ProofFrameHeader.v
theories/ProofGrammar.v
theories/ProofGroups.v
theories/ProofHF.v
theories/ProofHFCoeff.v
theories/ProofHFDequant.v
theories/ProofHFGlobal.v
theories/ProofHFGroup.v
theories/ProofHFPass.v
theories/ProofHFWeights.v
theories/ProofHeader.v
theories/ProofHybrid.v
theories/ProofICC.v
theories/ProofICCTags.v
theories/ProofImage.v
theories/ProofLF.v
theories/ProofLFCoeff.v
theories/ProofLFMaps.v
theories/ProofLLF.v
theories/ProofLLFTable.v
theories/ProofLZ.v
theories/ProofMATree.v
theories/ProofModDecode.v
theories/ProofModFrame.v
theories/ProofModStream.v
theories/ProofModStream2.v
theories/ProofModStream3.v
theories/ProofModStream4.v
theories/ProofModular.v
theories/ProofNoise.v
theories/ProofOrder.v
theories/ProofPalette.v
theories/ProofPerm.v
theories/ProofPool.v
theories/ProofPredict.v
theories/ProofPrefix.v
theories/ProofPrefix2.v
theories/ProofPrefix3.v
theories/ProofQueue.v
theories/ProofReads.v
theories/ProofSections.v
theories/ProofSqueeze.v
theories/ProofStream.v
theories/ProofSymbols.v
theories/ProofToImage.v
theories/ProofToc.v
theories/ProofTransfer.v
theories/ProofTreeCode.v
theories/ProofUtil.v
theories/ProofVLC.v
theories/ProofVarBlock.v
theories/ProofVarBlock2.v
theories/ProofVarBlock3.v
theories/ProofVarDCT.v
theories/ProofVarFrame.v
theories/ProofVarLayout.v
theories/ProofVarSections.v
theories/ProofWriters.v
theories/PropAccess.v
theories/PropAlias.v
theories/PropBitReader.v
theories/PropBoxes.v
theories/PropChannel.v
theories/PropCodes.v
theories/PropColour.v
theories/PropCompare.v
theories/PropConcurrency.v
theories/PropDCT.v
theories/PropDecode.v
theories/PropDist.v
theories/PropEntropy.v
theories/PropFile.v
theories/PropFilters.v
theories/PropFrame.v
theories/PropFrameHeader.v
theories/PropHF.v
theories/PropHFDequant.v
theories/PropHFGlobal.v
theories/PropHFGroup.v
theories/PropHFPass.v
theories/PropHFWeights.v
theories/PropHeader.v
theories/PropHelpers.v
theories/PropICC.v
theories/PropICCTags.v
theories/PropIO.v
theories/PropImage.v
theories/PropLF.v
theories/PropLFGroup.v
theories/PropModDecode.v
theories/PropModFrame.v
theories/PropModStream.v
theories/PropModular.v
theories/PropNoise.v
theories/PropPool2.v
theories/PropPrefix.v
theories/PropReadICC.v
theories/PropReader.v
theories/PropSections.v
theories/PropStream.v
theories/PropSymbols.v
theories/PropToImage.v
theories/PropTool.v
theories/PropTreeCode.v
theories/PropTypes.v
theories/PropUtil.v
theories/PropVarBlock.v
theories/PropVarDCT.v
theories/PropVarFrame.v
theories/PropVarGroup.v
theories/PropVarLayout.v
theories/SpecAccess.v
theories/SpecAlias.v
theories/SpecBitReader.v
theories/SpecBoxes.v
theories/SpecChannel.v
theories/SpecCodes.v
theories/SpecColour.v
theories/SpecCompare.v
theories/SpecConcurrency.v
theories/SpecDCT.v
theories/SpecDecode.v
theories/SpecDist.v
theories/SpecEntropy.v
theories/SpecFile.v
theories/SpecFilters.v
theories/SpecFrameHeader.v
theories/SpecGrammar.v
theories/SpecGroups.v
theories/SpecHF.v
theories/SpecHFDequant.v
theories/SpecHFGlobal.v
theories/SpecHFGroup.v
theories/SpecHFPass.v
theories/SpecHFWeights.v
theories/SpecHeader.v
theories/SpecHelpers.v
theories/SpecICC.v
theories/SpecICCTags.v
theories/SpecIO.v
theories/SpecImage.v
theories/SpecLF.v
theories/SpecLFCoeff.v
theories/SpecLFGroup.v
theories/SpecLZ.v
theories/SpecMATree.v
theories/SpecModDecode.v
theories/SpecModFrame.v
theories/SpecModStream.v
theories/SpecModular.v
theories/SpecNoise.v
theories/SpecPalette.v
theories/SpecPool.v
theories/SpecPool2.v
theories/SpecPrefix.v
theories/SpecReader.v
theories/SpecSections.v
theories/SpecStream.v
theories/SpecSymbols.v
theories/SpecToImage.v
theories/SpecToc.v
theories/SpecTool.v
theories/SpecTreeCode.v
theories/SpecTypes.v
theories/SpecUtil.v
theories/SpecVarBlock.v
theories/SpecVarDCT.v
theories/SpecVarFrame.v
theories/SpecVarLayout.v
