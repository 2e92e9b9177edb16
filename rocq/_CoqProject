-Q theories Verif

theories/Base.v
theories/Heap.v
theories/ModelStyle.v
theories/ModelCore.v
theories/ModelQuery.v
theories/ModelTraverse.v
theories/ModelParse.v
theories/ModelBuild.v
theories/ModelStylize.v
theories/ModelDot.v
theories/ModelMore.v
theories/ModelObj.v
theories/Ops.v
theories/ProofDict.v
theories/Spec.v
theories/SpecOps.v
theories/SpecOrder.v
theories/SpecFrame.v
theories/SpecCopy.v
theories/SpecBuild.v
theories/SpecText.v
theories/SpecSim.v
theories/SpecStyle.v
theories/SpecDot.v
theories/ProofWF.v
theories/ProofCore.v
theories/ProofEdge.v
theories/ProofRemove.v
theories/ProofCompl.v
theories/ProofPres.v
theories/ProofCopy.v
theories/ProofOps.v
theories/ProofSet.v
theories/ProofHist.v
theories/ProofStep.v
theories/ProofEvo.v
theories/ProofFrame.v
theories/ProofIndex.v
theories/ProofAdj.v
theories/ProofDfs.v
theories/ProofQuery.v
theories/Samples.v
theories/ProofC1.v
theories/Prop_C1.v
theories/ProofC2.v
theories/Prop_C2.v
theories/ProofRepr.v
theories/ProofStyFrame.v
theories/ProofC2b.v
theories/Prop_C2b.v
theories/ProofC2c.v
theories/Prop_C2c.v
theories/SpecTree.v
theories/ProofTree.v
theories/ProofC3.v
theories/Prop_C3.v
theories/ProofC4.v
theories/Prop_C4.v
theories/ProofC5.v
theories/Prop_C5.v
theories/ProofC6.v
theories/Prop_C6.v
theories/ProofC7.v
theories/Prop_C7.v
theories/ProofC8.v
theories/Prop_C8.v
theories/ProofBuild.v
theories/ProofGrow.v
theories/ProofGrow2.v
theories/ProofC9.v
theories/Prop_C9.v
theories/ProofText.v
theories/ProofC10.v
theories/Prop_C10.v
theories/ProofC11.v
theories/Prop_C11.v
theories/ProofC12.v
theories/Prop_C12.v
theories/ProofColour.v
theories/ProofC13.v
theories/Prop_C13.v
theories/ProofC14.v
theories/Prop_C14.v
theories/ProofStylize.v
theories/ProofC15.v
theories/Prop_C15.v
theories/SpecMore.v
theories/ProofStyOnly.v
theories/ProofC16.v
theories/Prop_C16.v
theories/ProofC17.v
theories/Prop_C17.v
theories/SpecOver.v
theories/SpecTemplate.v
theories/ProofC18.v
theories/Prop_C18.v
theories/ProofC19.v
theories/Prop_C19.v
theories/ProofC20.v
theories/Prop_C20.v
theories/ProofC21.v
theories/Prop_C21.v
theories/ProofC22.v
theories/Prop_C22.v
theories/ProofGlobal.v
theories/ProofC23.v
theories/Prop_C23.v
theories/ProofC24.v
theories/Prop_C24.v
theories/ProofC25.v
theories/Prop_C25.v
theories/ProofC26.v
theories/Prop_C26.v
theories/RepoTests.v
theories/ModelShow.v
theories/ProofC27.v
theories/Prop_C27.v
theories/SpecRead.v
theories/ProofLetters.v
theories/ProofRead.v
theories/ProofC28.v
theories/Prop_C28.v
theories/SpecAppend.v
theories/ProofC29.v
theories/ProofC30.v
theories/Prop_C29.v
theories/Prop_C30.v
theories/ProofC31.v
theories/Prop_C31.v
theories/ProofC32.v
theories/Prop_C32.v
theories/SpecObj.v
theories/ProofC33.v
theories/Prop_C33.v
theories/SpecAssign.v
theories/ProofC34.v
theories/Prop_C34.v
theories/SpecHead.v
theories/ProofC35.v
theories/ProofTempl.v
theories/ProofTemplRand.v
theories/ProofC36.v
theories/Prop_C35.v
theories/Prop_C36.v
theories/ProofForest.v
theories/ProofC37.v
theories/Prop_C37.v
theories/ProofC38.v
theories/ProofC39.v
theories/Prop_C38.v
theories/Prop_C39.v
theories/ProofCause.v
theories/ProofC40.v
theories/Prop_C40.v
theories/ProofC41.v
theories/Prop_C41.v
theories/ProofC42.v
theories/Prop_C42.v
theories/ProofC43.v
theories/Prop_C43.v
theories/ModelText.v
theories/SpecText2.v
theories/ProofC44.v
theories/Prop_C44.v
theories/ProofC45.v
theories/Prop_C45.v
theories/SpecWarn.v
theories/ProofC46.v
theories/Prop_C46.v
theories/ProofC47.v
theories/Prop_C47.v
theories/SpecDirect.v
theories/ProofC48.v
theories/Prop_C48.v
theories/ModelReset.v
theories/ProofC49.v
theories/Prop_C49.v
theories/SpecFilter.v
theories/ProofC50.v
theories/Prop_C50.v
theories/SpecRows.v
theories/ProofC51.v
theories/Prop_C51.v
theories/SpecQuote.v
theories/ProofC52.v
theories/Prop_C52.v
theories/ProofC53.v
theories/Prop_C53.v
theories/SpecTight.v
theories/ProofC54.v
theories/Prop_C54.v
theories/ProofC55.v
theories/Prop_C55.v
theories/ProofC56.v
theories/Prop_C56.v
theories/ProofC57.v
theories/Prop_C57.v
theories/ProofC58.v
theories/Prop_C58.v
theories/ProofC59.v
theories/Prop_C59.v
