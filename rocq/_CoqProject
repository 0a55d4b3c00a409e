-Q theories Verif
theories/Base.v
theories/Api.v
theories/ModelSparse.v
theories/ModelEntity.v
theories/ModelGroup.v
theories/ModelWorld.v
theories/ModelQuery.v
theories/ModelStep.v
theories/Spec.v
theories/ProofSparse.v
theories/ProofEntity.v
theories/ProofGroup.v
theories/ProofWorld.v
theories/ProofOps.v
theories/ProofOps2.v
theories/ProofRemove.v
theories/ProofRemove2.v
theories/ProofQuery.v
theories/ProofQuery2.v
theories/ProofQuery3.v
theories/ProofQueryMut.v
theories/ProofMain.v
theories/History.v
theories/ProofHistory.v
theories/ProofQuery4.v
theories/ProofHistory2.v
theories/Checks.v
theories/Rules.v
theories/Samples.v
theories/PropEntity.v
theories/PropComp.v
theories/PropWorld.v
theories/PropQuery.v
theories/PropQuery2.v
theories/PropGroup.v
theories/PropStale.v
theories/ProofWf.v
theories/PropSafe.v
theories/ProofTerm.v
theories/PropTerm.v
theories/PropReject.v
theories/ModelOverflow.v
theories/PropOverflow.v
theories/ModelConc.v
theories/SpecConc.v
theories/ProofConc.v
theories/ProofConc2.v
theories/ProofConc3.v
theories/ProofConc4.v
theories/ProofConc5.v
theories/ProofConc6.v
theories/ProofConc7.v
theories/ProofConc8.v
theories/ProofConc9.v
theories/ProofConc10.v
theories/ProofConc11.v
theories/PropConc.v
theories/PropConc2.v
theories/PropFair.v
theories/ProofSeq.v
theories/ProofSeq2.v
theories/PropSeq.v
theories/ProofLin.v
theories/ProofLin2.v
theories/ProofEm.v
theories/PropLin.v
theories/PropItems.v
theories/SpecApart.v
theories/ProofApart.v
theories/ProofApart2.v
theories/ProofApart3.v
theories/PropApart.v
theories/ProofSafe.v
theories/ProofSafe2.v
theories/ProofSafe3.v
theories/ProofSafe4.v
theories/PropApartSafe.v
theories/ProofApart4.v
theories/PropOwn.v
theories/PropMore.v
theories/PropRes.v
theories/SpecValue.v
theories/ProofValue.v
theories/ProofValue2.v
theories/PropValue.v
theories/SpecValue2.v
theories/ProofValue3.v
theories/ProofValue4.v
theories/PropValue2.v
theories/SpecKeep.v
theories/ProofKeep.v
theories/PropKeep.v
theories/PropCycle.v
theories/ProofKeep2.v
theories/PropKeep2.v
theories/SpecLoose.v
theories/ProofLoose.v
theories/ProofLoose2.v
theories/PropLoose.v
theories/PropLooseEnt.v
theories/SpecOrder.v
theories/PropOrder.v
theories/ModelLife.v
theories/SpecLife.v
theories/PropLife.v
theories/PropLife2.v
theories/PropLin2.v
theories/PropIds.v
theories/PropGroup2.v
theories/PropForget.v
theories/ModelForget.v
theories/PropForgetLife.v
theories/ModelBreak.v
theories/SpecBreak.v
theories/PropBreak.v
theories/PropBreak2.v
theories/PropBreak3.v
theories/Assumptions.v
