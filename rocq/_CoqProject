-Q theories Verif
theories/Model/MBase.v
theories/Model/MTag.v
theories/Model/MUtils.v
theories/Proofs/PBase.v
theories/Model/MReader.v
theories/Spec/SReader.v
theories/Proofs/PReader.v
theories/Proofs/PTag.v
theories/Proofs/PUtils.v
theories/Model/MFixed.v
theories/Proofs/PFixed.v
theories/Spec/SBase.v
theories/Proofs/PCodec.v
theories/Props/TBase.v
theories/Model/MMap.v
theories/Model/MFont.v
theories/Spec/SFont.v
theories/Proofs/PMap.v
theories/Proofs/PFont.v
theories/Props/TFont.v
theories/Model/MTables.v
theories/Spec/STables.v
theories/Proofs/PTables.v
theories/Proofs/PLayout.v
theories/Props/TTables.v
theories/Model/MMetrics.v
theories/Spec/SMetrics.v
theories/Proofs/PMetrics.v
theories/Props/TMetrics.v
theories/Model/MFloat.v
theories/Spec/SFloat.v
theories/Proofs/PFloat.v
theories/Model/MGlyph.v
theories/Spec/SGlyph.v
theories/Proofs/PGlyph.v
theories/Proofs/PGlyphFmt.v
theories/Props/TGlyph.v
theories/Model/MGlyf.v
theories/Spec/SGlyf.v
theories/Proofs/PContour.v
theories/Proofs/PGlyf.v
theories/Proofs/PAffine.v
theories/Proofs/PCompile.v
theories/Props/TGlyf.v
theories/Model/MStore.v
theories/Spec/SStore.v
theories/Proofs/PStore.v
theories/Proofs/PSave.v
theories/Proofs/PLoad.v
theories/Proofs/PStoreEx.v
theories/Model/MCow.v
theories/Spec/SCow.v
theories/Proofs/PCow.v
theories/Props/TStore.v
theories/Model/MPacked.v
theories/Spec/SPacked.v
theories/Proofs/PPacked.v
theories/Proofs/PPoints.v
theories/Proofs/PVarStore.v
theories/Props/TVar.v
theories/Model/MOffset.v
theories/Spec/SOffset.v
theories/Proofs/POffset.v
theories/Proofs/PPart.v
theories/Props/TOffset.v
theories/Model/MLayout.v
theories/Spec/SLayout.v
theories/Proofs/PCover.v
theories/Proofs/PClassdef.v
theories/Proofs/PDevice.v
theories/Props/TLayout.v
theories/Model/MValue.v
theories/Spec/SValue.v
theories/Proofs/PValue.v
theories/Props/TValue.v
theories/Model/MLow.v
theories/Model/MContext.v
theories/Model/MLookup.v
theories/Model/MGsub.v
theories/Spec/SContext.v
theories/Spec/SGsub.v
theories/Proofs/PLow.v
theories/Proofs/PGsub.v
theories/Proofs/PLig.v
theories/Proofs/PContext.v
theories/Props/TGsub.v
theories/Spec/SScript.v
theories/Spec/SGsubTable.v
theories/Proofs/PLookup.v
theories/Proofs/PGsubTable.v
theories/Props/TLookup.v
theories/Model/MCmap.v
theories/Spec/SCmap.v
theories/Spec/SCmapTable.v
theories/Proofs/PCmap4.v
theories/Proofs/PCmap12.v
theories/Proofs/PCmapTable.v
theories/Props/TCmap.v
theories/Model/MFloat32.v
theories/Model/MIup.v
theories/Model/MVarModel.v
theories/Model/MName.v
theories/Model/MPost.v
theories/Model/MAvar.v
theories/Model/MDesign.v
theories/Model/MRanges.v
theories/Model/MGpos.v
theories/Model/MGvar.v
theories/Model/MIvs.v
theories/Model/MGdef.v
theories/Model/MStat.v
theories/Model/MInst.v
theories/Model/MMath.v
theories/Model/MDoc.v
theories/Model/MCli.v
theories/Model/MPath.v
theories/Model/MCrunch.v
theories/Model/MLocArg.v
theories/Model/MOverlap.v
theories/Model/MDerive.v
theories/Model/MMacro.v
theories/Model/MDeclared.v
theories/Model/MTagMacro.v
theories/Model/MEditMath.v
theories/Model/MWhole.v
theories/Spec/SIup.v
theories/Spec/SVarModel.v
theories/Spec/SName.v
theories/Spec/SPost.v
theories/Spec/SAvar.v
theories/Spec/SDesign.v
theories/Spec/SRanges.v
theories/Spec/SGpos.v
theories/Spec/SGposTable.v
theories/Spec/SGvar.v
theories/Spec/SIvs.v
theories/Spec/SGdef.v
theories/Spec/SStat.v
theories/Spec/SInst.v
theories/Spec/SMath.v
theories/Spec/SDoc.v
theories/Spec/SCli.v
theories/Spec/SPath.v
theories/Spec/SCrunch.v
theories/Spec/SCorner.v
theories/Spec/SLocArg.v
theories/Spec/SOverlap.v
theories/Spec/SDerive.v
theories/Spec/SMacro.v
theories/Spec/STagMacro.v
theories/Spec/SEditMath.v
theories/Spec/SWhole.v
theories/Spec/SCalm.v
theories/Spec/SSavable.v
theories/Spec/SStop.v
theories/Spec/SOutline.v
theories/Spec/SOpen.v
theories/Spec/SVarStop.v
theories/Spec/SOrder.v
theories/Spec/SGvarStop.v
theories/Spec/SAccess.v
theories/Spec/SAll.v
theories/Proofs/PFloat32.v
theories/Proofs/PIup.v
theories/Proofs/PIupContour.v
theories/Proofs/PIupOpt.v
theories/Proofs/PIupDp.v
theories/Proofs/PIupWhole.v
theories/Proofs/PIupThm.v
theories/Proofs/PScalar.v
theories/Proofs/PVarAlg.v
theories/Proofs/PVarSup.v
theories/Proofs/PVarSort.v
theories/Proofs/PVarModel.v
theories/Proofs/PVarThm.v
theories/Proofs/PName.v
theories/Proofs/PPost.v
theories/Proofs/PRound.v
theories/Proofs/PAvar.v
theories/Proofs/PDesign.v
theories/Proofs/PNormal.v
theories/Proofs/PRanges.v
theories/Proofs/PGpos.v
theories/Proofs/PPair.v
theories/Proofs/PAttach.v
theories/Proofs/PGposTable.v
theories/Proofs/PGvarSet.v
theories/Proofs/PGvar.v
theories/Proofs/PGvarRead.v
theories/Proofs/PGvarMore.v
theories/Proofs/PIvs.v
theories/Proofs/PGdef.v
theories/Proofs/PStat.v
theories/Proofs/PInst.v
theories/Proofs/PInstNorm.v
theories/Proofs/PInstScale.v
theories/Proofs/PInstGlyph.v
theories/Proofs/PInstTop.v
theories/Proofs/PInstRest.v
theories/Proofs/PMath.v
theories/Proofs/PDoc.v
theories/Proofs/PNames.v
theories/Proofs/PCli.v
theories/Proofs/PPath.v
theories/Proofs/PCrunch.v
theories/Proofs/PCrunchGrid.v
theories/Proofs/PBreaks.v
theories/Proofs/PCross.v
theories/Proofs/PTurn.v
theories/Proofs/PSharp.v
theories/Proofs/PCorner.v
theories/Proofs/PCrunchTool.v
theories/Proofs/PHypot.v
theories/Proofs/PPolygon.v
theories/Proofs/PDivide.v
theories/Proofs/PLocArg.v
theories/Proofs/PLocFix.v
theories/Proofs/PLocTool.v
theories/Proofs/POverlap.v
theories/Proofs/PDerive.v
theories/Proofs/PMacro.v
theories/Proofs/PTagMacro.v
theories/Proofs/PEditMath.v
theories/Proofs/PWhole.v
theories/Proofs/PCalm.v
theories/Proofs/PSavable.v
theories/Proofs/PStop.v
theories/Proofs/POutline.v
theories/Proofs/POpen.v
theories/Proofs/PVarStop.v
theories/Proofs/POrder.v
theories/Proofs/PGvarStop.v
theories/Proofs/PAll.v
theories/Props/TIup.v
theories/Props/TVarModel.v
theories/Props/TName.v
theories/Props/TPost.v
theories/Props/TAvar.v
theories/Props/TDesign.v
theories/Props/TRanges.v
theories/Props/TGpos.v
theories/Props/TGposTable.v
theories/Props/TGvar.v
theories/Props/TIvs.v
theories/Props/TGdef.v
theories/Props/TStat.v
theories/Props/TInst.v
theories/Props/TMath.v
theories/Props/TDoc.v
theories/Props/TCli.v
theories/Props/TPath.v
theories/Props/TCrunch.v
theories/Props/TCorner.v
theories/Props/TLocArg.v
theories/Props/TOverlap.v
theories/Props/TMacro.v
theories/Props/TDerive.v
theories/Props/TTagMacro.v
theories/Props/TEditMath.v
theories/Props/TWhole.v
theories/Props/TCalm.v
theories/Props/TStop.v
theories/Props/TOutline.v
theories/Props/TOpen.v
theories/Props/TVarStop.v
theories/Props/TOrder.v
theories/Props/TGvarStop.v
theories/Props/TAccess.v
theories/Props/TAll.v
