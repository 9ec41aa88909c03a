-Q theories Verif
theories/Base.v
theories/MHeader.v
theories/MEncode.v
theories/SHeader.v
theories/PArith.v
theories/PHeader.v
theories/PEncode.v
theories/PropHeader.v
theories/MBer.v
theories/SBer.v
theories/PBer.v
theories/PIter.v
theories/PropBer.v
theories/PropOpen.v
theories/PropCut.v
theories/MInt.v
theories/SInt.v
theories/PCodec.v
theories/PInt.v
theories/PropInt.v
theories/MSeg.v
theories/SSeg.v
theories/PSeg.v
theories/PBits.v
theories/PropSeg.v
theories/MOid.v
theories/SOid.v
theories/POid.v
theories/PropOid.v
theories/PropOidText.v
theories/MText.v
theories/SText.v
theories/PText.v
theories/PropText.v
theories/MTime.v
theories/STime.v
theories/PTime.v
theories/PropTime.v
theories/PropExact.v
theories/MReal.v
theories/PFloat.v
theories/SReal.v
theories/PReal.v
theories/PropReal.v
theories/PDecimal.v
theories/PropDecimal.v
theories/MCont.v
theories/SCont.v
theories/PCont.v
theories/SBase.v
theories/PBase.v
theories/PTypes.v
theories/PropCont.v
theories/PropTag.v
theories/PropTextExact.v
theories/PropItems.v
theories/MSpan.v
theories/SSpan.v
theories/PSpan.v
theories/PropSpan.v
theories/PropRaw.v
theories/PropAbsent.v
theories/MPdv.v
theories/PropPdv.v
theories/MDerive.v
theories/SDerive.v
theories/PDerive.v
theories/PropDerive.v
theories/PSafe.v
theories/PropSafe.v
theories/PropQuiet.v
theories/PRound.v
theories/PropReals.v
theories/MColl.v
theories/MCheck.v
theories/PropColl.v
theories/PropAgree.v
theories/PropStuck.v
theories/PropFinal.v
theories/MAny.v
theories/MErr.v
theories/MRef.v
theories/PropAny.v
theories/PropCanon.v
theories/PropErr.v
theories/PropSame.v
theories/PropNumber.v
theories/PropConv.v
theories/PropRef.v
theories/PropFinite.v
theories/PropCheck.v
theories/PropWhy.v
theories/PropWhyList.v
theories/PropTrim.v
theories/MIo.v
theories/SIo.v
theories/PIo.v
theories/PropIo.v
theories/MCustom.v
theories/PropCustom.v
theories/PropCanonDerive.v
theories/PropHelper.v
theories/PropNear.v
theories/PNearest.v
theories/PropRange.v
theories/PropHuge.v
theories/PropDecText.v
theories/PropExpo.v
theories/MF32.v
theories/PF32.v
theories/PropF32.v
theories/PropMore.v
theories/PropBits.v
theories/MParse.v
theories/PropParse.v
theories/PropWalk.v
theories/PropRewrite.v
theories/MEdit.v
theories/PropEdit.v
theories/MOrd.v
theories/PropOrder.v
theories/PropDetail.v
theories/MAttr.v
theories/PropAttr.v
theories/PropChrono.v
theories/MTrace.v
theories/PropTrace.v
theories/PropSlices.v
theories/MShow.v
theories/PropShow.v
theories/MStatic.v
theories/PropStatic.v
theories/PLog.v
theories/MKind.v
theories/PKind.v
theories/PropKind.v
theories/PropCost.v
theories/MWhere.v
theories/PropWhere.v
theories/PropLogged.v
