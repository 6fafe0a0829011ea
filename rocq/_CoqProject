-Q theories Verif
theories/Res.v
theories/CInt.v
theories/Bits.v
theories/Traits.v
theories/Unpacked.v
theories/Cfg.v
theories/Posit.v
theories/Spec.v
theories/QPow.v
theories/Core.v
theories/SpecLemmas.v
theories/Arith.v
theories/DecodeProof.v
theories/EncodeProof.v
theories/UOps.v
theories/UAdd.v
theories/Ops.v
theories/OpsAdd.v
theories/OpsUnary.v
theories/OpsUnary2.v
theories/Specials.v
theories/Room.v
theories/Laws.v
theories/Configs.v
theories/Final1.v
theories/Final2.v
theories/Examples.v
theories/PropDecode.v
theories/Final3.v
theories/Fma.v
theories/PropArith.v
theories/Final4.v
theories/PropUnary.v
theories/Conv1.v
theories/Conv2.v
theories/Conv3.v
theories/Conv4.v
theories/Conv5.v
theories/Conv6.v
theories/Conv7.v
theories/PropConv.v
theories/BitsProof.v
theories/FConst.v
theories/FConstProof.v
theories/PropBits.v
theories/Misc1.v
theories/Misc2.v
theories/PropMisc.v
theories/Misc3.v
theories/Misc4.v
theories/PropTraits.v
theories/Tight1.v
theories/Tbl8.v
theories/Tbl12.v
theories/Tab.v
theories/Half.v
theories/SpecTab.v
theories/TabProof.v
theories/TabProof2.v
theories/TabProof3.v
theories/TabProof4.v
theories/TabProof5.v
theories/PropTab.v
theories/SpecFloat.v
theories/FloatOps.v
theories/FloatProof.v
theories/FloatProof2.v
theories/PositF.v
theories/PositFProof.v
theories/PositFProof2.v
theories/PositFProof3.v
theories/PositFProof4.v
theories/PropFloat.v
theories/SpecAny.v
theories/AnyFloat.v
theories/AnyProof.v
theories/AnyProof2.v
theories/AnyProof3.v
theories/AnyProof4.v
theories/AnyProof5.v
theories/AnyProof6.v
theories/AnyProof7.v
theories/PropAny.v
theories/HalfProof.v
theories/SpecGen.v
theories/Gen.v
theories/GenProof.v
theories/GenProof2.v
theories/GenProof3.v
theories/GenProof4.v
theories/GenProof5.v
theories/GenProof6.v
theories/PropGen.v
theories/Fma2.v
theories/Misc5.v
theories/Misc6.v
theories/PropMore.v
theories/Logistic.v
theories/Logistic2.v
theories/PropReal.v
theories/SpecDot.v
theories/Dot.v
theories/Mono.v
theories/Posit2.v
theories/Convert.v
theories/DotFma.v
theories/PropExt.v
theories/Bin8.v
theories/SpecBin8.v
theories/Bin8Proof.v
theories/Bin8Proof2.v
theories/PropBin8.v
theories/Wide.v
theories/SpecWide.v
theories/WideProof.v
theories/WideProof2.v
theories/PropWide.v
theories/ListP.v
theories/ListProof.v
theories/ListProof2.v
theories/NlExp.v
theories/PropList.v
theories/SpecSimd.v
theories/Asimd.v
theories/AsimdProof.v
theories/AsimdProof2.v
theories/AsimdProof3.v
theories/AsimdProof4.v
theories/AsimdProof5.v
theories/PropSimd.v
theories/Asimd512.v
theories/Asimd512Proof.v
theories/PropSimd512.v
theories/AsimdA.v
theories/AsimdAProof.v
theories/PropSimdA.v
theories/Soft.v
theories/SoftProof.v
theories/SoftProof2.v
theories/PropSoft.v
theories/SpecHalf.v
theories/MatHalf.v
theories/MatProof.v
theories/MatProof2.v
theories/MatProof3.v
theories/MatProof4.v
theories/MatProof5.v
theories/MatProof6.v
theories/MatProof7.v
theories/PropMat.v
theories/SpecPunum.v
theories/Punum.v
theories/ValidTab.v
theories/PunumProof.v
theories/PunumProof2.v
theories/PunumProof3.v
theories/PunumProof4.v
theories/PunumProof5.v
theories/ValidProof.v
theories/PropPunum.v
theories/PropValid.v
theories/Ident.v
theories/PropIdent.v
theories/SpecAcc.v
theories/Acc1.v
theories/Acc2.v
theories/Acc3.v
theories/PropAcc.v
theories/SpecProg.v
theories/SpecProg2.v
theories/Prog1.v
theories/Prog2.v
theories/Prog3.v
theories/PropProg.v
theories/SpecExp.v
theories/Exp12a.v
theories/Exp12b.v
theories/Exp12c.v
theories/Exp12d.v
theories/PropExp.v
theories/Gauss.v
theories/GaussProof.v
theories/GaussSimd.v
theories/PropGauss.v
theories/SpecErr.v
theories/Err1.v
theories/Err2.v
theories/Err3.v
theories/PropErr.v
theories/DotPos.v
theories/DotMix.v
theories/DotIff.v
theories/Prog4.v
theories/PropDot.v
theories/Print.v
theories/SpecPrint.v
theories/PrintProof.v
theories/PrintProof2.v
theories/PropPrint.v
theories/GenText.v
theories/SpecGenText.v
theories/GenTextProof.v
theories/GenTextProof2.v
theories/PropGenText.v
theories/GenTextProof3.v
theories/PropSoftTab.v
theories/Dump.v
theories/SpecDump.v
theories/DumpProof.v
theories/DumpProof2.v
theories/DumpProof3.v
theories/DumpProof4.v
theories/DumpProof5.v
theories/DumpProof6.v
theories/PropDump.v
theories/HalfRange.v
theories/SpecRange.v
theories/RangeProof.v
theories/RangeProof2.v
theories/RangeProof3.v
theories/PropRange.v
theories/TestSum.v
theories/SpecNear.v
theories/NearProof.v
theories/NearProof2.v
theories/NearProof3.v
theories/NearProof4.v
theories/NearProof5.v
theories/PropNear.v
theories/TextList.v
theories/SpecText.v
theories/TextProof.v
theories/TextProof2.v
theories/TextProof3.v
theories/TextProof4.v
theories/TextProof5.v
theories/PropText.v
theories/Morton.v
theories/SpecMorton.v
theories/MortonProof.v
theories/PropMorton.v
theories/Mex.v
theories/SpecMex.v
theories/MexProof.v
theories/PropMex.v
theories/UAdd2.v
theories/PropUAdd.v
theories/SpecBits.v
theories/EncProof.v
theories/PropEnc.v
theories/Regime.v
theories/RegimeProof.v
theories/PropRegime.v
theories/FloatArith.v
theories/PropFloatArith.v
theories/DivAny.v
theories/FloatLaws.v
theories/PropFloatLaws.v
theories/HighPrec.v
theories/SpecHigh.v
theories/HighPrecProof.v
theories/PropHigh.v
theories/FloorDiv.v
theories/FloorDivProof.v
theories/PropFloorDiv.v
theories/BitHw.v
theories/BitHwProof.v
theories/PropBitHw.v
theories/TestConv.v
theories/TestConvProof.v
theories/PropTestConv.v
theories/InvTwice.v
theories/PropInvTwice.v
