-Q theories Verif
theories/MBase.v
theories/MDigit.v
theories/MUtils.v
theories/MCasting.v
theories/MBitwise.v
theories/MRelational.v
theories/MShift.v
theories/MConstructors.v
theories/MArith.v
theories/MDiv.v
theories/Spec.v
theories/LBase.v
theories/LArith.v
theories/LMul.v
theories/LBits.v
theories/LCount.v
theories/LRel.v
theories/LCast.v
theories/LShift.v
theories/LConstr.v
theories/LEx.v
theories/LFacts.v
theories/LLaws.v
theories/PArith.v
theories/PRel.v
theories/PBits.v
theories/PShift.v
theories/PCast.v
theories/PConstr.v
theories/LDiv1.v
theories/LDiv2.v
theories/LDiv3.v
theories/LDiv4.v
theories/LDiv5.v
theories/LDiv6.v
theories/LDiv7.v
theories/PDiv.v
theories/MPrim.v
theories/LPrim.v
theories/MSerial.v
theories/SpecStr.v
theories/LSerial.v
theories/LSerial2.v
theories/LSerial3.v
theories/PPrim.v
theories/PSerial.v
theories/MSerde.v
theories/SpecSerde.v
theories/LSerde.v
theories/MRand.v
theories/SpecRand.v
theories/LRand.v
theories/PSerde.v
theories/PRand.v
theories/MInt.v
theories/MOps.v
theories/SpecInt.v
theories/LInt.v
theories/LInt2.v
theories/LInt3.v
theories/LInt4.v
theories/LExInt.v
theories/LIntRel.v
theories/PInt.v
theories/POps.v
theories/SpecMachine.v
theories/MMachine.v
theories/LMach1.v
theories/LMach2.v
theories/LMach3.v
theories/LMach4.v
theories/PMachine.v
theories/MHeap.v
theories/SpecHeap.v
theories/LHeap1.v
theories/LHeap2.v
theories/LHeap3.v
theories/MThreads.v
theories/SpecText.v
theories/MText.v
theories/SpecErr.v
theories/LText.v
theories/LText2.v
theories/SpecErrText.v
theories/LErrText.v
theories/PText.v
theories/PErrText.v
theories/MError.v
theories/SpecError.v
theories/LError.v
theories/PError.v
theories/MSink.v
theories/SpecSink.v
theories/LSink.v
theories/PSink.v
theories/SpecTyped.v
theories/MTyped.v
theories/SpecTypedRel.v
theories/LTyped1.v
theories/LTyped2.v
theories/LTyped3.v
theories/PTyped.v
theories/LBuilds.v
theories/PBuilds.v
theories/MUnwind.v
theories/SpecThreads.v
theories/SpecUnwind.v
theories/LHeap4.v
theories/LHeap5.v
theories/PHeap.v
theories/LThreads.v
theories/LUnwind.v
theories/PThreads.v
theories/PUnwind.v
theories/SpecAlloc.v
theories/LAlloc.v
theories/PAlloc.v
theories/LHom.v
theories/LHom2.v
theories/PHom.v
theories/MHeapTyped.v
theories/SpecHeapTyped.v
theories/LHeapTyped1.v
theories/LHeapTyped2.v
theories/LHeapTyped3.v
theories/PHeapTyped.v
theories/MUnwindTyped.v
theories/SpecUnwindTyped.v
theories/LUnwindTyped.v
theories/LUnwindTyped2.v
theories/PUnwindTyped.v
theories/TestsRepo.v
theories/MTemp.v
theories/SpecTemp.v
theories/LTemp1.v
theories/LTemp2.v
theories/PTemp.v
theories/SpecForeign.v
theories/MForeign.v
theories/LForeign.v
theories/PForeign.v
theories/MSmall.v
theories/LSmall.v
theories/PSmall.v
theories/MThreadsUnwind.v
theories/SpecThreadsUnwind.v
theories/LThreadsUnwind.v
theories/PThreadsUnwind.v
theories/MThreadsTyped.v
theories/SpecThreadsTyped.v
theories/LThreadsTyped.v
theories/PThreadsTyped.v
theories/MRounds.v
theories/LRounds.v
theories/PRounds.v
theories/MThreadsDigits.v
theories/SpecThreadsDigits.v
theories/LThreadsDigits.v
theories/PThreadsDigits.v
theories/MParse.v
theories/SpecParse.v
theories/LParse.v
theories/PParse.v
theories/LOverflow.v
theories/POverflow.v
theories/SpecUsize.v
theories/MUsize.v
theories/LUsize.v
theories/LUsize2.v
theories/LUsize3.v
theories/LUsize4.v
theories/LUsize5.v
theories/MUsizeSigned.v
theories/LUsize6.v
theories/PUsize.v
theories/MRandSystem.v
theories/SpecUniform.v
theories/LUniform.v
theories/PUniform.v
theories/MThreadsBuffers.v
theories/SpecThreadsBuffers.v
theories/LThreadsBuffers.v
theories/PThreadsBuffers.v
theories/SpecFair.v
theories/LThreadsFair.v
theories/PThreadsFair.v
theories/SpecTrace.v
theories/LThreadsTrace.v
theories/PThreadsTrace.v
theories/MThreadsViews.v
theories/SpecThreadsViews.v
theories/LThreadsViews.v
theories/PThreadsViews.v
theories/MThreadsScratch.v
theories/SpecThreadsScratch.v
theories/LThreadsScratch.v
theories/PThreadsScratch.v
theories/SpecForeignTyped.v
theories/MForeignTyped.v
theories/LForeignTyped.v
theories/PForeignTyped.v
theories/MFlat.v
theories/SpecFlat.v
theories/LFlat.v
theories/PFlat.v
theories/MThreadsFlat.v
theories/SpecThreadsFlat.v
theories/LThreadsFlat.v
theories/PThreadsFlat.v
theories/MFuzz.v
theories/LFuzz.v
theories/PFuzz.v
theories/LThreadsFairFlat.v
theories/PThreadsFairFlat.v
theories/LThreadsFairScratch.v
theories/PThreadsFairScratch.v
theories/MTime.v
theories/SpecTime.v
theories/LTime.v
theories/LTimeCost.v
theories/LTimeDiv.v
theories/LTimeFacts.v
theories/PTime.v
theories/MTimeLinear.v
theories/LTimeLinear.v
theories/LTimeLinearCost.v
theories/LTimeLinearFacts.v
theories/PTimeLinear.v
theories/MTimeText.v
theories/SpecTimeText.v
theories/LTimeText.v
theories/PTimeText.v
theories/MTimeDoc.v
theories/MTimeProgram.v
theories/SpecTimeProgram.v
theories/LTimeProgram.v
theories/PTimeProgram.v
theories/SpecTimeDoc.v
theories/LTimeDoc.v
theories/PTimeDoc.v
theories/MDebugOpt.v
theories/SpecDebugOpt.v
theories/LDebugOpt.v
theories/PDebugOpt.v
theories/MWatch.v
theories/SpecWatch.v
theories/LWatch.v
theories/LWatchSame.v
theories/LWatchLeak.v
theories/LWatchLeak2.v
theories/LWatchProgram.v
theories/LWatchFacts.v
theories/PWatch.v
theories/MWatchMul.v
theories/MWatchDiv.v
theories/SpecWatchDiv.v
theories/LWatchDiv.v
theories/LWatchDiv2.v
theories/LWatchDiv3.v
theories/LWatchDiv4.v
theories/SpecWatchMul.v
theories/LWatchMul.v
theories/LWatchMul2.v
theories/LWatchMul3.v
theories/PWatchMul.v
theories/SpecWork.v
theories/LWork.v
theories/LWork2.v
theories/LWork3.v
theories/LWork4.v
theories/LWork5.v
theories/LWork6.v
theories/LWork7.v
theories/LWork8.v
theories/PWork.v
theories/PWatchDiv.v
theories/SpecTouch.v
theories/LTouch.v
theories/LTouch2.v
theories/LTouch3.v
theories/LTouch4.v
theories/LTouch5.v
theories/PTouch.v
theories/SpecTouchDiv.v
theories/LTouchDiv.v
theories/LTouchDiv2.v
theories/LTouchDiv3.v
theories/LTouchDiv4.v
theories/LTouchDiv5.v
theories/PTouchDiv.v
theories/SpecTraffic.v
theories/LTraffic.v
theories/LTraffic2.v
theories/LTraffic3.v
theories/LTraffic4.v
theories/PTraffic.v
