-Q theories Verif
theories/Mem.v
theories/Prog.v
theories/Kern.v
theories/Fp.v
theories/Imath.v
theories/Exec.v
theories/Wp.v
theories/MemLem.v
theories/Dig.v
theories/KernLem.v
theories/KernMul.v
theories/KernKar.v
theories/KernDig.v
theories/Rel.v
theories/RelWp.v
theories/RelZ.v
theories/Life.v
theories/Basic.v
theories/Basic2.v
theories/Mult.v
theories/Shift.v
theories/Knuth.v
theories/Divi.v
theories/Powr.v
theories/Spec.v
theories/Public.v
theories/Concrete.v
theories/Gcd.v
theories/Root.v
theories/Barrett.v
theories/Embar.v
theories/Exptmod.v
theories/Buf.v
theories/Text.v
theories/Inlen.v
theories/Outlen.v
theories/Read.v
theories/Short.v
theories/SpecBin.v
theories/Bin.v
theories/Imrat.v
theories/SpecRat.v
theories/Rat.v
theories/ConcreteRat.v
theories/NumTh.v
theories/Iprime.v
theories/SpecPrime.v
theories/Prime.v
theories/Rsamath.v
theories/Rsa.v
theories/Gmp.v
theories/SpecGmp.v
theories/Gmpr.v
theories/Impexp.v
theories/SpecHist.v
theories/Hist.v
theories/Room.v
theories/Refuse.v
theories/Still.v
theories/SpecDec.v
theories/RatText.v
theories/RatDec.v
theories/RatOut.v
theories/SpecGstr.v
theories/Outup.v
theories/Gmpstr.v
theories/GmpAlloc.v
theories/SpecGalloc.v
theories/Conc.v
theories/Const.v
theories/ConstFns.v
theories/Threads.v
theories/SpecConc.v
theories/ConcFns.v
theories/ConcApi.v
theories/ConcRun.v
theories/PConc.v
theories/PEdge.v
theories/Chk.v
theories/Galloc.v
theories/SpecRef.v
theories/Soft.v
theories/Soft2.v
theories/Soft3.v
theories/Soft4.v
theories/Soft5.v
theories/Soft6.v
theories/SpecLow.v
theories/Low.v
theories/PArith.v
theories/PGcd.v
theories/PExptmod.v
theories/PText.v
theories/PBinary.v
theories/PRat.v
theories/PPrime.v
theories/PRsa.v
theories/PGmp.v
theories/PHist.v
theories/PExhaust.v
theories/PLow.v
theories/SpecQHist.v
theories/QHist.v
theories/PQHist.v
theories/PStore.v
theories/PRatText.v
theories/PGmpStr.v
theories/PGmpAlloc.v
theories/PRefuse.v
theories/SoftRat.v
theories/SoftRatT.v
theories/PRatRefuse.v
theories/Arctan.v
theories/ExPi.v
theories/ExPiR.v
theories/PPi.v
theories/SpecKey.v
theories/ExRsakey.v
theories/ExRsakeyR.v
theories/PKey.v
theories/SpecCalc.v
theories/ExCalc.v
theories/ExCalcR.v
theories/ExCalcX.v
theories/ExCalcH.v
theories/ExCalcM.v
theories/ExCalcL.v
theories/PExCalc.v
theories/SpecConv.v
theories/ExConv.v
theories/ExConvR.v
theories/ChkBind.v
theories/ExConvS.v
theories/ExConvB.v
theories/PConv.v
theories/ConstRat.v
theories/SpecQConc.v
theories/QConc.v
theories/QConcRun.v
theories/PQConc.v
theories/SpecGHist.v
theories/GHist.v
theories/PGHist.v
theories/SpecGmpRef.v
theories/PGmpRefuse.v
theories/ConstGmp.v
theories/ConstGmpU.v
theories/SpecGConc.v
theories/GConc.v
theories/PGConc.v
theories/Debug.v
theories/SpecDebug.v
theories/DebugLem.v
theories/PDebug.v
theories/SpecFits.v
theories/Fits.v
theories/PFits.v
