-Q theories Verif
theories/Base.v
theories/Tables.v
theories/Model.v
theories/Spec.v
theories/LinAlg.v
theories/Mem.v
theories/Cons.v
theories/Elim.v
theories/Parity.v
theories/Trans.v
theories/Mul.v
theories/Rand.v
theories/GenPair.v
theories/Com.v
theories/Affine.v
theories/Bits.v
theories/Qpr.v
theories/Gauss.v
theories/Rel.v
theories/Check.v
theories/Main1.v
theories/Main2.v
theories/Properties1.v
theories/Properties2.v
theories/Repro.v
theories/Main3.v
theories/Properties3.v
theories/ModelPrint.v
theories/SpecPrint.v
theories/Print.v
theories/ModelAlias.v
theories/Alias.v
theories/Main4.v
theories/Properties4.v
theories/ModelGen.v
theories/SpecGen.v
theories/Gen.v
theories/GenBad.v
theories/Main5.v
theories/Properties5.v
theories/Main6.v
theories/Properties6.v
theories/ModelSM4.v
theories/SpecSM4.v
theories/SM4.v
theories/WBSM4.v
theories/Main7.v
theories/Properties7.v
theories/ModelAES.v
theories/SpecAES.v
theories/AES.v
theories/WBAES.v
theories/Main8.v
theories/Properties8.v
theories/RowProd.v
theories/ModelBasis.v
theories/SpecBasis.v
theories/Basis.v
theories/Main9.v
theories/Properties9.v
theories/ModelLowMC.v
theories/SpecLowMC.v
theories/LowMC.v
theories/LowMC2.v
theories/LowMC3.v
theories/Main10.v
theories/Properties10.v
theories/ModelAcc.v
theories/SpecAcc.v
theories/Acc.v
theories/Main11.v
theories/Properties11.v
theories/Entropy.v
theories/Main12.v
theories/Properties12.v
theories/ModelRank.v
theories/SpecRank.v
theories/Rank.v
theories/RankTest.v
theories/Main13.v
theories/Properties13.v
theories/ModelBM.v
theories/SpecBM.v
theories/BM.v
theories/LCCount.v
theories/Main14.v
theories/Properties14.v
theories/RankCount.v
theories/ModelNist.v
theories/SpecNist.v
theories/Nist1.v
theories/Nist2.v
theories/Nist3.v
theories/Main15.v
theories/Properties15.v
theories/ModelNist2.v
theories/SpecNist2.v
theories/Nist4.v
theories/Nist5.v
theories/SpecGamma.v
theories/ModelGamma.v
theories/Nist6.v
theories/Nist7.v
theories/Nist8.v
theories/Nist9.v
theories/ModelNist3.v
theories/Nist10.v
theories/Main16.v
theories/Properties16.v
theories/Main17.v
theories/Properties17.v
theories/ModelM4ri.v
theories/SpecM4ri.v
theories/M4ri1.v
theories/M4riD.v
theories/M4ri2.v
theories/M4ri3.v
theories/M4ri4.v
theories/M4ri5.v
theories/M4ri6.v
theories/M4ri7.v
theories/M4ri8.v
theories/Main18.v
theories/Properties18.v
theories/ModelM4ri2.v
theories/M4ri9.v
theories/M4ri10.v
theories/M4ri11.v
theories/M4ri12.v
theories/M4ri13.v
theories/M4ri14.v
theories/M4ri15.v
theories/M4ri16.v
theories/M4ri17.v
theories/M4ri18.v
theories/M4ri19.v
theories/SpecM4ri2.v
theories/M4ri20.v
theories/ModelGf2.v
theories/SpecGf2.v
theories/Gf2a.v
theories/Gf2b.v
theories/Gf2c.v
theories/Gf2d.v
theories/Main19.v
theories/Properties19.v
theories/Main20.v
theories/Properties20.v
theories/ModelSM4M.v
theories/WBSM4M.v
theories/WBSM4M2.v
theories/Main21.v
theories/Properties21.v
theories/ModelAESM.v
theories/WBAESM.v
theories/Main22.v
theories/Properties22.v
theories/ModelNtl.v
theories/SpecNtl.v
theories/Ntl1.v
theories/Ntl2.v
theories/Ntl3.v
theories/NtlEx.v
theories/ModelSM4N.v
theories/WBSM4N.v
theories/ModelAESN.v
theories/WBAESN.v
theories/Main23.v
theories/Properties23.v
theories/Main24.v
theories/Properties24.v
theories/SpecQ.v
theories/Lap.v
theories/ModelInv.v
theories/Inv0.v
theories/Inv4.v
theories/Inv7.v
theories/Inv23.v
theories/Inv6.v
theories/Inv5.v
theories/InvGf2.v
theories/InvEx.v
theories/Main25.v
theories/Properties25.v
theories/ModelMem.v
theories/SpecMem.v
theories/SpecMemRun.v
theories/Mem1.v
theories/Mem2.v
theories/Mem3.v
theories/Mem4.v
theories/Mem5.v
theories/Main26.v
theories/Properties26.v
theories/ModelStrassen.v
theories/Strassen1.v
theories/Strassen2.v
theories/Strassen3.v
theories/SpecStrassen.v
theories/Strassen4.v
theories/ModelHex.v
theories/SpecHex.v
theories/Hex1.v
theories/Main27.v
theories/Properties27.v
theories/ModelTri.v
theories/SpecTri.v
theories/Tri1.v
theories/Tri2.v
theories/Tri3.v
theories/Main28.v
theories/Properties28.v
theories/ModelPle.v
theories/SpecPle.v
theories/Ple1.v
theories/Ple2.v
theories/Ple3.v
theories/Ple4.v
theories/Ple5.v
theories/Main29.v
theories/Properties29.v
theories/ModelPle2.v
theories/SpecPle2.v
theories/Ple6.v
theories/Ple7.v
theories/Ple8.v
theories/Ple9.v
theories/Ple10.v
theories/Main30.v
theories/Properties30.v
theories/ModelTriR.v
theories/TriR1.v
theories/TriR2.v
theories/TriR3.v
theories/TriR4.v
theories/TriR5.v
theories/TriR6.v
theories/TriR7.v
theories/Main31.v
theories/Properties31.v
theories/Main32.v
theories/Properties32.v
