-Q theories Verif
theories/Base.v
theories/BaseProofs.v
theories/BitbucketModel.v
theories/BitbucketProofs.v
theories/BitbucketProps.v
theories/BitbucketSerProofs.v
theories/BitbucketSpec.v
theories/BitbucketTop.v
theories/BloomFloorProofs.v
theories/BloomFloorProps.v
theories/BloomFloorSpec.v
theories/BloomLargeProofs.v
theories/BloomLargeProps.v
theories/BloomModel.v
theories/BloomProofs.v
theories/BloomProps.v
theories/BloomSizeEst.v
theories/BloomSizeModel.v
theories/BloomSizeMore.v
theories/BloomSizeProofs.v
theories/BloomSizeProps.v
theories/BloomSizeReal.v
theories/BloomSizeSpec.v
theories/BloomSizeTop.v
theories/BloomSpec.v
theories/BufconcFair.v
theories/BufconcInv.v
theories/BufconcLive.v
theories/BufconcModel.v
theories/BufconcProofs.v
theories/BufconcProps.v
theories/BufconcSolo.v
theories/BufconcSpec.v
theories/BufconcStep.v
theories/BufconcTop.v
theories/BufmapModel.v
theories/BufmapProofs.v
theories/BufmapProps.v
theories/BufmapRefuted.v
theories/BufmapSpec.v
theories/BufmapTop.v
theories/CollationCells.v
theories/CollationLayout.v
theories/CollationMeasures.v
theories/CollationMixed.v
theories/CollationModel.v
theories/CollationProofs.v
theories/CollationProps.v
theories/CollationSafe.v
theories/CollationSpec.v
theories/CollationTop.v
theories/CollationTop2.v
theories/DemoModel.v
theories/DemoProps.v
theories/DemoRun.v
theories/DemoSpec.v
theories/Float64.v
theories/Float64Proofs.v
theories/Float64Spec.v
theories/FloatBits.v
theories/FloatMore.v
theories/FloatOrder.v
theories/FloatRel.v
theories/FltUtilModel.v
theories/FltUtilProofs.v
theories/FltUtilProps.v
theories/FltUtilSpec.v
theories/FnvModel.v
theories/FnvProofs.v
theories/FnvProps.v
theories/FnvSpec.v
theories/HllCountEst.v
theories/HllCountLoops.v
theories/HllCountModel.v
theories/HllCountMore.v
theories/HllCountProofs.v
theories/HllCountProps.v
theories/HllCountSpec.v
theories/HllCountTop.v
theories/HllEstArith.v
theories/HllEstProofs.v
theories/HllEstProps.v
theories/HllEstSigma.v
theories/HllEstSpec.v
theories/HllEstTau.v
theories/HllEstTop.v
theories/HllModel.v
theories/HllProofs.v
theories/HllProps.v
theories/HllRegsTop.v
theories/HllSpec.v
theories/HllSuffixProofs.v
theories/HllSuffixProps.v
theories/HllSuffixSpec.v
theories/IncmapModel.v
theories/IncmapProofs.v
theories/IncmapProps.v
theories/IncmapSpec.v
theories/IncmapTop.v
theories/ParseRowProofs.v
theories/Probe.v
theories/ProcessDemo.v
theories/ProcessModel.v
theories/ProcessProofs.v
theories/ProcessProps.v
theories/ProcessSpec.v
theories/QueryModel.v
theories/QueryProofs.v
theories/QueryProps.v
theories/QuerySpec.v
theories/QueryTop.v
theories/RandModel.v
theories/RandProofs.v
theories/RandProps.v
theories/RandSpec.v
theories/RealBounds.v
theories/RegexpModel.v
theories/RegexpProofs.v
theories/RepoTests.v
theories/RouteProofs.v
theories/RouteProps.v
theories/RouteSpec.v
theories/ScanProofs.v
theories/SeqlockModel.v
theories/SeqlockProofs.v
theories/SeqlockProps.v
theories/SeqlockSpec.v
theories/SeqlockTop.v
theories/SerProofs.v
theories/SerProps.v
theories/ServerAnswers.v
theories/ServerConcDemo.v
theories/ServerConcFair.v
theories/ServerConcFair2.v
theories/ServerConcFairDemo.v
theories/ServerConcFairProps.v
theories/ServerConcMixed.v
theories/ServerConcMixed2.v
theories/ServerConcModel.v
theories/ServerConcMoreProps.v
theories/ServerConcProofs.v
theories/ServerConcProps.v
theories/ServerConcSolo.v
theories/ServerConcSolo2.v
theories/ServerConcSoloProps.v
theories/ServerConcSpec.v
theories/ServerConcTop.v
theories/ServerConcTop2.v
theories/ServerConcTop3.v
theories/ServerConcTop4.v
theories/ServerDemo.v
theories/ServerErrProps.v
theories/ServerFairSpec.v
theories/ServerHome.v
theories/ServerHomeProps.v
theories/ServerHomeSpec.v
theories/ServerInv.v
theories/ServerMixedDemo.v
theories/ServerMixedProps.v
theories/ServerMixedSpec.v
theories/ServerModel.v
theories/ServerMoreProps.v
theories/ServerProofs.v
theories/ServerProps.v
theories/ServerQuery.v
theories/ServerQueryProps.v
theories/ServerQuerySpec.v
theories/ServerSlotDemo.v
theories/ServerSlotProps.v
theories/ServerSlotSpec.v
theories/ServerSoloSpec.v
theories/ServerSpec.v
theories/ServerTop.v
theories/ServerUniqueConcProps.v
theories/ServerUniqueDemo.v
theories/ServerUniqueProps.v
theories/ServerUniqueSpec.v
theories/Stat64ErrProofs.v
theories/Stat64ErrProps.v
theories/Stat64ErrSpec.v
theories/Stat64FloatProofs.v
theories/Stat64FloatSpec.v
theories/Stat64Model.v
theories/Stat64Proofs.v
theories/Stat64Props.v
theories/Stat64RealProofs.v
theories/Stat64RealSpec.v
theories/Stat64Spec.v
theories/StatsErrProofs.v
theories/StatsErrProps.v
theories/StatsErrSpec.v
theories/StatsSeeProofs.v
theories/StatsSeeProps.v
theories/StatsUtilModel.v
theories/StatsUtilProofs.v
theories/StatsUtilProps.v
theories/StatsUtilSpec.v
theories/StoreConcMixed.v
theories/StoreConcModel.v
theories/StoreConcProofs.v
theories/StoreConcProps.v
theories/StoreConcSpec.v
theories/StoreConcTop.v
theories/StoreConcTop2.v
theories/StoreConcTop3.v
theories/StoreHome.v
theories/StoreProofs.v
