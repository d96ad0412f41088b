-Q theories Verif

theories/Py.v
theories/PyStr.v
theories/ModelMmap.v
theories/ModelLoader.v
theories/ModelSaver.v
theories/SpecStore.v
theories/StoreProofs1.v
theories/StoreProofs2.v
theories/StoreProofs3.v
theories/StoreProofs4.v
theories/StoreProofs5.v
theories/StoreProofs6.v
theories/StoreProofs7.v
theories/ExStore.v
theories/StoreProofs8.v
theories/PropStore.v
theories/Field.v
theories/Tensor.v
theories/ModelGrad.v
theories/SpecGrad.v
theories/GradProofs1.v
theories/GradProofs2.v
theories/GradProofs3.v
theories/ExNum.v
theories/PropGrad.v
theories/Monad.v
theories/ModelState.v
theories/SpecState.v
theories/StateProofs1.v
theories/StateProofs2.v
theories/StateProofs3.v
theories/StateProofs4.v
theories/StateProofs5.v
theories/StateProofs6.v
theories/StateProofs7.v
theories/StateProofs8.v
theories/StateProofs9.v
theories/StateProofs10.v
theories/StateProofs11.v
theories/ExState.v
theories/PropState.v
theories/ModelInfluence.v
theories/ModelReads.v
theories/SpecReads.v
theories/ReadProofs1.v
theories/ReadProofs2.v
theories/ReadProofs3.v
theories/ReadProofs4.v
theories/ReadProofs5.v
theories/ReadProofs6.v
theories/ReadProofs7.v
theories/ReadProofs8.v
theories/ReadProofs9.v
theories/ExReads.v
theories/PropReads.v
theories/SpecWhole.v
theories/WholeProofs1.v
theories/WholeProofs2.v
theories/WholeProofs3.v
theories/WholeProofs4.v
theories/WholeProofs5.v
theories/WholeProofs6.v
theories/ExWhole.v
theories/PropWhole.v
theories/SpecInfluence.v
theories/InfProofs1.v
theories/InfProofs2.v
theories/InfAlg.v
theories/InfProofs3.v
theories/InfProofs4.v
theories/InfProofs5.v
theories/InfProofs6.v
theories/InfProofs7.v
theories/InfProofs8.v
theories/InfProofs9.v
theories/InfProofs10.v
theories/InfProofs11.v
theories/InfProofs12.v
theories/InfProofs13.v
theories/SpecLogs.v
theories/InfProofs14.v
theories/SpecRows.v
theories/InfProofs15.v
theories/InfProofs16.v
theories/InfProofs17.v
theories/InfProofs18.v
theories/InfProofs19.v
theories/InfProofs20.v
theories/ExInfluence.v
theories/SpecSpread.v
theories/SpreadProofs1.v
theories/SpreadProofs2.v
theories/SpreadProofs3.v
theories/ExSpread.v
theories/PropSpread.v
theories/PropInfluence.v
theories/ExRows.v
theories/PropRows.v
theories/ModelLogger.v
theories/SpecLogger.v
theories/LogProofs1.v
theories/ViewProofs.v
theories/ViewProofs2.v
theories/LogProofs2.v
theories/LogProofs3.v
theories/BcastProofs.v
theories/LogProofs4.v
theories/LogProofs5.v
theories/LogProofs6.v
theories/LogProofs7.v
theories/LogProofs8.v
theories/LogProofs9.v
theories/LogProofs10.v
theories/ExLogger.v
theories/PropLogger.v
theories/ExView.v
theories/PropView.v
theories/ModelModules.v
theories/ModelLora.v
theories/SpecLora.v
theories/LoraProofs1.v
theories/LoraProofs2.v
theories/LoraProofs3.v
theories/LoraProofs4.v
theories/LoraProofs5.v
theories/LoraProofs6.v
theories/LoraProofs7.v
theories/LoraProofs8.v
theories/LoraProofs9.v
theories/LoraProofs10.v
theories/LoraProofs11.v
theories/LoraProofs12.v
theories/LoraProofs13.v
theories/LoraProofs14.v
theories/LoraProofs15.v
theories/LoraProofs16.v
theories/LoraProofs17.v
theories/LoraProofs18.v
theories/LoraProofs19.v
theories/ExLora.v
theories/PropLora.v
theories/ModelScheduler.v
theories/SpecScheduler.v
theories/SchedProofs.v
theories/SchedProofs2.v
theories/PropScheduler.v
theories/ModelUtils.v
theories/SpecUtils.v
theories/UtilsProofs.v
theories/PropUtils.v
theories/ModelConfig.v
theories/SpecConfig.v
theories/ConfigProofs.v
theories/ConfigProofs2.v
theories/ConfigProofs3.v
theories/ConfigProofs4.v
theories/ExConfig.v
theories/PropConfig.v
theories/ModelTrainer.v
theories/ModelRun.v
theories/SpecTrainer.v
theories/TrainProofs1.v
theories/TrainProofs2.v
theories/TrainProofs3.v
theories/TrainProofs4.v
theories/TrainProofs5.v
theories/ExTrainer.v
theories/PropTrainer.v
theories/SpecDisk.v
theories/DiskProofs1.v
theories/DiskProofs2.v
theories/DiskProofs3.v
theories/WatchProofs1.v
theories/WatchProofs2.v
theories/ExDisk.v
theories/PropDisk.v
theories/ModelLightning.v
theories/SpecLightning.v
theories/LightProofs1.v
theories/LightProofs2.v
theories/SelfProofs.v
theories/ExLightning.v
theories/ExSelf.v
theories/PropLightning.v
theories/PropSelf.v
theories/SpecFault.v
theories/FaultProofs1.v
theories/FaultProofs2.v
theories/ExFault.v
theories/PropFault.v
theories/SpecAct.v
theories/ActProofs1.v
theories/PropAct.v
theories/SpecRun.v
theories/RunProofs1.v
theories/RunProofs2.v
theories/RunProofs3.v
theories/ExRun.v
theories/PropRun.v
theories/CopyProofs.v
theories/SpecWatch.v
theories/WatchProofs3.v
theories/PropWatch.v
theories/SpecDamage.v
theories/StoreProofs9.v
theories/StoreProofs10.v
theories/SpecDrift.v
theories/DriftProofs1.v
theories/DriftProofs2.v
theories/DriftProofs3.v
theories/ExDrift.v
theories/PropDrift.v
theories/SpecEkfac.v
theories/EkfacProofs1.v
theories/EkfacProofs2.v
theories/EkfacProofs3.v
theories/EkfacProofs4.v
theories/ExEkfac.v
theories/PropEkfac.v
theories/SpecSize.v
theories/StoreProofs12.v
theories/PropDamage.v
theories/SpecRecord.v
theories/RecordProofs.v
theories/PropRecord.v
theories/SpecHook.v
theories/HookProofs.v
theories/EigvalProofs.v
theories/PropHooks.v
theories/PropEigval.v
theories/SpecConv.v
theories/GradProofs4.v
theories/ExConv.v
theories/PropConv.v
theories/SpecSetup.v
theories/SetupProofs.v
theories/PropSetup.v
theories/SpecNew.v
theories/NewProofs.v
theories/NewProofs2.v
theories/ExNew.v
theories/PropNew.v
theories/ModelDtype.v
theories/SpecDtype.v
theories/DtypeProofs.v
theories/DtypeProofs2.v
theories/DtypeProofs3.v
theories/ExDtype.v
theories/PropDtype.v
theories/BornProofs.v
theories/BornProofs2.v
theories/ExBorn.v
theories/PropBorn.v
theories/SpecFactor.v
theories/FactorProofs.v
theories/PropFactor.v
theories/SpecLightWhole.v
theories/LightWhole1.v
theories/LightWhole2.v
theories/ExLightWhole.v
theories/PropLightWhole.v
theories/BornProofs3.v
theories/ExLightBorn.v
theories/PropLightBorn.v
theories/SpecLightEkfac.v
theories/LightEkfac1.v
theories/LightEkfac2.v
theories/ExLightEkfac.v
theories/PropLightEkfac.v
theories/SpecReopen.v
theories/ReopenProofs.v
theories/ReopenProofs2.v
theories/ExReopen.v
theories/PropReopen.v
theories/ReopenEkfac.v
theories/ExReopenEkfac.v
theories/PropReopenEkfac.v
