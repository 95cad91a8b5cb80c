-Q theories Verif
theories/Types.v
theories/ExnSpec.v
theories/Prog.v
theories/Config.v
theories/Mem.v
theories/Machine.v
theories/Sched.v
theories/Names.v
theories/Lifecycle.v
theories/ConfigSpec.v
theories/ConfigObs.v
theories/ConfigProofs.v
theories/ConfigProofs2.v
theories/PropsConfig.v
theories/Logic.v
theories/Neutral.v
theories/OwnSpec.v
theories/Own.v
theories/MemInv.v
theories/Hands.v
theories/StateSpec.v
theories/Truth.v
theories/ConfSpec.v
theories/ConfTruth.v
theories/TreeSpec.v
theories/Lang.v
theories/Tree.v
theories/Nodes.v
theories/Marks.v
theories/Spec.v
theories/Demo.v
theories/Copies.v
theories/FlowSpec.v
theories/Moments.v
theories/FlowProofs.v
theories/QueueProofs.v
theories/Place.v
theories/ExactSpec.v
theories/ExactProofs.v
theories/FlowProofs2.v
theories/Witness.v
theories/FlowProofs3.v
theories/PropsQueue.v
theories/PropsFlow.v
theories/ApiSpec.v
theories/StartProofs.v
theories/QTruth.v
theories/FireProofs.v
theories/PropsApi.v
theories/CallSpec.v
theories/CallProofs.v
theories/MultiProofs.v
theories/Demo2.v
theories/PropsCall.v
theories/Demo3.v
theories/Demo10.v
theories/Demo11.v
theories/RaceSpec.v
theories/StuckProofs.v
theories/RefuteProofs.v
theories/PropsRefuted.v
theories/TokenProofs.v
theories/OfferProofs.v
theories/BoundSpec.v
theories/BoundProofs.v
theories/Demo4.v
theories/BoundProofs2.v
theories/PropsBound.v
theories/ReachSpec.v
theories/ReachProofs.v
theories/Demo5.v
theories/PropsReach.v
theories/Threads.v
theories/ThreadsSpec.v
theories/ThreadsProofs.v
theories/PropsThreads.v
theories/Build.v
theories/BuildSpec.v
theories/BuildProofs.v
theories/BuildProofs2.v
theories/BuildProofs3.v
theories/BuildRun.v
theories/Demo6.v
theories/RefuteBuild.v
theories/PropsBuild.v
theories/LiveSpec.v
theories/Depth.v
theories/Live.v
theories/LiveProofs.v
theories/LiveProofs2.v
theories/AppLiveSpec.v
theories/AppLive1.v
theories/AppLive2.v
theories/AppLive3.v
theories/AppLive4.v
theories/AppLive5.v
theories/AppLive6.v
theories/AppLive7.v
theories/AppLive8.v
theories/AppLive9.v
theories/AppLive10.v
theories/EffectSpec.v
theories/EffectProofs.v
theories/Demo7.v
theories/Demo8.v
theories/PropsLive.v
theories/PropsAppLive.v
theories/EntryProofs.v
theories/PropsEntry.v
theories/PropsEffect.v
theories/AppBuild.v
theories/AppBuildSpec.v
theories/AppBuildProofs.v
theories/Demo9.v
theories/PropsAppBuild.v
theories/AccessSpec.v
theories/AccessProofs.v
theories/Demo12.v
theories/PropsAccess.v
theories/FirstSpec.v
theories/FirstProofs.v
theories/Demo13.v
theories/PropsFirst.v
theories/AppFailSpec.v
theories/Demo14.v
theories/Demo15.v
theories/AppFailProofs.v
theories/PropsAppFail.v
theories/PropsAppFate.v
theories/HbSpec.v
theories/Chain.v
theories/HbProofs.v
theories/UseProofs.v
theories/AppLive11.v
theories/Demo17.v
theories/HbRefute.v
theories/PropsHb.v
theories/Demo16.v
theories/PropsAppAgain.v
theories/SubsSpec.v
theories/SubsProofs.v
theories/Demo18.v
theories/SubsRefute.v
theories/PropsSubs.v
theories/ErrorSpec.v
theories/ErrorProofs.v
theories/ErrorProofs2.v
theories/ErrorProofs3.v
theories/ErrorProofs4.v
theories/Demo19.v
theories/ErrorRefute.v
theories/PropsError.v
theories/PoolSpec.v
theories/PoolProofs.v
theories/Demo20.v
theories/PoolRefute.v
theories/PropsPool.v
theories/Refuse.v
theories/RefuseSpec.v
theories/RefuseProofs.v
theories/Demo21.v
theories/RefuseRefute.v
theories/PropsRefuse.v
theories/DetSpec.v
theories/DetProofs.v
theories/Demo22.v
theories/DetRefute.v
theories/PropsDet.v
theories/Reject.v
theories/RejectSpec.v
theories/RejectProofs.v
theories/RejectProofs2.v
theories/Demo23.v
theories/RejectRefute.v
theories/Order.v
theories/OrderSpec.v
theories/OrderProofs.v
theories/OrderProofs2.v
theories/Demo24.v
theories/PropsOrder.v
theories/PropsReject.v
theories/Discard.v
theories/DiscardSpec.v
theories/DiscardProofs.v
theories/DiscardProofs2.v
theories/Demo25.v
theories/DiscardRefute.v
theories/PropsDiscard.v
