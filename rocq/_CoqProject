-Q theories Verif
theories/Model/Go.v
theories/Model/Attrs.v
theories/Model/Entity.v
theories/Model/Plan.v
theories/Model/Cache.v
theories/Model/Gonum.v
theories/Model/Graph.v
theories/Model/Store.v
theories/Spec/AttrsSpec.v
theories/Proof/AttrsP.v
theories/Props/PAttrs.v
theories/Spec/OptionsSpec.v
theories/Spec/EntitySpec.v
theories/Proof/OptionsP.v
theories/Proof/EntityP.v
theories/Props/PEntity.v
theories/Spec/PlanSpec.v
theories/Spec/CacheSpec.v
theories/Proof/PlanP.v
theories/Proof/CacheP.v
theories/Props/PPlan.v
theories/Props/PCache.v
theories/Proof/GonumP.v
theories/Spec/GraphSpec.v
theories/Spec/SubSpec.v
theories/Proof/GraphP.v
theories/Proof/GraphP2.v
theories/Props/PGraph.v
theories/Proof/BfsP.v
theories/Proof/SubP.v
theories/Props/PSub.v
theories/Spec/StoreSpec.v
theories/Proof/StoreP.v
theories/Props/PStore.v
theories/Model/Lock.v
theories/Model/Conc.v
theories/Model/Beside.v
theories/Spec/LinSpec.v
theories/Spec/ConcSpec.v
theories/Proof/LinP.v
theories/Proof/LinG.v
theories/Proof/MutexP.v
theories/Proof/ConcP.v
theories/Proof/ConcP2.v
theories/Proof/LinG2.v
theories/Proof/GraphLockP.v
theories/Proof/BesideP.v
theories/Proof/BesideP2.v
theories/Model/AttrsConc.v
theories/Spec/AttrsConcSpec.v
theories/Proof/AttrsConcP.v
theories/Props/PConc.v
theories/Props/PConc2.v
theories/Props/PBeside.v
theories/Props/PAttrsConc.v
theories/Model/Broker.v
theories/Spec/BrokerSpec.v
theories/Spec/LiveSpec.v
theories/Proof/BrokerP.v
theories/Proof/BrokerP2.v
theories/Proof/BrokerP3.v
theories/Proof/BrokerP4.v
theories/Proof/BrokerP5.v
theories/Proof/BrokerP6.v
theories/Proof/BrokerP7.v
theories/Proof/BrokerP8.v
theories/Props/PBroker.v
theories/Props/PBroker2.v
theories/Props/PBroker3.v
theories/Proof/BrokerP9.v
theories/Props/PBroker4.v
theories/Model/Json.v
theories/Model/Marshal.v
theories/Spec/MarshalSpec.v
theories/Proof/JsonP.v
theories/Proof/JsonP2.v
theories/Proof/MarshalP.v
theories/Proof/MarshalP2.v
theories/Proof/MarshalP3.v
theories/Props/PMarshal.v
theories/Props/PMarshal2.v
theories/Model/Pipeline.v
theories/Spec/PipelineSpec.v
theories/Props/PPipeline.v
theories/Spec/JsonSpec.v
theories/Proof/JsonP3.v
theories/Proof/JsonP4.v
theories/Proof/JsonP5.v
theories/Props/PJson.v
theories/Props/PMisc.v
theories/Proof/BrokerP10.v
theories/Proof/BrokerP11.v
theories/Proof/LiveP.v
theories/Proof/LiveP2.v
theories/Proof/LiveRun.v
theories/Props/PBroker5.v
theories/Props/PLive.v
theories/Model/Dot.v
theories/Spec/DotSpec.v
theories/Proof/DotP.v
theories/Props/PDot.v
theories/Props/PWeight.v
theories/Props/PIds.v
theories/Props/PFail.v
theories/Spec/OwnSpec.v
theories/Props/POwn.v
theories/Spec/SnapSpec.v
theories/Proof/SnapP.v
theories/Proof/SnapP2.v
theories/Proof/PanicP.v
theories/Proof/AnyP.v
theories/Props/PSnap.v
