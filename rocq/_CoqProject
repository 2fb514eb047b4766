-Q theories Verif
theories/Base.v
theories/BaseFacts.v
theories/CodecModel.v
theories/CodecSpec.v
theories/CodecFacts.v
theories/PropsCodec.v
theories/LabelModel.v
theories/LabelSpec.v
theories/LabelFacts.v
theories/PropsInforms.v
theories/PropsLabel.v
theories/KeyringModel.v
theories/TransformModel.v
theories/TransformSpec.v
theories/TransformFacts.v
theories/KeyringFacts.v
theories/PropsKeyring.v
theories/TransformToy.v
theories/PropsTransform.v
theories/TimeModel.v
theories/CidrModel.v
theories/CidrSpec.v
theories/CidrFacts.v
theories/PropsCidr.v
theories/AwarenessModel.v
theories/AwarenessFacts.v
theories/PropsAwareness.v
theories/SuspicionModel.v
theories/SuspicionSpec.v
theories/SuspicionFacts.v
theories/PropsSuspicion.v
theories/SuspicionReal.v
theories/PropsSuspicionReal.v
theories/MapModel.v
theories/MapFacts.v
theories/BroadcastModel.v
theories/BroadcastFacts.v
theories/BroadcastInv.v
theories/BroadcastHist.v
theories/PropsBroadcast.v
theories/DeadlineModel.v
theories/DeadlineFacts.v
theories/MembersModel.v
theories/MsgModel.v
theories/CoreModel.v
theories/CoreFacts.v
theories/CoreInforms.v
theories/CoreInv.v
theories/CoreSteps.v
theories/CoreTrans.v
theories/CoreHist.v
theories/CoreSpec.v
theories/CoreEffects.v
theories/PropsCore.v
theories/AckModel.v
theories/EndpointModel.v
theories/EndpointSteps.v
theories/EndpointInv.v
theories/EndpointFacts.v
theories/EndpointHist.v
theories/EndpointRuns.v
theories/EndpointSent.v
theories/EndpointAnswers.v
theories/EndpointProbes.v
theories/EndpointUpkeep.v
theories/EndpointUser.v
theories/EndpointDetect.v
theories/EndpointEscalate.v
theories/EndpointOutcome.v
theories/EndpointRounds.v
theories/PropsEndpoint.v
theories/MembersFacts.v
theories/AckFacts.v
theories/MembersRefine.v
theories/PropsTables.v
theories/WireModel.v
theories/WireSpec.v
theories/WireFacts.v
theories/WireSizes.v
theories/StreamModel.v
theories/StreamSpec.v
theories/StreamFacts.v
theories/StreamRuns.v
theories/StreamExchange.v
theories/PropsWire.v
theories/PropsUpkeep.v
theories/PropsDetect.v
theories/PropsOutcome.v
theories/PropsRounds.v
theories/PropsStream.v
theories/ClusterModel.v
theories/ClusterSpec.v
theories/ClusterFacts.v
theories/PropsCluster.v
theories/DataModel.v
theories/DataSpec.v
theories/DataFacts.v
theories/PropsData.v
theories/BridgeModel.v
theories/CoordModel.v
theories/BridgeFacts.v
theories/CoordFacts.v
theories/CoordRuns.v
theories/CoordSteps.v
theories/CoordFrame.v
theories/CoordMeta.v
theories/CoordClaims.v
theories/CoordReports.v
theories/PropsCoord.v
theories/CoordSeal.v
theories/PropsSeal.v
theories/CoreShown.v
theories/PropsShown.v
theories/CoordDeliver.v
theories/PropsDeliver.v
theories/EndpointDials.v
theories/CoordFresh.v
theories/CoordSend.v
theories/PropsSend.v
