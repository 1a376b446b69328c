-Q theories Verif
theories/Base.v
theories/Serde.v
theories/Codec.v
theories/Universe.v
theories/Packet.v
theories/Sha1.v
theories/Sha1Spec.v
theories/Sha1Facts.v
theories/Community.v
theories/PyBinding.v
theories/Network.v
theories/Ipv8.v
theories/Spec.v
theories/NetSpec.v
theories/CommunitySpec.v
theories/Ipv8Spec.v
theories/SerdeFacts.v
theories/CodecFacts.v
theories/Utf8Facts.v
theories/UniverseFacts.v
theories/Client.v
theories/PacketFacts.v
theories/HeaderProofs.v
theories/Prop_Header.v
theories/CodecProofs.v
theories/Prop_Codec.v
theories/CursorProofs.v
theories/FieldProofs.v
theories/Custom.v
theories/CustomSpec.v
theories/CustomProofs.v
theories/Prop_Field.v
theories/Prop_Custom.v
theories/Prop_Cursor.v
theories/CryptoProofs.v
theories/Prop_Crypto.v
theories/PyProofs.v
theories/CommunityProofs.v
theories/Prop_Py.v
theories/Prop_Community.v
theories/NetworkProofs.v
theories/Prop_Network.v
theories/Ipv8Proofs.v
theories/Prop_Ipv8.v
theories/RepoTests.v
theories/Pool.v
theories/PoolSpec.v
theories/Concurrent.v
theories/ConcurrentSpec.v
theories/PoolProofs.v
theories/Prop_Pool.v
theories/EndToEndSpec.v
theories/EndToEndProofs.v
theories/Prop_EndToEnd.v
theories/ConcurrentProofs.v
theories/Prop_Concurrent.v
theories/World.v
theories/WorldSpec.v
theories/WorldProofs.v
theories/Compose.v
theories/ComposeProofs.v
theories/Prop_Compose.v
theories/Parallel.v
theories/ParallelProofs.v
theories/Prop_Parallel.v
theories/Poison.v
theories/PoisonProofs.v
theories/Prop_Poison.v
theories/WorldLiveSpec.v
theories/WorldLiveProofs.v
theories/OverlayLiveProofs.v
theories/Prop_World.v
theories/Prop_WorldLive.v
theories/Prop_OverlayLive.v
theories/OverlayProofs.v
theories/Prop_Overlay.v
theories/LivenessSpec.v
theories/LivenessProofs.v
theories/LivenessFacts.v
theories/PoolLiveSpec.v
theories/PoolLiveProofs.v
theories/Prop_PoolLive.v
theories/RealProofs.v
theories/Prop_Real.v
theories/ReplaySpec.v
theories/ReplayProofs.v
theories/Prop_Replay.v
theories/Spurious.v
theories/SpuriousSpec.v
theories/SpuriousProofs.v
theories/Prop_Spurious.v
theories/Prop_Liveness.v
theories/EdPrime.v
theories/EdField.v
theories/EdCert.v
theories/EdCurve.v
theories/Sha512.v
theories/Sha512Spec.v
theories/Sha512Facts.v
theories/EdSpec.v
theories/Ed25519.v
theories/Ed25519Tests.v
theories/Ed25519Facts.v
theories/Ed25519Proofs.v
theories/Pkcs8.v
theories/Pkcs8Spec.v
theories/Pkcs8Proofs.v
theories/Prop_Ed25519.v
theories/Prop_Pkcs8.v
theories/Rayon.v
theories/RayonSpec.v
theories/RayonProofs.v
theories/Prop_Rayon.v
theories/RayonLiveSpec.v
theories/RayonLiveProofs.v
theories/RayonServedProofs.v
theories/Prop_RayonServed.v
theories/RayonOrder.v
theories/RayonOrderSpec.v
theories/RayonOrderProofs.v
theories/Prop_RayonOrder.v
theories/RayonSingleProofs.v
theories/Prop_RayonSingle.v
theories/ErrorSpec.v
theories/ErrorProofs.v
theories/Prop_Error.v
theories/FixedSize.v
theories/FixedSizeSpec.v
theories/FixedSizeProofs.v
theories/Prop_FixedSize.v
theories/Derive.v
theories/DeriveSpec.v
theories/DeriveProofs.v
theories/Prop_Derive.v
theories/Recursive.v
theories/RecursiveSpec.v
theories/RecursiveProofs.v
theories/Prop_Recursive.v
theories/Cost.v
theories/CostSpec.v
theories/CostProofs.v
theories/Prop_Cost.v
theories/Writing.v
theories/WritingSpec.v
theories/WritingProofs.v
theories/Prop_Writing.v
theories/Members.v
theories/MembersSpec.v
theories/MembersProofs.v
theories/Prop_Members.v
theories/Receiving.v
theories/ReceivingSpec.v
theories/ReceivingProofs.v
theories/Prop_Receiving.v
theories/Nested.v
theories/NestedSpec.v
theories/NestedProofs.v
theories/Prop_Nested.v
theories/PyThreads.v
theories/PyThreadsSpec.v
theories/PyThreadsProofs.v
theories/Prop_PyThreads.v
theories/Equality.v
theories/EqualitySpec.v
theories/EqualityProofs.v
theories/Prop_Equality.v
theories/CarefulSpec.v
theories/CarefulProofs.v
theories/AppendedProofs.v
theories/Prop_Appended.v
theories/ConfigSpec.v
theories/ConfigProofs.v
theories/Prop_Config.v
theories/Prop_Careful.v
theories/WitnessProofs.v
theories/Prop_Witness.v
theories/Cluster.v
theories/ClusterSpec.v
theories/ClusterProofs.v
theories/Prop_Cluster.v
theories/ClusterLiveProofs.v
theories/Prop_ClusterLive.v
theories/RunsOnSpec.v
theories/RunsOnProofs.v
theories/Prop_RunsOn.v
theories/Parts.v
theories/PartsSpec.v
theories/PartsProofs.v
theories/Prop_Parts.v
theories/HistoriesSpec.v
theories/HistoriesProofs.v
theories/Prop_Histories.v
theories/SameProgramSpec.v
theories/SameProgramProofs.v
theories/Prop_SameProgram.v
