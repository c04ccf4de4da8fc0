-Q theories Verif
theories/Base.v
theories/StorageModel.v
theories/StorageSpec.v
theories/StorageProofs.v
theories/StorageTheorems.v
theories/SnapshotModel.v
theories/SnapshotSpec.v
theories/SnapshotProofs.v
theories/SnapshotRecvProofs.v
theories/SnapshotTraceProofs.v
theories/SnapshotTheorems.v
theories/CommModel.v
theories/CommSpec.v
theories/CommProofs.v
theories/CommTraceProofs.v
theories/CommOakProofs.v
theories/CommTheorems.v
theories/SessionModel.v
theories/SessionSpec.v
theories/SessionTheorems.v
theories/ServiceModel.v
theories/ServiceSpec.v
theories/ServiceProofs.v
theories/ServiceTheorems.v
theories/ActorModel.v
theories/ActorSpec.v
theories/CounterModel.v
theories/CounterSpec.v
theories/CounterProofs.v
theories/CounterTheorems.v
theories/Btree.v
theories/TabletModel.v
theories/TabletSpec.v
theories/TabletProofs.v
theories/TabletTheorems.v
theories/WillowModel.v
theories/WillowSpec.v
theories/WillowProofs.v
theories/WillowTheorems.v
theories/DriverModel.v
theories/DriverSpec.v
theories/DriverProofs.v
theories/DriverTheorems.v
theories/DriverBatchProofs.v
theories/DriverBatchTheorems.v
theories/ConsensusModel.v
theories/ConsensusSpec.v
theories/ConsensusProofs.v
theories/ConsensusStoreProofs.v
theories/ConsensusTheorems.v
theories/ReplicaModel.v
theories/ReplicaSpec.v
theories/ReplicaProofs.v
theories/ReplicaCommProofs.v
theories/ReplicaTheorems.v
theories/MetadataModel.v
theories/MetadataSpec.v
theories/MetadataProofs.v
theories/MetadataRequestProofs.v
theories/MetadataOnceProofs.v
theories/MetadataListProofs.v
theories/MetadataOwnerProofs.v
theories/MetadataFreshProofs.v
theories/MetadataTheorems.v
theories/BlobModel.v
theories/BlobSpec.v
theories/BlobProofs.v
theories/BlobHistoryProofs.v
theories/BlobInvariantProofs.v
theories/BlobKnownProofs.v
theories/BlobTheorems.v
theories/CoordinatorModel.v
theories/CoordinatorSpec.v
theories/CoordinatorProofs.v
theories/CoordinatorHandlerProofs.v
theories/CoordinatorCacheProofs.v
theories/CoordinatorDataProofs.v
theories/CoordinatorOutcomeProofs.v
theories/CoordinatorStoreProofs.v
theories/CoordinatorClientProofs.v
theories/CoordinatorTheorems.v
theories/ClusterSpec.v
theories/ClusterProofs.v
theories/ClusterTheorems.v
theories/KeyvalueModel.v
theories/KeyvalueSpec.v
theories/KeyvalueProofs.v
theories/KeyvalueHistoryProofs.v
theories/KeyvalueLossProofs.v
theories/KeyvalueActorProofs.v
theories/KeyvalueTabletProofs.v
theories/KeyvalueTheorems.v
theories/ReplicaTotalProofs.v
theories/ReplicaRunSpec.v
theories/ReplicaRunProofs.v
theories/ReplicaSnapProofs.v
theories/ReplicaRunTheorems.v
theories/ClusterOrderSpec.v
theories/ClusterOrderProofs.v
theories/ClusterOrderTheorems.v
theories/ReplicaTransferSpec.v
theories/ReplicaTransferProofs.v
theories/ReplicaTransferTheorems.v
theories/ClusterDecryptSpec.v
theories/ClusterDecryptProofs.v
theories/ClusterDecryptTheorems.v
theories/ClusterTabletSpec.v
theories/ClusterTabletProofs.v
theories/ClusterTabletTheorems.v
theories/ClusterAnswerSpec.v
theories/ClusterAnswerProofs.v
theories/ClusterAnswerTheorems.v
theories/LoggerModel.v
theories/LoggerSpec.v
theories/LoggerProofs.v
theories/LoggerTheorems.v
theories/DriverReplySpec.v
theories/DriverReplyProofs.v
theories/DriverReplyTheorems.v
theories/DriverSoloSpec.v
theories/DriverSoloProofs.v
theories/DriverSoloTheorems.v
theories/Assumptions.v
