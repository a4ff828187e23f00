-Q theories Verif
theories/Model/Bytes.v
theories/Model/IntCodec.v
theories/Model/DbKey.v
theories/Model/Utf8.v
theories/Model/Exn.v
theories/Model/Address.v
theories/Spec/TwosComplement.v
theories/Spec/Slots.v
theories/Proof/BytesFacts.v
theories/Proof/IntCodecFacts.v
theories/Proof/Int64Facts.v
theories/Proof/DbKeyFacts.v
theories/Proof/Utf8Facts.v
theories/Proof/AddressFacts.v
theories/Props/P_IntCodec.v
theories/Props/P_DbKey.v
theories/Props/P_Address.v
theories/Model/Typed.v
theories/Spec/WireValues.v
theories/Spec/ParamSpec.v
theories/Proof/TypedFacts.v
theories/Proof/TypeConverterFacts.v
theories/Props/P_Typed.v
theories/Props/P_Params.v
theories/Model/Monad.v
theories/Model/EE.v
theories/Model/Api.v
theories/Spec/EagerEE.v
theories/Spec/EETrace.v
theories/Proof/EESim.v
theories/Proof/EagerFacts.v
theories/Props/P_EE.v
theories/Model/Containers.v
theories/Spec/Running.v
theories/Spec/ApiSpec.v
theories/Proof/RunningFacts.v
theories/Proof/ApiFacts.v
theories/Spec/ContainerOps.v
theories/Proof/ContainerFacts.v
theories/Proof/ContainerFacts2.v
theories/Proof/ContainerFacts3.v
theories/Proof/ContainerFacts4.v
theories/Props/P_Containers.v
theories/Props/P_Api.v
theories/Model/Errors.v
theories/Spec/Nesting.v
theories/Proof/NestingFacts.v
theories/Props/P_Errors.v
theories/Props/P_ScoreClass.v
theories/Model/ScoreClass.v
theories/Model/TypeConverter.v
theories/Model/ScoreApi.v
theories/Model/Events.v
theories/Model/Bloom.v
theories/Model/Batch.v
theories/Spec/ClassSpec.v
theories/Spec/EventSpec.v
theories/Spec/Monitor.v
theories/Spec/BatchSpec.v
theories/Proof/ScoreClassFacts.v
theories/Proof/ScoreApiFacts.v
theories/Proof/DispatchFacts.v
theories/Proof/EventFacts.v
theories/Proof/EventFacts2.v
theories/Proof/BloomFacts.v
theories/Proof/BatchFacts.v
theories/Props/P_Events.v
theories/Props/P_Bloom.v
theories/Props/P_Batch.v
theories/Model/HvhState.v
theories/Model/HvhExt.v
theories/Spec/HvhSpec.v
theories/Proof/HvhFacts.v
theories/Proof/HvhSupply.v
theories/Proof/HvhTreasury.v
theories/Proof/HvhTerms.v
theories/Proof/HvhIssue.v
theories/Proof/HvhRewards.v
theories/Proof/HvhLive.v
theories/Spec/HvhSample.v
theories/Proof/HvhClaims.v
theories/Proof/HvhRun.v
theories/Props/P_HvhTerms.v
theories/Proof/HvhClaims2.v
theories/Props/P_HvhRewards.v
theories/Props/P_HvhCoins.v
theories/Model/ValidatorList.v
theories/Spec/ValidatorListSpec.v
theories/Proof/ValidatorListFacts.v
theories/Props/P_ValidatorList.v
theories/Model/HvhValidator.v
theories/Spec/HvhValSpec.v
theories/Proof/HvhValFacts.v
theories/Proof/HvhValTurn.v
theories/Proof/HvhValInv.v
theories/Proof/HvhValSeats.v
theories/Proof/HvhValBase.v
theories/Proof/HvhValVotes.v
theories/Proof/HvhValHist.v
theories/Proof/HvhValEffect.v
theories/Proof/HvhValMore.v
theories/Proof/HvhValMiss.v
theories/Props/P_HvhValidator.v
theories/Model/PackageValidator.v
theories/Spec/PackageSpec.v
theories/Proof/PackageFacts.v
theories/Props/P_Package.v
theories/Model/Unpack.v
theories/Spec/UnpackSpec.v
theories/Proof/UnpackFacts.v
theories/Props/P_Unpack.v
theories/Model/Mpt.v
theories/Model/MptRun.v
theories/Spec/TrieSpec.v
theories/Proof/MptRlpFacts.v
theories/Proof/MptTree.v
theories/Proof/MptStore.v
theories/Proof/MptOps.v
theories/Proof/MptRunFacts.v
theories/Props/P_Trie.v
theories/Model/MptProof.v
theories/Spec/ProofSpec.v
theories/Proof/MptProofFacts.v
theories/Props/P_TrieProof.v
theories/Proof/HvhAdmin.v
theories/Props/P_HvhAdmin.v
theories/Model/MptIter.v
theories/Spec/IterSpec.v
theories/Proof/MptIterFacts.v
theories/Props/P_TrieIter.v
theories/Model/Votes.v
theories/Spec/VoteSpec.v
theories/Proof/VotesFacts.v
theories/Props/P_Votes.v
theories/Model/Consensus.v
theories/Spec/ConsensusSpec.v
theories/Proof/QuorumFacts.v
theories/Proof/ConsensusVotes.v
theories/Proof/ConsensusWal.v
theories/Proof/ConsensusInv.v
theories/Proof/ConsensusSys.v
theories/Proof/ConsensusPlay.v
theories/Props/P_Consensus.v
theories/Model/CommitVotes.v
theories/Spec/CommitSpec.v
theories/Proof/CommitFacts.v
theories/Props/P_Commit.v
theories/Proof/ConsensusPanic.v
theories/Spec/ConsensusLife.v
theories/Props/P_ConsensusPanic.v
theories/Model/TxLocator.v
theories/Spec/TxOnceSpec.v
theories/Proof/TxOnceFacts.v
theories/Proof/TxOnceWorld.v
theories/Proof/TxOnceMain.v
theories/Proof/TxOnceLoc.v
theories/Proof/TxOnceExact.v
theories/Proof/TxOncePlay.v
theories/Props/P_TxOnce.v
theories/Model/TxHash.v
theories/Spec/TxHashSpec.v
theories/Proof/TxHashFacts.v
theories/Proof/TxHashSer.v
theories/Proof/TxHashForms.v
theories/Proof/TxHashAgree.v
theories/Props/P_TxHash.v
theories/Model/ParallelExec.v
theories/Spec/ParallelSpec.v
theories/Proof/ParFacts.v
theories/Proof/ParInv.v
theories/Proof/ParHalt.v
theories/Props/P_Parallel.v
theories/Model/CallFrames.v
theories/Spec/CallSpec.v
theories/Proof/CallFacts.v
theories/Proof/CallTrace.v
theories/Props/P_CallFrames.v
theories/Model/Deposits.v
theories/Spec/DepositSpec.v
theories/Proof/DepositFacts.v
theories/Props/P_Deposits.v
theories/Model/FeePayers.v
theories/Model/TxExecute.v
theories/Spec/FeeSpec.v
theories/Spec/TxSpec.v
theories/Proof/FeeFacts.v
theories/Proof/FeeBounds.v
theories/Proof/FeeFrames.v
theories/Proof/FeeTx.v
theories/Proof/TxPays.v
theories/Proof/TxShape.v
theories/Proof/TxFacts.v
theories/Proof/TxCharge.v
theories/Proof/TxMaster.v
theories/Proof/TxAccount.v
theories/Proof/TxDetails.v
theories/Props/P_TxFees.v
theories/Model/Wal.v
theories/Spec/WalSpec.v
theories/Proof/WalFacts.v
theories/Proof/WalSim.v
theories/Proof/WalBad.v
theories/Props/P_Wal.v
theories/Model/Rlp.v
theories/Spec/RlpSpec.v
theories/Proof/RlpFacts.v
theories/Proof/RlpPrefix.v
theories/Proof/RlpTyped.v
theories/Proof/RlpForms.v
theories/Props/P_Rlp.v
theories/Model/TxPool.v
theories/Spec/TxPoolSpec.v
theories/Proof/TxPoolFacts.v
theories/Proof/TxPoolInv.v
theories/Proof/TxPoolAdd.v
theories/Proof/TxPoolOps.v
theories/Proof/TxPoolCollect.v
theories/Proof/TxPoolSys.v
theories/Proof/TxPoolBloom.v
theories/Props/P_TxPool.v
theories/Model/FastSync.v
theories/Spec/FastSyncSpec.v
theories/Proof/FastSyncFacts.v
theories/Proof/FastSyncInv.v
theories/Proof/FastSyncOps.v
theories/Proof/FastSyncSteps.v
theories/Proof/FastSyncSys.v
theories/Proof/FastSyncMore.v
theories/Proof/FastSyncDead.v
theories/Proof/FastSyncBad.v
theories/Props/P_FastSync.v
theories/Model/BitArray.v
theories/Model/PartSet.v
theories/Spec/PartSetSpec.v
theories/Proof/BitArrayFacts.v
theories/Proof/PartProve.v
theories/Proof/PartHonest.v
theories/Proof/PartSetFacts.v
theories/Props/P_PartSet.v
theories/Model/PeerSync.v
theories/Spec/PeerSyncSpec.v
theories/Proof/PeerSyncFacts.v
theories/Proof/PeerSyncRun.v
theories/Props/P_PeerSync.v
theories/Model/StateSync.v
theories/Spec/StateSyncSpec.v
theories/Proof/StateSyncFacts.v
theories/Proof/StateSyncInv.v
theories/Proof/StateSyncRun.v
theories/Proof/StateSyncTrie.v
theories/Props/P_StateSync.v
theories/Model/BtpMerkle.v
theories/Spec/BtpMerkleSpec.v
theories/Proof/BtpMerkleFacts.v
theories/Props/P_BtpMerkle.v
theories/Model/BtpSection.v
theories/Spec/BtpSectionSpec.v
theories/Proof/BtpSectionSort.v
theories/Proof/BtpSectionBuild.v
theories/Proof/BtpSectionFacts.v
theories/Proof/BtpSectionStore.v
theories/Props/P_BtpSection.v
theories/Model/BtpProof.v
theories/Spec/BtpProofSpec.v
theories/Proof/BtpProofFacts.v
theories/Props/P_BtpProof.v
theories/Model/BtpState.v
theories/Spec/BtpStateSpec.v
theories/Proof/BtpStateFacts.v
theories/Proof/BtpStateBlock.v
theories/Proof/BtpStateMain.v
theories/Props/P_BtpState.v
theories/Props/P_BitArray.v
theories/Model/TxDropped.v
theories/Spec/TxDroppedSpec.v
theories/Proof/TxDroppedFacts.v
theories/Props/P_TxDropped.v
theories/Model/DoubleSign.v
theories/Spec/DoubleSignSpec.v
theories/Proof/DoubleSignFacts.v
theories/Proof/DoubleSignReports.v
theories/Props/P_DoubleSign.v
