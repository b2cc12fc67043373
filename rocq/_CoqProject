-Q theories Verif
theories/Prelude.v
theories/PreludeFacts.v
theories/StakingPoolModel.v
theories/StakingPoolSpec.v
theories/ShareMath.v
theories/StakingPoolProofs.v
theories/StakingPoolHistory.v
theories/StakingPoolAccept.v
theories/StakingPoolFacts.v
theories/StakingPoolCustomer.v
theories/StakingPoolRewards.v
theories/StakingPoolDemo.v
theories/StakingPoolProps.v
theories/VotingModel.v
theories/VotingSpec.v
theories/VotingProofs.v
theories/VotingFacts.v
theories/VotingProps.v
theories/WhitelistModel.v
theories/WhitelistSpec.v
theories/WhitelistProofs.v
theories/WhitelistProps.v
theories/MapFacts.v
theories/MultisigModel.v
theories/MultisigSpec.v
theories/MultisigProofs.v
theories/MultisigFacts.v
theories/MultisigLive.v
theories/MultisigProps.v
theories/MultisigAccount.v
theories/MultisigAccountProofs.v
theories/MultisigAccountProps.v
theories/Json.v
theories/Multisig2Model.v
theories/Multisig2Spec.v
theories/Multisig2Proofs.v
theories/Multisig2Facts.v
theories/Multisig2Live.v
theories/Multisig2Props.v
theories/Multisig2Account.v
theories/Multisig2AccountProofs.v
theories/Multisig2AccountProps.v
theories/LockupModel.v
theories/LockupWorld.v
theories/LockupSpec.v
theories/LockupMath.v
theories/LockupEffects.v
theories/LockupInv.v
theories/LockupMoves.v
theories/LockupLocked.v
theories/LockupBusy.v
theories/LockupTerm.v
theories/LockupHist.v
theories/LockupLive.v
theories/LockupFacts.v
theories/LockupProps.v
theories/LockupPoolSpec.v
theories/LockupPool.v
theories/LockupPoolProps.v
theories/LockupPoolLive.v
theories/LockupPoolLiveProps.v
theories/Messages.v
theories/PoolFactoryModel.v
theories/PoolFactorySpec.v
theories/PoolFactoryProofs.v
theories/PoolFactoryProps.v
theories/LockupFactoryModel.v
theories/LockupFactorySpec.v
theories/LockupFactoryProofs.v
theories/LockupFactoryProps.v
theories/MultisigFactoryModel.v
theories/MultisigFactorySpec.v
theories/MultisigFactoryProofs.v
theories/MultisigFactoryProps.v
theories/StateManipulationModel.v
theories/StateManipulationProofs.v
theories/StateManipulationProps.v
theories/WNearModel.v
theories/WNearSpec.v
theories/WNearProofs.v
theories/WNearHist.v
theories/WNearCalls.v
theories/WNearProps.v
theories/EcoSpec.v
theories/EcoProofs.v
theories/EcoFacts.v
theories/EcoLive.v
theories/EcoProps.v
theories/PoolVotingSpec.v
theories/PoolVotingProofs.v
theories/PoolVotingProps.v
theories/StakingPoolBook.v
theories/StakingPoolBookProofs.v
theories/StakingPoolBookProps.v
theories/LockupBook.v
theories/LockupBookProofs.v
theories/LockupBookProps.v
theories/MultisigBook.v
theories/MultisigBookProofs.v
theories/MultisigBookProps.v
theories/Multisig2Book.v
theories/Multisig2BookProofs.v
theories/Multisig2BookProps.v
theories/StorageModel.v
theories/StorageSpec.v
theories/StorageProofs.v
theories/StorageProps.v
theories/OwnedLockup.v
theories/OwnedLockupProofs.v
theories/OwnedLockupProps.v
theories/GasModel.v
theories/GasProofs.v
theories/GasProps.v
theories/Borsh.v
theories/BorshProofs.v
theories/PersistModel.v
theories/PersistSpec.v
theories/PersistProofs.v
theories/PersistProps.v
theories/PoolStore.v
theories/PoolStoreProofs.v
theories/PoolPersist.v
theories/PoolStoreProps.v
theories/OthersPersistSpec.v
theories/OthersPersist.v
theories/OthersPersistProps.v
theories/FoundationProofs.v
theories/FoundationProps.v
theories/Governed.v
theories/GovernedProofs.v
theories/GovernedProps.v
theories/GovernedLockup.v
theories/GovernedLockupProofs.v
theories/GovernedLockupProps.v
theories/JsonModel.v
theories/JsonSpec.v
theories/JsonProofs.v
theories/JsonGrammar.v
theories/WireModel.v
theories/WireSpec.v
theories/WireApi.v
theories/WireProofs.v
theories/WireApiProofs.v
theories/WireProps.v
theories/WireGovernProofs.v
theories/WireGovernProps.v
theories/ViewModel.v
theories/ViewSpec.v
theories/ViewProofs.v
theories/ViewProps.v
theories/LockupAnswers.v
theories/LockupAnswersSpec.v
theories/LockupAnswersProofs.v
theories/LockupAnswersProps.v
theories/FactoryAnswers.v
theories/FactoryStories.v
theories/PoolStories.v
theories/LockupStories.v
theories/MultisigStories.v
theories/FactoryStoriesProofs.v
theories/PoolStoriesProofs.v
theories/LockupStoriesProofs.v
theories/MultisigStoriesProofs.v
theories/FactoryAnswersProps.v
theories/PoolLogModel.v
theories/PoolLogSpec.v
theories/PoolLogProofs.v
theories/PoolLogProps.v
theories/LockupLogModel.v
theories/LockupLogSpec.v
theories/LockupLogProofs.v
theories/LockupLogTold.v
theories/LockupLogCalls.v
theories/LockupLogBacks.v
theories/LockupLogLines.v
theories/LockupLogWorld.v
theories/LockupLogProps.v
theories/OtherLogsModel.v
theories/OtherLogsSpec.v
theories/OtherLogsProofs.v
theories/OtherLogsProps.v
theories/VotingPowerProofs.v
theories/VotingPowerProps.v
theories/StakingPoolGainsSpec.v
theories/StakingPoolGains.v
theories/StakingPoolGainsProps.v
theories/MultisigVeto.v
theories/MultisigVetoProps.v
theories/Multisig2Veto.v
theories/Multisig2VetoProps.v
theories/EcoVote.v
theories/EcoVoteProps.v
theories/MultisigSilence.v
theories/Multisig2Silence.v
theories/GovernedSilence.v
theories/MultisigSilenceProps.v
theories/Multisig2SilenceProps.v
theories/GovernedSilenceProps.v
theories/LockupTerms.v
theories/LockupTermsProps.v
theories/OwnedSilence.v
theories/OwnedSilenceProps.v
theories/StakingPoolFeeLater.v
theories/StakingPoolFee.v
theories/StakingPoolFeeProps.v
theories/StakingPoolFeeLaterProps.v
theories/StakingPoolPingFirst.v
theories/StakingPoolPingFirstProps.v
theories/StakingPoolSplit.v
theories/StakingPoolSplitProps.v
