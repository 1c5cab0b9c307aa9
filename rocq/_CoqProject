-Q theories Verif
theories/Base.v
theories/Dec.v
theories/TickModel.v
theories/TickSpec.v
theories/DecProofs.v
theories/TickProofs.v
theories/OrderModel.v
theories/MatchModel.v
theories/KeyedProofs.v
theories/MatchSpec.v
theories/OrderProofs.v
theories/MatchProofs.v
theories/MatchLoopProofs.v
theories/MatchBookProofs.v
theories/MatchTop.v
theories/ViewProofs.v
theories/ShareProofs.v
theories/SingleProofs.v
theories/PoolModel.v
theories/KeeperModel.v
theories/PoolProofs.v
theories/PoolOrderProofs.v
theories/PoolViewProofs.v
theories/SqrtProofs.v
theories/RangeProofs.v
theories/RangeCreate.v
theories/KeeperLib.v
theories/KeeperSpec.v
theories/KeeperSpec2.v
theories/KeeperMicro.v
theories/KeeperBank.v
theories/KeeperSteps.v
theories/KeeperReqs.v
theories/KeeperOrders.v
theories/TickOrders.v
theories/KeeperBulk.v
theories/KeeperTrade.v
theories/KeeperInv.v
theories/KeeperHist.v
theories/KeeperTicks.v
theories/KeeperSettle.v
theories/KeeperMsgs.v
theories/KeeperBlock.v
theories/KeeperCancel.v
theories/KeeperPools.v
theories/KeeperPlace.v
theories/KeeperExample.v
theories/Props_Keeper.v
theories/Props_Keeper2.v
theories/CancelSpec.v
theories/KeeperCancelAll.v
theories/Props_Keeper3.v
theories/Props_Keeper4.v
theories/Props_Pool.v
theories/Props_Tick.v
theories/DirectionProofs.v
theories/CrossProofs.v
theories/Props_Match.v
theories/Props_Cross.v
theories/KeysModel.v
theories/KeysSpec.v
theories/KeysProofs.v
theories/Props_Keys.v
theories/DepthModel.v
theories/DepthSpec.v
theories/DepthProofs.v
theories/DepthBook.v
theories/Props_Depth.v
theories/LedgerSpec.v
theories/KeeperLedger.v
theories/KeeperExpire.v
theories/CoverSpec.v
theories/KeeperCover.v
theories/Props_Keeper5.v
theories/Props_Keeper6.v
theories/GenesisModel.v
theories/GenesisSpec.v
theories/GenesisProofs.v
theories/Props_Genesis.v
theories/KeeperRich.v
theories/Props_Keeper7.v
theories/InvariantModel.v
theories/InvariantProofs.v
theories/Props_Invariants.v
theories/KeeperHalt.v
theories/KeeperHalt2.v
theories/Props_Halt.v
theories/MsgSpec.v
theories/KeeperMsgExact.v
theories/Props_Msgs.v
theories/ProductSpec.v
theories/PoolProduct.v
theories/PoolProduct2.v
theories/Props_Product.v
theories/Props_Ticks.v
theories/QueryModel.v
theories/QuerySpec.v
theories/QueryProofs.v
theories/QueryState.v
theories/QueryLists.v
theories/QueryGenesis.v
theories/Props_Query.v
theories/GenesisImport.v
theories/Props_Genesis2.v
theories/MatchChk.v
theories/MatchChkProofs.v
theories/MatchChkTotal.v
theories/KeeperChk.v
theories/KeeperChkProofs.v
theories/OverflowSpec.v
theories/KeeperChkTotal.v
theories/OverflowExample.v
theories/Props_Overflow.v
theories/KeeperIter.v
theories/NodeSpec.v
theories/Props_Node.v
theories/OwnSpec.v
theories/KeeperOwn.v
theories/Props_Own.v
theories/LifeSpec.v
theories/Props_Life.v
theories/KeeperPairBatch.v
theories/Props_Price.v
theories/IsoSpec.v
theories/KeeperIso.v
theories/KeeperIso2.v
theories/KeeperIso3.v
theories/KeeperIso4.v
theories/Props_Iso.v
theories/KeeperFrozen.v
theories/Props_Frozen.v
theories/PoolLedgerSpec.v
theories/KeeperPoolLedger.v
theories/KeeperPoolLedger2.v
theories/Props_PoolLedger.v
theories/MatchClear.v
theories/KeeperClear.v
theories/Props_Clear.v
theories/FairSpec.v
theories/MatchFair.v
theories/Props_Fair.v
theories/ClosedSpec.v
theories/KeeperClosed.v
theories/KeeperRefusal.v
theories/Props_Closed.v
theories/EventModel.v
theories/EventSpec.v
theories/EventProofs.v
theories/EventOrders.v
theories/EventReqs.v
theories/EventHist.v
theories/EventPools.v
theories/EventTrades.v
theories/Props_Events.v
theories/RangeEnds.v
theories/Props_Range.v
theories/RestartModel.v
theories/Props_Restart.v
theories/AuthorityModel.v
theories/Props_Authority.v
theories/AddressModel.v
theories/Props_Address.v
theories/KeeperRest.v
theories/Props_Rest.v
theories/KeeperParams.v
theories/ParamsSpec.v
theories/Props_Params.v
theories/HouseSpec.v
theories/Props_House.v
theories/RandomModel.v
theories/Props_Random.v
theories/BookModel.v
theories/Props_Book.v
theories/AnnounceModel.v
theories/AnnounceSpec.v
theories/AnnounceProofs.v
theories/Props_Announce.v
theories/ArrivalSpec.v
theories/ArrivalProofs.v
theories/Props_Arrival.v
theories/SplitSpec.v
theories/SplitProofs.v
theories/Props_Split.v
