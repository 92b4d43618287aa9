-Q theories Verif
theories/Base.v
theories/FMap.v
theories/Decimal.v
theories/Curve.v
theories/DecimalProofs.v
theories/CurveProofs.v
theories/CurveCombine.v
theories/Props_Lib.v
theories/World.v
theories/Token.v
theories/TokenProofs.v
theories/Frame.v
theories/Stake.v
theories/Pool.v
theories/PoolProofs.v
theories/Stable.v
theories/StableProofs.v
theories/NewtonProofs.v
theories/Rewards.v
theories/Vest.v
theories/Factory.v
theories/Router.v
theories/System.v
theories/SysFrame.v
theories/SysInv.v
theories/SysPool.v
theories/SysStable.v
theories/SysSupply.v
theories/Runs.v
theories/SysVest.v
theories/SysStake.v
theories/Props_Stake.v
theories/Props_StakeCases.v
theories/SysRewards.v
theories/Props_Rewards.v
theories/Props_RewardsCases.v
theories/SysFact.v
theories/Props_Factory.v
theories/Props_FactoryCases.v
theories/SysAllow.v
theories/Props_Router.v
theories/Props_RouterCases.v
theories/Props_Upgrade.v
theories/Props_UpgradeCases.v
theories/Props_Guards.v
theories/Props_GuardsCases.v
theories/Decimal256.v
theories/Props_Decimal.v
theories/Props_Quotes.v
theories/Props_Live.v
theories/Props_LiveTok.v
theories/Props_LiveStable.v
theories/Props_LiveCases.v
theories/Props_LiveVest.v
theories/Props_LiveFact.v
theories/Props_LiveStake.v
theories/Props_LiveCases2.v
theories/Foreign.v
theories/Props_Foreign.v
theories/Props_Foreign2.v
theories/Props_Decimal2.v
theories/Props_StableDec.v
theories/Props_Split.v
theories/Props_Calls.v
theories/Props_CallsCases.v
theories/Props_LiveRew.v
theories/Props_LiveRewCases.v
theories/Props_LiveMisc.v
theories/Props_LiveMiscCases.v
theories/Props_Effects.v
theories/Props_Effects2.v
theories/Props_EffectsCases.v
theories/Props_Custody.v
theories/Props_CustodyCases.v
theories/Props_History.v
theories/Props_HistoryCases.v
theories/Props_StableHistory.v
theories/Props_StableHistoryCases.v
theories/Extra.v
theories/Props_Extra.v
theories/Props_ExtraCases.v
theories/Script.v
theories/Props_Token.v
theories/Props_Pool.v
theories/Props_PoolCases.v
theories/Props_Stable.v
theories/Props_StableCases.v
theories/Props_Vest.v
theories/Props_VestCases.v
theories/Events.v
theories/EventsErase.v
theories/EventsLog.v
theories/EventsTok.v
theories/EventsExact.v
theories/EventsExact2.v
theories/EventsReplay.v
theories/EventsBooks.v
theories/Props_Events.v
theories/Props_EventsCases.v
theories/NewtonLive.v
theories/Props_Newton.v
theories/Asks.v
theories/AsksErase.v
theories/AsksExact.v
theories/Props_Asks.v
theories/Props_AsksCases.v
theories/Touch.v
theories/TouchErase.v
theories/Life.v
theories/TouchCover.v
theories/TouchGrow.v
theories/LifeLemmas.v
theories/TouchLogs.v
theories/Props_Touch.v
theories/Props_TouchCases.v
theories/Props_Growth.v
theories/TouchCost.v
theories/Props_Budget.v
theories/Footprint.v
theories/FootprintSim.v
theories/FootprintFrame.v
theories/Props_Footprint.v
theories/Queries.v
theories/QueriesErase.v
theories/QueriesObs.v
theories/QueriesSim.v
theories/QueriesTime.v
theories/Props_Queries.v
theories/Props_Queries2.v
theories/Props_QueriesCases.v
theories/Props_Frames.v
theories/Claw.v
theories/ClawPool.v
theories/ClawStable.v
theories/ClawVest.v
theories/ClawRewards.v
theories/ClawStake.v
theories/ClawRun.v
theories/Props_Claw.v
theories/Frozen.v
theories/Props_Frozen.v
theories/Props_FrozenCases.v
theories/Props_Market.v
theories/Props_Market2.v
theories/Hostile.v
theories/Props_Hostile.v
theories/Props_Hostile2.v
theories/ErrProofs.v
theories/Props_Errors.v
theories/Props_ErrorsStable.v
theories/Props_ErrorsCases.v
theories/Props_ErrorsLocks.v
theories/Props_ErrorsRoutes.v
theories/Props_ErrorsCases2.v
theories/Props_StakeFair.v
theories/Props_StakeFairCases.v
theories/Props_StakeTiming.v
theories/Props_StakeTimingCases.v
theories/Props_SplitLiquidity.v
theories/Props_SplitLiquidityCases.v
theories/Props_RouteBack.v
theories/Props_RouteBackCases.v
theories/Props_SplitStable.v
theories/Props_SplitStableCases.v
theories/Props_RouteStable.v
theories/Props_RouteStableCases.v
theories/Props_Mirror.v
theories/Props_MirrorCases.v
theories/Props_Around.v
theories/Props_AroundCases.v
theories/Props_Price.v
theories/Props_PriceCases.v
theories/Props_StakeCredit.v
theories/Props_StakeCreditCases.v
theories/Props_StakeLate.v
theories/Props_StakeLateCases.v
theories/Props_Limits.v
theories/Props_Allow.v
theories/Props_RouteLimits.v
