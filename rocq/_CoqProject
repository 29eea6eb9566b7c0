-Q theories Verif
theories/PandasModel.v
theories/TablesModel.v
theories/VariableIdsModel.v
theories/MarketConstraintsModel.v
theories/UnitConstraintsModel.v
theories/RampModel.v
theories/FcasModel.v
theories/InterModel.v
theories/ElasticModel.v
theories/MarketModel.v
theories/SolverModel.v
theories/ReportsModel.v
theories/FcasReportsModel.v
theories/UnitsModel.v
theories/SpecLp.v
theories/SpecHistory.v
theories/SpecIds.v
theories/Fixtures.v
theories/PandasFacts.v
theories/StepFacts.v
theories/InvariantFacts.v
theories/OwnerFacts.v
theories/SpecDispatch.v
theories/SpecRamp.v
theories/SpecTrap.v
theories/SpecFastStart.v
theories/SpecNetwork.v
theories/SpecElastic.v
theories/SpecPrices.v
theories/SpecReplace.v
theories/SpecReports.v
theories/SpecTies.v
theories/PricingModel.v
theories/SpecPricing.v
theories/ModesModel.v
theories/SequenceModel.v
theories/OffersModel.v
theories/RhsModel.v
theories/ConstraintsModel.v
theories/CacheModel.v
theories/DbModel.v
theories/LossModel.v
theories/XmlModel.v
theories/FrameModel.v
theories/CallModel.v
theories/SpecModes.v
theories/SpecSequence.v
theories/SpecOffers.v
theories/SpecRhs.v
theories/SpecConstraints.v
theories/SpecCache.v
theories/SpecDb.v
theories/SpecLoss.v
theories/SpecXml.v
theories/SpecFrame.v
theories/SpecCalls.v
theories/SolverFacts.v
theories/MeaningFacts.v
theories/LimitFacts.v
theories/CompositeFacts.v
theories/RampFacts.v
theories/TableFacts.v
theories/BidFacts.v
theories/TrapFacts.v
theories/JointRampFacts.v
theories/FastStartFacts.v
theories/BalanceFacts.v
theories/GenericFacts.v
theories/LossFacts.v
theories/DeficitFacts.v
theories/ElasticStateFacts.v
theories/ElasticFacts.v
theories/ElasticFacts2.v
theories/ElasticTheoremFacts.v
theories/BuildFacts.v
theories/ElasticStepFacts.v
theories/PriceStateFacts.v
theories/PriceFacts.v
theories/ExchangeFacts.v
theories/MeritFacts.v
theories/PriceTheoremFacts.v
theories/RenumberFacts.v
theories/ShiftFacts.v
theories/PlanFacts.v
theories/LockstepFacts.v
theories/ReplaceFacts.v
theories/RemoveFacts.v
theories/ReportFacts.v
theories/SummaryFacts.v
theories/FcasReportFacts.v
theories/TieFacts.v
theories/PricingFacts.v
theories/RelaxFacts.v
theories/ModesFacts.v
theories/SequenceFacts.v
theories/OffersFacts.v
theories/EnableFacts.v
theories/RhsFacts.v
theories/RpnFacts.v
theories/GroupFacts.v
theories/UpdateFacts.v
theories/ConstraintFacts.v
theories/CalendarFacts.v
theories/CacheFacts.v
theories/DbFacts.v
theories/FillFacts.v
theories/HistLossFacts.v
theories/FrameFacts.v
theories/CallFacts.v
theories/RowFacts.v
theories/RejectFacts.v
theories/CheckFacts.v
theories/CheckLpFacts.v
theories/CheckNetworkFacts.v
theories/CheckPricingFacts.v
theories/PropIds.v
theories/PropLimits.v
theories/PropBids.v
theories/PropFcas.v
theories/PropFastStart.v
theories/PropNetwork.v
theories/PropGeneric.v
theories/PropElastic.v
theories/PropPrices.v
theories/PropReplace.v
theories/PropReports.v
theories/PropTies.v
theories/PropPricing.v
theories/PropSequence.v
theories/PropOffers.v
theories/PropRhs.v
theories/PropConstraints.v
theories/PropCache.v
theories/PropDb.v
theories/PropLoss.v
theories/XmlFacts.v
theories/XmlReadFacts.v
theories/PropCalls.v
theories/PropXml.v
theories/PropXmlRead.v
theories/UnitDataModel.v
theories/SpecUnitData.v
theories/UnitKeysFacts.v
theories/UnitDataFacts.v
theories/UnitBidsFacts.v
theories/UnitTrapFacts.v
theories/CheckUnitFacts.v
theories/PropUnitData.v
theories/RhsReadModel.v
theories/SpecRhsRead.v
theories/RhsReadFacts.v
theories/PropRhsRead.v
theories/CaseModel.v
theories/SpecCase.v
theories/CaseFacts.v
theories/CaseMarketFacts.v
theories/CheckCaseFacts.v
theories/PropCase.v
theories/CaseConstraintsModel.v
theories/SpecCaseConstraints.v
theories/CaseConstraintFacts.v
theories/PropCaseConstraints.v
theories/CheckElasticFacts.v
theories/PropUnviolated.v
theories/SpecDual.v
theories/DualFacts.v
theories/DualMarketFacts.v
theories/DualBidFacts.v
theories/DualLinkFacts.v
theories/DualCapFacts.v
theories/DispatchPricesModel.v
theories/DispatchPriceFacts.v
theories/CheckDualFacts.v
theories/PropDual.v
theories/DispatchModel.v
theories/SpecSolver.v
theories/DispatchFacts.v
theories/CheckDispatchFacts.v
theories/PropDispatch.v
theories/SpecTrade.v
theories/DualTradeFacts.v
theories/CheckTradeFacts.v
theories/PropTrade.v
theories/SpecDemand.v
theories/DemandPriceFacts.v
theories/PropDemandPrice.v
theories/SpecNarrow.v
theories/NarrowFacts.v
theories/PropNarrow.v
theories/SpecOrder.v
theories/OrderFacts.v
theories/CheckOrderFacts.v
theories/PropOrder.v
theories/SpecExact.v
theories/BookFacts.v
theories/ExactFacts.v
theories/ExactTheoremFacts.v
theories/PropExact.v
theories/SpecTables.v
theories/ReadFacts.v
theories/TotalFacts.v
theories/SpecDocs.v
theories/DocFacts.v
theories/PropTables.v
theories/SpecSupply.v
theories/SupplyFacts.v
theories/PropSupply.v
theories/SpecShuffle.v
theories/ShuffleFacts.v
theories/PropShuffle.v
theories/SpecSoft.v
theories/SoftFacts.v
theories/PropSoft.v
theories/SpecChain.v
theories/ChainFacts.v
theories/PropChain.v
theories/SpecMixed.v
theories/CheckMixedFacts.v
theories/MixedFacts.v
theories/PropMixed.v
theories/SpecLosses.v
theories/LossExactFacts.v
theories/LossWeightFacts.v
theories/WeightApartFacts.v
theories/LossTheoremFacts.v
theories/PropLosses.v
theories/SpecCosts.v
theories/CostFacts.v
theories/PropCosts.v
theories/SettledFacts.v
theories/PropSettled.v
theories/SpecEase.v
theories/EaseFacts.v
theories/PropEase.v
theories/SpecRise.v
theories/RiseFacts.v
theories/PropRise.v
theories/SpecValues.v
theories/ValuesFacts.v
theories/PropValues.v
theories/IncompleteFacts.v
theories/PropIncomplete.v
theories/SpecRequirement.v
theories/RequirementFacts.v
theories/PropRequirement.v
theories/TargetsModel.v
theories/TargetsFacts.v
theories/PropTargets.v
theories/DivisionModel.v
theories/SpecDivision.v
theories/DivisionFacts.v
theories/PropDivision.v
theories/HeadFacts.v
theories/PropHead.v
theories/LoneFacts.v
theories/PropLone.v
