-Q theories Verif
theories/Base.v
theories/PyClass.v
theories/LoopFacts.v
theories/PyDate.v
theories/PyDateFacts.v
theories/DayCount.v
theories/DayCountFacts.v
theories/Holidays.v
theories/Scheduler.v
theories/SchedulerFacts.v
theories/CalendarSpec.v
theories/UsFacts.v
theories/ModFollFacts.v
theories/P_DayCount.v
theories/P_Scheduler.v
theories/StampScheduler.v
theories/P_StampScheduler.v
theories/KeyRate.v
theories/KeyRateFacts.v
theories/P_KeyRate.v
theories/PyList.v
theories/Curve.v
theories/CurveFacts.v
theories/P_Curve.v
theories/Cashflow.v
theories/CashflowFacts.v
theories/P_Yield.v
theories/P_Ladder.v
theories/PySlice.v
theories/P_Slice.v
theories/P_Cashflow.v
theories/P_Hedge.v
theories/P_Par.v
theories/P_MultiSim.v
theories/FloatLoan.v
theories/P_FloatLoan.v
theories/FloatBond.v
theories/P_FloatBond.v
theories/FloatSwap.v
theories/P_FloatSwap.v
theories/FloatImplied.v
theories/P_FloatImplied.v
theories/Bond.v
theories/BondFacts.v
theories/P_Bond.v
theories/YieldFacts.v
theories/P_BondYield.v
theories/Loan.v
theories/LoanFacts.v
theories/P_Loan.v
theories/Swap.v
theories/SwapFacts.v
theories/P_Swap.v
theories/Tenor.v
theories/P_Tenor.v
theories/BrownianInit.v
theories/P_BrownianInit.v
theories/RVec.v
theories/Stochastic.v
theories/StochasticFacts.v
theories/P_Stochastic.v
theories/ShortRate.v
theories/P_ShortRate.v
theories/Deriv.v
theories/Vasicek.v
theories/P_Vasicek.v
theories/P_SimMoments.v
theories/Multi.v
theories/MultiFacts.v
theories/P_Multi.v
theories/P_Multi2.v
theories/P_Multi3.v
theories/P_MultiCases.v
theories/P_NoArb.v
theories/PortOpt.v
theories/P_PortOpt.v
theories/YieldFactory.v
theories/Assets.v
theories/P_Assets.v
theories/Sequence.v
theories/P_Sequence.v
theories/P_YieldFactory.v
theories/P_YieldFit.v
theories/P_Bootstrap.v
theories/Default.v
theories/P_Default.v
theories/Calibrator.v
theories/P_Calibrator.v
theories/P_CalibratorCases.v
theories/Float.v
theories/FloatDayCount.v
theories/FloatFacts.v
theories/P_FloatDayCount.v
theories/P_FloatStamp.v
theories/P_Reset.v
theories/FloatKeyRate.v
theories/P_FloatKeyRate.v
theories/FloatCurve.v
theories/P_FloatCurve.v
theories/KeyRateCmp.v
theories/P_KeyRateCmp.v
theories/FloatCashflow.v
theories/P_FloatCashflow.v
theories/P_BondRef.v
theories/P_SequenceEq.v
theories/P_FloatTime.v
theories/P_FloatLoanTrack.v
theories/FloatYield.v
theories/P_FloatYield.v
theories/FloatVasicek.v
theories/P_FloatVasicek.v
theories/FloatYieldCurve.v
theories/P_FloatYieldCurve.v
theories/P_FloatYieldRisk.v
theories/FloatDuration.v
theories/P_FloatDuration.v
theories/FloatLadder.v
theories/P_FloatLadder.v
theories/FloatPath.v
theories/P_FloatPath.v
theories/P_SimStart.v
theories/FloatIntegral.v
theories/P_FloatIntegral.v
