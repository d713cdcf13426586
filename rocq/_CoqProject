-Q theories Verif
theories/Prelude.v
theories/World.v
theories/Heap.v
theories/Routes.v
theories/Utils.v
theories/Objectives.v
theories/Insertion.v
theories/LocalSearch.v
theories/Meta.v
theories/Spec.v
theories/SchedProofs.v
theories/TourProofs.v
theories/Runs.v
theories/SpecFair.v
theories/PathProofs.v
theories/RouteProofs.v
theories/EditProofs.v
theories/AppendProofs.v
theories/CloneProofs.v
theories/RemoveProofs.v
theories/HushProofs.v
theories/ComputeProofs.v
theories/StrategyProofs.v
theories/SpecValue.v
theories/ValueProofs.v
theories/ScoreProofs.v
theories/Represents.v
theories/RepresentsProofs.v
theories/Checker.v
theories/Reads.v
theories/TimeTheorems.v
theories/EditTheorems.v
theories/Choices.v
theories/InsertTheorems.v
theories/Witness.v
theories/RefuteTheorems.v
theories/CopyProofs.v
theories/FrameProofs.v
theories/FrameRuns.v
theories/AsideProofs.v
theories/RecallProofs.v
theories/RankingProofs.v
theories/Plannings.v
theories/Values.v
theories/RankingRuns.v
theories/RankingTheorems.v
theories/FairTheorems.v
theories/WitnessValues.v
theories/ValueTheorems.v
theories/Searches.v
theories/WitnessSearch.v
theories/LocalProofs.v
theories/LocalTheorems.v
theories/TwoOptProofs.v
theories/TwoOptTheorems.v
theories/TwoOptEnds.v
theories/ShiftTheorems.v
theories/SpecShift.v
theories/ShiftProofs.v
theories/OneShiftTheorems.v
theories/MetaTheorems.v
theories/GraspTheorems.v
theories/Iterators.v
theories/StatelessProofs.v
theories/SelectTheorems.v
theories/WitnessSelect.v
theories/StatelessTheorems.v
theories/Surface.v
theories/SpecSurface.v
theories/SurfaceTheorems.v
theories/SpecTrip.v
theories/TripTheorems.v
theories/Loaders.v
theories/SpecLoad.v
theories/WitnessLoad.v
theories/LoadTheorems.v
theories/Storers.v
theories/SpecStore.v
theories/WitnessStore.v
theories/StoreTheorems.v
theories/Solver.v
theories/SpecSolver.v
theories/SolverTheorems.v
theories/Equality.v
theories/SpecEquality.v
theories/EqualityTheorems.v
theories/Milp.v
theories/SpecMilp.v
theories/MilpTheorems.v
theories/MilpModel.v
theories/SpecDarp.v
theories/MilpGraph.v
theories/MilpProofs.v
theories/MilpSound.v
theories/MilpComplete.v
theories/MilpCost.v
theories/DarpTheorems.v
theories/WitnessDarp.v
theories/DarpRefute.v
theories/Translate.v
theories/TranslateProofs.v
theories/TranslateRoute.v
theories/SpecTranslate.v
theories/TranslateTheorems.v
theories/Accounts.v
theories/SpecAccount.v
theories/AccountTheorems.v
theories/FileLoader.v
theories/SpecFile.v
theories/FileProofs.v
theories/FileTheorems.v
theories/WitnessFile.v
theories/Report.v
theories/SpecPlan.v
theories/SpecReport.v
theories/FeasibleProofs.v
theories/FeasibleTheorems.v
theories/ReportTheorems.v
theories/WitnessPlan.v
theories/Plots.v
theories/SpecPlot.v
theories/PlotTheorems.v
theories/Props_Stops.v
theories/Props_Edit.v
theories/Props_Insert.v
theories/Props_Ranking.v
theories/Props_Values.v
theories/Props_Select.v
theories/Props_Local.v
theories/Props_Meta.v
theories/Props_Data.v
theories/Props_Store.v
theories/Props_Solver.v
theories/Props_Darp.v
theories/Props_Translate.v
theories/Props_Account.v
theories/Props_File.v
theories/Props_Plan.v
theories/Props_Plot.v
theories/Doubles.v
theories/SpecDouble.v
theories/DoubleTheorems.v
theories/WitnessDouble.v
theories/Props_Double.v
theories/AdmissibleCheck.v
theories/IdleTheorems.v
theories/WitnessIdle.v
theories/IdleRefute.v
theories/Props_Idle.v
theories/Props_Miss.v
theories/RankedTheorems.v
theories/MissProofs.v
theories/FullProofs.v
theories/MissTheorems.v
theories/WitnessMiss.v
theories/MissRefute.v
theories/Props_Ranked.v
theories/SpecCalm.v
theories/FairSearchTheorems.v
theories/CalmTheorems.v
theories/CalmCheck.v
theories/Props_FairSearch.v
theories/SpecDetour.v
theories/DetourProofs.v
theories/DetourTheorems.v
theories/WitnessDetour.v
theories/DetourRefute.v
theories/Props_Detour.v
theories/SpecMoves.v
theories/MoveProofs.v
theories/MoveTheorems.v
theories/WitnessMoves.v
theories/Props_Moves.v
theories/SpecSubmission.v
theories/SubmitProofs.v
theories/SubmitTheorems.v
theories/WitnessSubmit.v
theories/SubmitRefute.v
theories/Props_Submit.v
theories/SpecRoster.v
theories/RosterProofs.v
theories/RosterTheorems.v
theories/WitnessRoster.v
theories/RosterRefute.v
theories/Props_Roster.v
theories/SpecClock.v
theories/ClockProofs.v
theories/WitnessClock.v
theories/ClockTheorems.v
theories/Props_Clock.v
theories/SpecEase.v
theories/WitnessEase.v
theories/EaseTheorems.v
theories/Props_Ease.v
theories/SpecTurns.v
theories/TwoOptBest.v
theories/TwoOptSettled.v
theories/WitnessTurns.v
theories/TurnRefute.v
theories/Props_Turns.v
theories/SpecHours.v
theories/WitnessHours.v
theories/HoursTheorems.v
theories/Props_Hours.v
theories/WarmProofs.v
theories/WitnessWarm.v
theories/WarmTheorems.v
theories/Props_Warm.v
theories/Depth.v
theories/SpecDepth.v
theories/DepthProofs.v
theories/DepthTheorems.v
theories/Props_Depth.v
theories/Names.v
theories/SpecNames.v
theories/WitnessNames.v
theories/NameTheorems.v
theories/SpecGain.v
theories/WitnessGain.v
theories/GainTheorems.v
theories/SpecOrder.v
theories/WitnessOrder.v
theories/OrderTheorems.v
theories/SpecPlaces.v
theories/PlaceProofs.v
theories/WitnessPlaces.v
theories/PlaceTheorems.v
theories/SpecUnits.v
theories/WitnessUnits.v
theories/UnitProofs.v
theories/UnitTheorems.v
theories/Shows.v
theories/SpecShow.v
theories/ShowTheorems.v
theories/Copies.v
theories/SpecCopies.v
theories/DeepProofs.v
theories/DeepTheorems.v
theories/LongTheorems.v
theories/PartProofs.v
theories/SpecStraight.v
theories/StraightTheorems.v
theories/SkipTheorems.v
theories/WitnessSkip.v
theories/Totals.v
theories/SpecTotals.v
theories/TotalTheorems.v
theories/SpecWhole.v
theories/WholeTheorems.v
theories/SpecBridge.v
theories/BridgeTheorems.v
theories/BridgeRoute.v
theories/WitnessBridge.v
theories/SpecWorth.v
theories/WorthTheorems.v
theories/Scores.v
theories/SpecScores.v
theories/ScoreTheorems.v
theories/WitnessScores.v
theories/Props_Names.v
theories/Props_Gain.v
theories/Props_Order.v
theories/Props_Places.v
theories/Props_Units.v
theories/Props_Shows.v
theories/Props_Copies.v
theories/Props_Straight.v
theories/Props_Totals.v
theories/Props_Whole.v
theories/Props_Bridge.v
theories/Props_Worth.v
theories/Props_Scores.v
