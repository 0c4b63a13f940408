-Q theories Verif
theories/AliasEngine.v
theories/AliasModel.v
theories/AliasProofs.v
theories/AliasWit.v
theories/BatchGiven.v
theories/BatchGivenPf.v
theories/BatchGivenWit.v
theories/BatchGrid.v
theories/BatchModel.v
theories/BatchOut.v
theories/BatchProofs.v
theories/BatchSpec.v
theories/BatchWit.v
theories/BoundsModel.v
theories/BoundsProofs.v
theories/CarryBM.v
theories/CarryBMPf.v
theories/CarryDens.v
theories/CarryLan.v
theories/CarryMin.v
theories/CarryModel.v
theories/CarryPf.v
theories/CarryReac.v
theories/CarryReacPf.v
theories/CarryReacSpec.v
theories/CarrySolAD.v
theories/CarrySolEx.v
theories/CarrySolEx2.v
theories/CarrySolG.v
theories/CarrySolPf.v
theories/CarrySolUse.v
theories/CarrySolute.v
theories/CarrySoluteSpec.v
theories/CarrySpec.v
theories/CarryUse.v
theories/CarryWater.v
theories/CarryWaterPf.v
theories/CarryWaterSpec.v
theories/CarryWaterUse.v
theories/Catalog.v
theories/CatalogPf.v
theories/CgEx.v
theories/CgModel.v
theories/CgPf.v
theories/CgPf2.v
theories/Charge.v
theories/ChargePf.v
theories/CorkCs.v
theories/CorkCubic.v
theories/CorkDeriv.v
theories/CorkEx.v
theories/CorkInst.v
theories/CorkLiq.v
theories/CorkModel.v
theories/CorkProofs.v
theories/CorkSat.v
theories/CorkSpec.v
theories/CorkWit.v
theories/CpModel.v
theories/CpProofs.v
theories/CpSpec.v
theories/CpTsModel.v
theories/CpTsProofs.v
theories/CpWit.v
theories/CsvEx.v
theories/CsvGrid.v
theories/CsvGridPf.v
theories/CsvModel.v
theories/CsvPf.v
theories/CsvSet.v
theories/CsvSpec.v
theories/DatabaseModel.v
theories/DatabaseProofs.v
theories/DatabaseSpec.v
theories/DatabaseWit.v
theories/EngineHang.v
theories/EngineHist.v
theories/EngineInv.v
theories/EngineModel.v
theories/EngineMore.v
theories/EngineProofs.v
theories/EngineSpec.v
theories/EngineTerm.v
theories/EngineUnhandled.v
theories/EngineWit.v
theories/EquationModel.v
theories/EquationMore.v
theories/EquationProofs.v
theories/EquationSpec.v
theories/FernCrit.v
theories/FernModel.v
theories/FernPf.v
theories/GasApply.v
theories/GasCubic.v
theories/GasDeriv.v
theories/GasEx.v
theories/GasInst.v
theories/GasModel.v
theories/GasMore.v
theories/GasPhase.v
theories/GasProofs.v
theories/GasSpec.v
theories/GasWit.v
theories/GemsBase.v
theories/GemsDie.v
theories/GemsEx.v
theories/GemsIso.v
theories/GemsJet.v
theories/GemsLim.v
theories/GemsModel.v
theories/GemsRef.v
theories/GemsRun.v
theories/GemsRunPf.v
theories/GemsSpec.v
theories/GemsTotal.v
theories/HelmHgk.v
theories/HelmHgk2.v
theories/HelmJet.v
theories/HelmModel.v
theories/HelmMore.v
theories/HelmProofs.v
theories/HelmWit.v
theories/HgkPs.v
theories/HgkRoute.v
theories/HgkRoutePf.v
theories/HgkSat.v
theories/HgkSatEx.v
theories/HgkSatPf.v
theories/HgkSatSpec.v
theories/HgkTrans.v
theories/HgkTransPf.v
theories/HgkTransSpec.v
theories/JsonModel.v
theories/JsonMore.v
theories/JsonProofs.v
theories/JsonReac.v
theories/JsonSpec.v
theories/JsonWit.v
theories/LvsDal.v
theories/LvsDim.v
theories/LvsDimPf.v
theories/LvsDome.v
theories/LvsFlow.v
theories/LvsFlowPf.v
theories/LvsFlowUse.v
theories/LvsModel.v
theories/LvsPf.v
theories/LvsSpec.v
theories/LvsTab.v
theories/LvsTherm.v
theories/LvsUse.v
theories/LvsWit.v
theories/MemoModel.v
theories/MemoProofs.v
theories/MineralModel.v
theories/MineralMore.v
theories/MineralProofs.v
theories/MineralSpec.v
theories/OrderModel.v
theories/OrderProofs.v
theories/P_Alias.v
theories/P_Batch.v
theories/P_Bounds.v
theories/P_Carry.v
theories/P_CarryBM.v
theories/P_CarrySol.v
theories/P_Catalog.v
theories/P_Cg.v
theories/P_Charge.v
theories/P_Cork.v
theories/P_Cp.v
theories/P_CpTs.v
theories/P_Csv.v
theories/P_CsvGrid.v
theories/P_Database.v
theories/P_Engine.v
theories/P_Equation.v
theories/P_Fern.v
theories/P_Gas.v
theories/P_Gems.v
theories/P_Given.v
theories/P_Helm.v
theories/P_HgkRoute.v
theories/P_HgkSat.v
theories/P_HgkTrans.v
theories/P_Json.v
theories/P_Lvs.v
theories/P_LvsDim.v
theories/P_LvsFlow.v
theories/P_Memo.v
theories/P_Methods.v
theories/P_Mineral.v
theories/P_Reac.v
theories/P_ReacCarry.v
theories/P_Solute.v
theories/P_SolventCalls.v
theories/P_Stp.v
theories/P_ThermoScalar.v
theories/P_Units.v
theories/P_VolFT.v
theories/P_Water.v
theories/P_WaterCarry.v
theories/RDeriv.v
theories/RDiff2.v
theories/RImplicit.v
theories/ReacConv.v
theories/ReacDens.v
theories/ReacModel.v
theories/ReacProofs.v
theories/ReacSpec.v
theories/ReacWit.v
theories/RefMemoModel.v
theories/RefMemoProofs.v
theories/SoluteDens.v
theories/SoluteEx.v
theories/SoluteG.v
theories/SoluteG2.v
theories/SoluteHKF.v
theories/SoluteModel.v
theories/SoluteO.v
theories/SoluteProofs.v
theories/SoluteSpec.v
theories/SolventCalls.v
theories/SolventCallsPf.v
theories/StpEx.v
theories/StpFluid.v
theories/StpJet.v
theories/StpLimit.v
theories/StpModel.v
theories/StpProofs.v
theories/StpSlope.v
theories/ThermoScalarModel.v
theories/ThermoScalarProofs.v
theories/ThermoScalarSpec.v
theories/UnitsConv.v
theories/UnitsModel.v
theories/UnitsProofs.v
theories/UnitsSpec.v
theories/VolFT.v
theories/VolFTPf.v
theories/WaterAdModel.v
theories/WaterFd.v
theories/WaterModel.v
theories/WaterMore.v
theories/WaterProofs.v
theories/WaterSolve.v
theories/WaterSpec.v
theories/WaterWit.v
