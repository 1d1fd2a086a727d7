-Q theories Verif
theories/PyBase.v
theories/PyFacts.v
theories/PyStr.v
theories/PyStrFacts.v
theories/Graph.v
theories/GraphSpec.v
theories/GraphProofs.v
theories/GeoEx.v
theories/Props_Graph.v
theories/Pajek.v
theories/PajekSpec.v
theories/PajekProofs.v
theories/Props_Pajek.v
theories/RGeom.v
theories/RGeomProofs.v
theories/Props_RGeom.v
theories/Demand.v
theories/DemandSpec.v
theories/DemandProofs.v
theories/Props_Demand.v
theories/Mode.v
theories/ModeSpec.v
theories/Props_Mode.v
theories/FloatSpec.v
theories/Props_ModeVals.v
theories/Route.v
theories/Network.v
theories/Predef.v
theories/RouteSpec.v
theories/RouteProofs.v
theories/Props_Network.v
theories/PredefSpec.v
theories/PredefProofs.v
theories/Props_Predef.v
theories/SavedSpec.v
theories/Props_Saved.v
theories/ExtGraph.v
theories/ExtSpec.v
theories/ExtProofs.v
theories/Props_Ext.v
theories/Hyperpath.v
theories/HyperSpec.v
theories/HyperProofs.v
theories/HyperOpt.v
theories/Props_Hyper.v
theories/ConnSpec.v
theories/ConnProofs.v
theories/Props_Conn.v
theories/Assignment.v
theories/AssignSpec.v
theories/AssignProofs.v
theories/OdFacts.v
theories/FlowSpec.v
theories/TableProofs.v
theories/FlowProofs.v
theories/Props_Assign.v
theories/CostSpec.v
theories/Props_Flow.v
theories/Costs.v
theories/Props_Cost.v
theories/UsersCost.v
theories/UsersSpec.v
theories/Props_Users.v
theories/Optimizer.v
theories/OptSpec.v
theories/Props_Opt.v
theories/Results.v
theories/ResultsSpec.v
theories/Props_Results.v
theories/Props_Loads.v
theories/Props_Value.v
theories/PipeSpec.v
theories/Props_Pipe.v
theories/RunSpec.v
theories/Props_Run.v
theories/TableSpec.v
theories/Props_Table.v
theories/Texts.v
theories/TextSpec.v
theories/Props_Text.v
theories/Report.v
theories/ReportSpec.v
theories/Props_Report.v
theories/HyperText.v
theories/HyperTextSpec.v
theories/Props_HyperText.v
theories/Plot.v
theories/PlotSpec.v
theories/Props_Plot.v
theories/Args.v
theories/ArgSpec.v
theories/Props_Args.v
theories/Props_Better.v
theories/Props_Promise.v
theories/Props_Ray.v
theories/Props_Scale.v
theories/Props_Sum.v
theories/Props_Idle.v
theories/Props_More.v
theories/Props_Rates.v
theories/Props_Lines.v
theories/FloatDemand.v
theories/Props_Float.v
theories/Csv.v
theories/CsvSpec.v
theories/Props_Csv.v
theories/FloatTol.v
theories/Props_FloatTol.v
theories/FloatParam.v
theories/Props_FloatParam.v
theories/Replay.v
