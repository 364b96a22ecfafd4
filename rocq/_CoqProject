-Q theories Verif
theories/Prelude.v
theories/RdtModel.v
theories/SpectraModel.v
theories/RdtSpec.v
theories/SpectraSpec.v
theories/RdtProofs.v
theories/RdtOde.v
theories/SpectraProofs.v
theories/OpsModel.v
theories/OpsSpec.v
theories/OpsProofs.v
theories/CohProofs.v
theories/DrdProofs.v
theories/OpsMore.v
theories/LossModel.v
theories/LossSpec.v
theories/LossProofs.v
theories/LossMore.v
theories/CalModel.v
theories/CalSpec.v
theories/CalProofs.v
theories/CalMore.v
theories/DataModel.v
theories/DataSpec.v
theories/DataProofs.v
theories/GenModel.v
theories/GenSpec.v
theories/GenProofs.v
theories/GenMore.v
theories/GenApi.v
theories/GenPhys.v
theories/GenSeam.v
theories/GenDemo.v
theories/DftModel.v
theories/DftSpec.v
theories/DftProofs.v
theories/DftMore.v
theories/DftCov.v
theories/DftField.v
theories/LowModel.v
theories/LowSpec.v
theories/LowProofs.v
theories/LowFourier.v
theories/LowMore.v
theories/LowSpectrum.v
theories/LowCov.v
theories/LowDemo.v
theories/LowApi.v
theories/LowPositions.v
theories/WindModel.v
theories/WindSpec.v
theories/WindProofs.v
theories/GrfModel.v
theories/GrfSpec.v
theories/GrfProofs.v
theories/PlotModel.v
theories/PlotSpec.v
theories/PlotProofs.v
theories/EndSpec.v
theories/EndProofs.v
theories/EndDft.v
theories/ProbModel.v
theories/ProbSpec.v
theories/ProbProofs.v
theories/ProbFiles.v
theories/QuadSpec.v
theories/QuadProofs.v
theories/QuadTensor.v
theories/QuadMore.v
theories/AnisoSpec.v
theories/AnisoProofs.v
theories/EstSpec.v
theories/EstProofs.v
theories/EstRiemann.v
theories/EstLimit.v
theories/LfPlotModel.v
theories/LfPlotSpec.v
theories/LfPlotProofs.v
theories/VtkModel.v
theories/VtkSpec.v
theories/VtkProofs.v
theories/AliasModel.v
theories/AliasSpec.v
theories/AliasProofs.v
theories/TauPlotModel.v
theories/TauPlotSpec.v
theories/TauPlotProofs.v
theories/StopModel.v
theories/StopSpec.v
theories/StopProofs.v
theories/TotalSpec.v
theories/TotalProofs.v
theories/NodeSpec.v
theories/NodeProofs.v
theories/SiteSpec.v
theories/SiteProofs.v
theories/SiteLow.v
theories/StudyModel.v
theories/StudySpec.v
theories/StudyProofs.v
theories/StudyPool.v
theories/StudyStats.v
theories/StudyAverages.v
theories/StudyResults.v
theories/StudyMore.v
theories/StudyFinal.v
theories/GrfMore.v
theories/HypSpec.v
theories/HypProofs.v
theories/HypSeries.v
theories/AsyModel.v
theories/AsySpec.v
theories/AsyProofs.v
theories/AsyMore.v
theories/AsyFinal.v
theories/BoxProofs.v
theories/VkSpec.v
theories/VkProofs.v
theories/VkFinal.v
theories/HighProofs.v
theories/MidSpec.v
theories/MidProofs.v
theories/MidFinal.v
theories/Fig2Model.v
theories/Fig2Spec.v
theories/Fig2Proofs.v
theories/Fig2Final.v
theories/SizeSpec.v
theories/SizeProofs.v
theories/SizeFinal.v
theories/SensSpec.v
theories/SensProofs.v
theories/SensFinal.v
theories/ParModel.v
theories/ParProofs.v
theories/CovModel.v
theories/CovProofs.v
theories/CalExtra.v
theories/RegModel.v
theories/RegSpec.v
theories/RegProofs.v
theories/AnaProofs.v
theories/AnaFinal.v
theories/DevModel.v
theories/DevSpec.v
theories/DevProofs.v
theories/DevFinal.v
theories/FloModel.v
theories/FloSpec.v
theories/FloBase.v
theories/FloGrid.v
theories/FloCases.v
theories/FloErr.v
theories/FloGeo.v
theories/FloWave.v
theories/FloPos.v
theories/FloFinal.v
theories/EnsSpec.v
theories/EnsProofs.v
theories/LogModel.v
theories/LogSpec.v
theories/LogProofs.v
theories/LogTrain.v
theories/LogCases.v
theories/LogMore.v
theories/EnvModel.v
theories/EnvSpec.v
theories/EnvProofs.v
theories/AdvSpec.v
theories/AdvProofs.v
theories/AdvCases.v
theories/AutoModel.v
theories/AutoSpec.v
theories/AutoProofs.v
theories/AutoNet.v
theories/AutoSpectra.v
theories/AutoLoss.v
theories/AutoMann.v
theories/AutoCases.v
theories/AutoFit.v
theories/AutoRelu.v
theories/GraphModel.v
theories/GraphSpec.v
theories/GraphProofs.v
theories/BalSpec.v
theories/BalProofs.v
theories/BalCases.v
theories/ManySpec.v
theories/ManyProofs.v
theories/EnvMore.v
theories/ManyLoss.v
theories/IntModel.v
theories/IntProofs.v
theories/UnitSpec.v
theories/UnitProofs.v
theories/VelProofs.v
theories/StormModel.v
theories/StormProofs.v
theories/ImpModel.v
theories/ImpSpec.v
theories/ImpProofs.v
theories/WindExModel.v
theories/WindExProofs.v
theories/ImpMore.v
theories/EddyFModel.v
theories/EddyFSpec.v
theories/EddyFProofs.v
theories/MannFitProofs.v
theories/RdtTheorems.v
theories/SpectraTheorems.v
theories/OpsTheorems.v
theories/LossTheorems.v
theories/CalTheorems.v
theories/DataTheorems.v
theories/GenTheorems.v
theories/DftTheorems.v
theories/LowTheorems.v
theories/WindTheorems.v
theories/GrfTheorems.v
theories/PlotTheorems.v
theories/EndTheorems.v
theories/ProbTheorems.v
theories/QuadTheorems.v
theories/AnisoTheorems.v
theories/EstTheorems.v
theories/LfPlotTheorems.v
theories/VtkTheorems.v
theories/AliasTheorems.v
theories/TauPlotTheorems.v
theories/StopTheorems.v
theories/TotalTheorems.v
theories/NodeTheorems.v
theories/SiteTheorems.v
theories/StudyTheorems.v
theories/AsyTheorems.v
theories/VkTheorems.v
theories/HighTheorems.v
theories/MidTheorems.v
theories/Fig2Theorems.v
theories/SizeTheorems.v
theories/SensTheorems.v
theories/ParTheorems.v
theories/CovTheorems.v
theories/RegTheorems.v
theories/AnaTheorems.v
theories/DevTheorems.v
theories/FloTheorems.v
theories/EnsTheorems.v
theories/LogTheorems.v
theories/EnvTheorems.v
theories/AdvTheorems.v
theories/AutoTheorems.v
theories/GraphTheorems.v
theories/BalTheorems.v
theories/ManyTheorems.v
theories/IntTheorems.v
theories/UnitTheorems.v
theories/VelTheorems.v
theories/StormTheorems.v
theories/ImpTheorems.v
theories/EddyFTheorems.v
theories/MannFitTheorems.v
