-Q theories Verif
theories/PyBase.v
theories/PyLemmas.v
theories/Num.v
theories/NumLemmas.v
theories/DataModel.v
theories/DataSpec.v
theories/DataProofs.v
theories/DataProofs2.v
theories/DataProps.v
theories/BanditModel.v
theories/BanditSpec.v
theories/BanditProofs1.v
theories/BanditProofs2.v
theories/BanditProofs3.v
theories/BanditProofs4.v
theories/BanditProofs5.v
theories/BanditProofs6.v
theories/BanditProofs7.v
theories/BanditProps.v
theories/NumOps.v
theories/FloatOps.v
theories/NumLaws.v
theories/ArmModel.v
theories/ArmSpec.v
theories/ArmProofs1.v
theories/ArmProofs2.v
theories/ArmProofs3.v
theories/ArmProofs4.v
theories/ArmProofs5.v
theories/ArmProofs6.v
theories/ArmProofs7.v
theories/ArmProps.v
theories/ArmProps2.v
theories/BanditProofs8.v
theories/ArmProps3.v
theories/ArmProps4.v
theories/TabModel.v
theories/TabSpec.v
theories/TabProofs.v
theories/TabProofs2.v
theories/TabReal.v
theories/TabProps.v
theories/ScmModel.v
theories/ScmSpec.v
theories/ScmProofs.v
theories/ScmProofs2.v
theories/ScmProps.v
theories/ParamModel.v
theories/ParamSpec.v
theories/ParamProofs.v
theories/ParamProofs2.v
theories/ParamProofs3.v
theories/ParamProofs4.v
theories/ParamProofs5.v
theories/ParamProofs6.v
theories/ParamProofs7.v
theories/ParamProps.v
theories/ParamSpec2.v
theories/ParamProps2.v
theories/ParamProps3.v
theories/PaperModel.v
theories/PaperSpec.v
theories/PaperProofs.v
theories/PaperProofs2.v
theories/PaperProofs3.v
theories/PaperProofs4.v
theories/PaperProps.v
theories/UtilModel.v
theories/UtilSpec.v
theories/UtilProps.v
theories/UtilProps2.v
theories/ExampleModel.v
theories/ExampleSpec.v
theories/ExampleProps.v
theories/CpdModel.v
theories/CpdSpec.v
theories/CpdProofs.v
theories/CpdProps.v
theories/SecSpec.v
theories/SecProofs.v
theories/SecProofs2.v
theories/SecProofs3.v
theories/SecProofs4.v
theories/SecProps.v
theories/SecProps2.v
theories/SecSpec2.v
theories/SecProofs5.v
theories/SecProofs6.v
theories/SecProofs7.v
theories/SecProps3.v
theories/PlotModel.v
theories/PlotSpec.v
theories/PlotProofs.v
theories/PlotProofs2.v
theories/PlotProps.v
theories/NbModel.v
theories/NbSpec.v
theories/NbProofs.v
theories/NbProofs2.v
theories/NbProofs3.v
theories/NbProofs4.v
theories/NbProps.v
theories/NbProps2.v
theories/PacSpec.v
theories/PacProofs.v
theories/PacProps.v
theories/EndModel.v
theories/EndSpec.v
theories/EndProofs.v
theories/EndProps.v
theories/LinModel.v
theories/LinSpec.v
theories/LinProofs.v
theories/LinProofs2.v
theories/LinProofs3.v
theories/LinProofs4.v
theories/LinProofs5.v
theories/LinProps.v
theories/LinProps2.v
theories/GapSpec.v
theories/GapProofs.v
theories/GapProofs2.v
theories/GapProps.v
theories/LawSpec.v
theories/LawProofs.v
theories/LawProofs2.v
theories/LawProofs3.v
theories/LawExample.v
theories/LawProps.v
theories/LawProofs4.v
theories/LawProofs5.v
theories/LawProofs6.v
theories/LawProps2.v
theories/ScoreSpec.v
theories/ScoreProofs.v
theories/ScoreProofs2.v
theories/ScoreProofs3.v
theories/ScoreProofs4.v
theories/ScoreProofs5.v
theories/ScoreProofs6.v
theories/ScoreProofs7.v
theories/ScoreExample.v
theories/ScoreProps.v
theories/SplitSpec.v
theories/SplitProofs.v
theories/SplitProofs2.v
theories/SplitProofs3.v
theories/SplitProps.v
theories/SplitProofs4.v
theories/SplitExample.v
theories/SplitProps2.v
theories/FrontSpec.v
theories/FrontProofs.v
theories/FrontProofs2.v
theories/FrontProofs3.v
theories/FrontExample.v
theories/FrontProps.v
theories/FrontProofs4.v
theories/FrontProps2.v
theories/SeqModel.v
theories/SeqSpec.v
theories/SeqProofs.v
theories/SeqProps.v
