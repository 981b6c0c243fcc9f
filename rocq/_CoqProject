-Q theories Verif
theories/AliModel.v
theories/AliProofs.v
theories/AliProofs2.v
theories/AliProofs3.v
theories/AliProofs4.v
theories/AliProps.v
theories/AliSpec.v
theories/AscAttrProps.v
theories/AscCalls.v
theories/AscModel.v
theories/AscParSpec.v
theories/AscProofs.v
theories/AscProofs10.v
theories/AscProofs11.v
theories/AscProofs2.v
theories/AscProofs3.v
theories/AscProofs4.v
theories/AscProofs5.v
theories/AscProofs6.v
theories/AscProofs7.v
theories/AscProofs8.v
theories/AscProofs9.v
theories/AscProps.v
theories/AscSpec.v
theories/AsyModel.v
theories/AsyProofs.v
theories/AsyProofs2.v
theories/AsyProofs3.v
theories/AsyProofs4.v
theories/AsyProofs5.v
theories/AsyProofs6.v
theories/AsyProps.v
theories/AsySpec.v
theories/ClnModel.v
theories/ClnProofs.v
theories/ClnProofs2.v
theories/ClnProofs3.v
theories/ClnProps.v
theories/ClnSpec.v
theories/ClrModel.v
theories/ClrProps.v
theories/CmdProofs.v
theories/CmdProps.v
theories/CmdSpec.v
theories/ColExport.v
theories/ColModel.v
theories/ColProofs.v
theories/ColProps.v
theories/ColSpec.v
theories/CompFam.v
theories/CompInst.v
theories/CompMatch.v
theories/CompModel.v
theories/CompProofs.v
theories/CompProps.v
theories/CompRead.v
theories/CompRewrite.v
theories/CompSelf.v
theories/CompSpec.v
theories/CompTail.v
theories/CpxModel.v
theories/CpxProofs.v
theories/CpxProps.v
theories/CpxSpec.v
theories/CrfModel.v
theories/CrfProofs.v
theories/CrfProps.v
theories/CrfSpec.v
theories/CsvModel.v
theories/CsvProofs.v
theories/CsvProofs2.v
theories/CsvProofs3.v
theories/CsvProps.v
theories/CsvSpec.v
theories/DevModel.v
theories/DevProofs.v
theories/DevProps.v
theories/DevSpec.v
theories/EditModel.v
theories/EditProofs.v
theories/EditProps.v
theories/EditSpec.v
theories/EncModel.v
theories/EncProofs.v
theories/EncProps.v
theories/EncSpec.v
theories/EngCaseProofs.v
theories/EngModel.v
theories/EngProofs.v
theories/EngProps.v
theories/EngSpec.v
theories/ExeModel.v
theories/ExeProofs.v
theories/ExeProps.v
theories/ExeSpec.v
theories/ExpModel.v
theories/ExpProofs.v
theories/ExpProofs2.v
theories/ExpProps.v
theories/ExpSpec.v
theories/FindModel.v
theories/FindProofs.v
theories/FindProps.v
theories/FindSpec.v
theories/FourModel.v
theories/FourProofs.v
theories/FourProps.v
theories/FourSpec.v
theories/FunModel.v
theories/FunProofs.v
theories/FunProps.v
theories/FunSpec.v
theories/GeoModel.v
theories/GeoProofs.v
theories/GeoProps.v
theories/GeoSpec.v
theories/InfModel.v
theories/InfProps.v
theories/InstElab.v
theories/InstModel.v
theories/InstProofs.v
theories/InstProps.v
theories/InstSpec.v
theories/LogModel.v
theories/LogProofs.v
theories/LogProps.v
theories/LogSpec.v
theories/LtlogLoop.v
theories/LtlogModel.v
theories/LtlogProofs.v
theories/LtlogProps.v
theories/LtlogSpec.v
theories/McBench.v
theories/McG.v
theories/McModel.v
theories/McProps.v
theories/McRun.v
theories/McSpec.v
theories/MrgModel.v
theories/MrgProofs.v
theories/MrgProofs2.v
theories/MrgProps.v
theories/MrgSpec.v
theories/NetModel.v
theories/NetProofs.v
theories/NetProps.v
theories/NetSpec.v
theories/NodModel.v
theories/NodProofs.v
theories/NodProps.v
theories/NodSpec.v
theories/OpModel.v
theories/OpProofs.v
theories/OpProps.v
theories/OpSpec.v
theories/PTokModel.v
theories/PTokProofs.v
theories/PTokProps.v
theories/PTokSpec.v
theories/ParLine.v
theories/ParLine2.v
theories/ParLine3.v
theories/ParModel.v
theories/ParProofs.v
theories/ParProps.v
theories/ParSpec.v
theories/PinModel.v
theories/PinProofs.v
theories/PinProps.v
theories/PinSpec.v
theories/PyStr.v
theories/QCmpModel.v
theories/QCmpProofs.v
theories/QCmpProofs2.v
theories/QCmpProofs3.v
theories/QCmpProps.v
theories/QCmpSpec.v
theories/QEdModel.v
theories/QEdProofs.v
theories/QEdProofs2.v
theories/QEdProofs3.v
theories/QEdProofs4.v
theories/QEdProps.v
theories/QEdSpec.v
theories/QLineProofs.v
theories/QLineProofs2.v
theories/QLineProofs3.v
theories/QLineProps.v
theories/QLineSpec.v
theories/QNetModel.v
theories/QNetProofs.v
theories/QNetProofs2.v
theories/QNetProps.v
theories/QNetSpec.v
theories/QParProofs.v
theories/QParSpec.v
theories/QTagLayoutProps.v
theories/QTagModel.v
theories/QTagProofs.v
theories/QTagProps.v
theories/QTagSpec.v
theories/QlogMeas.v
theories/QlogModel.v
theories/QlogProofs.v
theories/QlogProps.v
theories/QlogSpec.v
theories/QstModel.v
theories/QstProofs.v
theories/QstProps.v
theories/QstSpec.v
theories/RacModel.v
theories/RacProofs.v
theories/RacProofs2.v
theories/RacProps.v
theories/RacSpec.v
theories/RawModel.v
theories/RawProofs.v
theories/RawProps.v
theories/RawSpec.v
theories/Regex.v
theories/RegexInv.v
theories/RegexMore.v
theories/RegexProofs.v
theories/RunnerModel.v
theories/RunnerProofs.v
theories/RunnerProps.v
theories/RunnerSpec.v
theories/SbiModel.v
theories/SbiProps.v
theories/SepModel.v
theories/SepProofs.v
theories/SepProps.v
theories/SepSpec.v
theories/ServerModel.v
theories/ServerProofs.v
theories/ServerProps.v
theories/ServerSpec.v
theories/SimModel.v
theories/SimProps.v
theories/SimSpec.v
theories/SrvfModel.v
theories/SrvfProofs.v
theories/SrvfProofs2.v
theories/SrvfProofs3.v
theories/SrvfProps.v
theories/SrvfSpec.v
theories/StepperModel.v
theories/StepperProofs.v
theories/StepperProps.v
theories/StepperSpec.v
theories/StepsModel.v
theories/StepsProofs.v
theories/StepsProps.v
theories/StepsSpec.v
theories/SweepModel.v
theories/SweepProofs.v
theories/SweepProps.v
theories/SweepSpec.v
theories/TaskModel.v
theories/TaskProofs.v
theories/TaskProps.v
theories/TaskSpec.v
theories/TolBatch.v
theories/TolBench.v
theories/TolCollect.v
theories/TolCorner.v
theories/TolFast.v
theories/TolFastModel.v
theories/TolFastRun.v
theories/TolFastSpec.v
theories/TolModel.v
theories/TolProps.v
theories/TolRuns.v
theories/TolSens.v
theories/TolSpec.v
theories/UpdatesModel.v
theories/UpdatesProofs.v
theories/UpdatesProps.v
theories/UpdatesSpec.v
