-Q theories Verif
theories/Prelude.v
theories/TasksModel.v
theories/TasksProofs.v
theories/TasksProps.v
theories/StatsModel.v
theories/StatsSpec.v
theories/StatsProofs.v
theories/StatsProps.v
theories/MemoModel.v
theories/MemoSpec.v
theories/MemoProofs.v
theories/MemoProps.v
theories/ParallelModel.v
theories/ParallelProofs.v
theories/ParallelProps.v
theories/OmegaModel.v
theories/OmegaSpec.v
theories/OmegaProofs.v
theories/OmegaProps.v
theories/ProcessModel.v
theories/ProcessSpec.v
theories/ProcessProofs.v
theories/ProcessProps.v
theories/CacheModel.v
theories/CacheSpec.v
theories/CacheProofs.v
theories/CacheProps.v
theories/LazyModel.v
theories/LazySpec.v
theories/LazyProofs.v
theories/LazyProps.v
theories/FilesModel.v
theories/FilesSpec.v
theories/FilesProofs.v
theories/FilesProps.v
theories/ConfigModel.v
theories/ConfigSpec.v
theories/ConfigProofs.v
theories/ConfigProps.v
theories/H5Model.v
theories/H5Spec.v
theories/H5Proofs.v
theories/H5Props.v
theories/GridModel.v
theories/GridSpec.v
theories/GridProofs.v
theories/GridAreaProofs.v
theories/GridIndexProofs.v
theories/GridProps.v
theories/NamesModel.v
theories/NamesSpec.v
theories/NamesProofs.v
theories/NamesProps.v
theories/PlaneModel.v
theories/PlaneSpec.v
theories/PlaneProofs.v
theories/PlaneProps.v
theories/UnitsModel.v
theories/UnitsSpec.v
theories/UnitsProofs.v
theories/UnitsProps.v
theories/Lin.v
theories/TensorModel.v
theories/TensorSpec.v
theories/TensorProofs.v
theories/TensorProps.v
theories/RotModel.v
theories/RotSpec.v
theories/RotProofs.v
theories/RotProofs2.v
theories/RotGroups.v
theories/RotProps.v
theories/RigModel.v
theories/RigSpec.v
theories/RigProofs.v
theories/RigProps.v
theories/XfModel.v
theories/XfSpec.v
theories/XfTrig.v
theories/XfRanges.v
theories/XfMats.v
theories/XfOsc.v
theories/XfRay.v
theories/XfFlat.v
theories/XfProps.v
theories/LatModel.v
theories/LatSpec.v
theories/LatProofs.v
theories/LatCell.v
theories/LatSpace.v
theories/LatProps.v
theories/DistModel.v
theories/DistSpec.v
theories/DistProofs.v
theories/DistProps.v
theories/SgTables.v
theories/SgModel.v
theories/SgSpec.v
theories/SgRSpec.v
theories/SgProofs.v
theories/SgAbs.v
theories/SgFact.v
theories/SgMore.v
theories/SgProps.v
theories/UcModel.v
theories/UcSpec.v
theories/UcSym.v
theories/UcList.v
theories/UcProofs.v
theories/UcComplete.v
theories/UcMore.v
theories/UcProps.v
theories/DetModel.v
theories/DetSpec.v
theories/DetProofs.v
theories/DetMore.v
theories/DetProps.v
theories/CylModel.v
theories/CylSpec.v
theories/CylProofs.v
theories/CylMore.v
theories/CylProps.v
theories/ModModel.v
theories/ModTable.v
theories/ModSpec.v
theories/ModProofs.v
theories/ModMore.v
theories/ModProps.v
theories/IdxModel.v
theories/IdxSpec.v
theories/IdxProofs.v
theories/IdxMore.v
theories/IdxScore.v
theories/IdxProps.v
theories/StfModel.v
theories/StfSpec.v
theories/StfProofs.v
theories/StfGroups.v
theories/StfMain.v
theories/StfFit.v
theories/StfInv.v
theories/StfProps.v
theories/EosModel.v
theories/EosSpec.v
theories/EosProofs.v
theories/EosMore.v
theories/EosProps.v
theories/MatModel.v
theories/MatSpec.v
theories/MatProofs.v
theories/MatMain.v
theories/MatExcl.v
theories/MatProps.v
theories/OrbModel.v
theories/OrbSpec.v
theories/OrbProofs.v
theories/OrbMain.v
theories/OrbGroup.v
theories/OrbProps.v
theories/FpModel.v
theories/FpSpec.v
theories/FpProps.v
theories/FibModel.v
theories/FibSpec.v
theories/FibProofs.v
theories/FibUnique.v
theories/FibProps.v
theories/CluModel.v
theories/CluSpec.v
theories/CluProofs.v
theories/CluPair.v
theories/CluMany.v
theories/CluProps.v
theories/EomModel.v
theories/EomSpec.v
theories/EomProofs.v
theories/EomMore.v
theories/EowModel.v
theories/EowSpec.v
theories/EowProofs.v
theories/EomProps.v
theories/EmsModel.v
theories/EmsSpec.v
theories/EmsProofs.v
theories/EmsMed.v
theories/EmsProps.v
theories/VarModel.v
theories/VarSpec.v
theories/VarProofs.v
theories/VarProps.v
theories/SnpModel.v
theories/SnpSpec.v
theories/SnpProofs.v
theories/SnpMore.v
theories/SnpProps.v
theories/FgrModel.v
theories/FgrSpec.v
theories/FgrProofs.v
theories/FgrMore.v
theories/FgrProps.v
theories/PkModel.v
theories/PkSpec.v
theories/PkSpec2.v
theories/PkProofs.v
theories/PkMore.v
theories/PkTwo.v
theories/PkfModel.v
theories/PkProps.v
theories/PkfSpec.v
theories/PkfProofs.v
theories/PkfProps.v
theories/PolModel.v
theories/PolSpec.v
theories/PolProofs.v
theories/PolMore.v
theories/PolProps.v
theories/RfzModel.v
theories/RfzSpec.v
theories/RfzProofs.v
theories/RfzZone.v
theories/RfzMap.v
theories/RfzSample.v
theories/RfzGrid.v
theories/RfzProps.v
theories/NfModel.v
theories/NfSpec.v
theories/NfProofs.v
theories/NfLoop.v
theories/NfGather.v
theories/NfMap.v
theories/NfProps.v
theories/NfgModel.v
theories/NfgSpec.v
theories/NfgProofs.v
theories/NfgMore.v
theories/NfgProps.v
theories/SimModel.v
theories/SimSpec.v
theories/SimProofs.v
theories/SimProps.v
theories/HcModel.v
theories/HcSpec.v
theories/HcProofs.v
theories/HcProps.v
theories/ChkModel.v
theories/ChkSpec.v
theories/ChkProofs.v
theories/ChkProps.v
theories/BvModel.v
theories/BvSpec.v
theories/BvProps.v
theories/CalModel.v
theories/CalSpec.v
theories/CalProofs.v
theories/CalProps.v
theories/CalEx.v
theories/WrModel.v
theories/WrSpec.v
theories/WrProofs.v
theories/WrProps.v
theories/PmModel.v
theories/PmSpec.v
theories/PmProps.v
theories/PpModel.v
theories/PpSpec.v
theories/PpProps.v
theories/SpModel.v
theories/SpSpec.v
theories/SpProofs.v
theories/SpProps.v
theories/TmModel.v
theories/TmSpec.v
theories/TmProofs.v
theories/TmProps.v
theories/CmdModel.v
theories/CmdSpec.v
theories/CmdProofs.v
theories/CmdProps.v
theories/ZpModel.v
theories/ZpSpec.v
theories/ZpProps.v
theories/PhyModel.v
theories/PhySpec.v
theories/PhyProofs.v
theories/PhyProps.v
theories/HslModel.v
theories/HslSpec.v
theories/HslProofs.v
theories/HslProps.v
theories/JcModel.v
theories/JcSpec.v
theories/JcProps.v
