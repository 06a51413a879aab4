-Q theories Verif
theories/Base.v
theories/BaseLemmas.v
theories/Pumps.v
theories/PumpProofs.v
theories/LjpegEnc.v
theories/LjpegDec.v
theories/HuffTree.v
theories/HuffCanon.v
theories/HuffBuild.v
theories/HuffDec.v
theories/HuffDht.v
theories/LjpegBits.v
theories/LjpegScan.v
theories/LjpegDecode.v
theories/LjpegHeader.v
theories/LjpegRoundtrip.v
theories/PropLjpeg.v
theories/PumpSeq.v
theories/PropPumps.v
theories/Par.v
theories/ParProofs.v
theories/Tiles.v
theories/TilesProofs.v
theories/DngImage.v
theories/DngImageProofs.v
theories/TilesTop.v
theories/Decomp.v
theories/DecompProofs.v
theories/PropTiles.v
theories/Geom.v
theories/GeomProofs.v
theories/PropGeom.v
theories/Packed.v
theories/PackedProofs.v
theories/PropPacked.v
theories/Cfa.v
theories/CfaProofs.v
theories/DngMeta.v
theories/DngMetaProofs.v
theories/PropCfa.v
theories/LjpegSpec.v
theories/LjpegTop.v
theories/Bits.v
theories/BitsSpec.v
theories/BitsProofs.v
theories/PropBits.v
theories/Tiff.v
theories/TiffSpec.v
theories/TiffBytes.v
theories/TiffRead.v
theories/TiffWrite.v
theories/TiffSafe.v
theories/TiffTop.v
theories/PropTiff.v
theories/RawSource.v
theories/RawSourceProofs.v
theories/PropRawSource.v
theories/Crypt.v
theories/CryptSpec.v
theories/CryptProofs.v
theories/CryptSony.v
theories/PropCrypt.v
theories/Original.v
theories/OriginalProofs.v
theories/PropOriginal.v
theories/Strips.v
theories/StripsSpec.v
theories/StripsProofs.v
theories/PropStrips.v
theories/Ftp.v
theories/FtpSpec.v
theories/FtpProofs.v
theories/PropFtp.v
theories/FtpClient.v
theories/FtpClientSpec.v
theories/FtpLogin.v
theories/FtpInside.v
theories/FtpTop.v
theories/PropFtpSession.v
theories/Plan.v
theories/PlanSpec.v
theories/PlanProofs.v
theories/PlanTop.v
theories/PropPlan.v
theories/Jobs.v
theories/JobsSpec.v
theories/JobsProofs.v
theories/JobsTop.v
theories/PropJobs.v
theories/LjpegAnySpec.v
theories/LjpegAny.v
theories/LjpegAnyScan.v
theories/LjpegAnyHead.v
theories/LjpegAnyTop.v
theories/PropLjpegAny.v
theories/Share.v
theories/ShareProofs.v
theories/Demosaic.v
theories/DemosaicSpec.v
theories/DemosaicProofs.v
theories/DemosaicPpg.v
theories/DemosaicTop.v
theories/DemosaicOther.v
theories/DemosaicBil.v
theories/PropDemosaic.v
theories/ParRun.v
theories/Levels.v
theories/LevelsSpec.v
theories/LevelsProofs.v
theories/PropLevels.v
theories/Color.v
theories/ColorSpec.v
theories/ColorProofs.v
theories/ColorTop.v
theories/PropColor.v
theories/Develop.v
theories/DevelopSpec.v
theories/DevelopProofs.v
theories/PropDevelop.v
theories/ExtraSpec.v
theories/ExtraProofs.v
theories/PropExtra.v
theories/Crx.v
theories/CrxSpec.v
theories/CrxProofs.v
theories/CrxLines.v
theories/CrxLL.v
theories/CrxTop.v
theories/PropCrx.v
theories/Idwt.v
theories/IdwtSpec.v
theories/IdwtRow.v
theories/IdwtProofs.v
theories/IdwtLevels.v
theories/IdwtTop.v
theories/IdwtBelow.v
theories/PropIdwt.v
theories/CrxImage.v
theories/CrxImageSpec.v
theories/CrxHdr.v
theories/CrxGeom.v
theories/CrxTiles.v
theories/CrxQuant.v
theories/CrxSrc.v
theories/CrxBands.v
theories/CrxPlane.v
theories/CrxPicture.v
theories/CrxAll.v
theories/CrxEnc.v
theories/CrxNeg.v
theories/CrxImageEx.v
theories/PropCrxImage.v
theories/Pef.v
theories/PefSpec.v
theories/Lanes.v
theories/PefRows.v
theories/PefTable.v
theories/PefTop.v
theories/PefNeg.v
theories/PefEx.v
theories/PropPef.v
theories/NefSpec.v
theories/NefHuff.v
theories/NefRows.v
theories/NefHead.v
theories/NefTop.v
theories/NefNeg.v
theories/NefEx.v
theories/PropNef.v
theories/Sony.v
theories/SonySpec.v
theories/SonyArw1.v
theories/SonyArw2.v
theories/SonyTop.v
theories/SonyEx.v
theories/PropSony.v
theories/Srw.v
theories/SrwSpec.v
theories/SrwTwo.v
theories/SrwOne.v
theories/SrwTop.v
theories/SrwEx.v
theories/PropSrw.v
theories/Pana.v
theories/PanaSpec.v
theories/PanaProofs.v
theories/PanaStore.v
theories/PanaSix.v
theories/PanaFour.v
theories/PanaEx.v
theories/PropPana.v
theories/Dcr.v
theories/DcrSpec.v
theories/DcrProofs.v
theories/DcrTop.v
theories/DcrEx.v
theories/PropDcr.v
theories/Orf.v
theories/OrfSpec.v
theories/OrfProofs.v
theories/OrfRows.v
theories/OrfEx.v
theories/OrfTop.v
theories/PropOrf.v
theories/LjpegYuv.v
theories/LjpegLeaf.v
theories/LjpegYuvSpec.v
theories/LjpegYuvProofs.v
theories/LjpegYuvTop.v
theories/LjpegYuvEnd.v
theories/LjpegLeafProofs.v
theories/LjpegYuvFin.v
theories/LjpegYuvEx.v
theories/PropLjpegYuv.v
theories/Cr2.v
theories/Cr2Spec.v
theories/Cr2Proofs.v
theories/Cr2Chroma.v
theories/Cr2Whole.v
theories/Cr2Colour.v
theories/Cr2Top.v
theories/PropCr2.v
theories/DngFile.v
theories/DngFileSpec.v
theories/DngFileTiff.v
theories/DngFileRaw.v
theories/DngFileRead.v
theories/DngFileTop.v
theories/PropDngFile.v
theories/Bmff.v
theories/BmffSpec.v
theories/BmffProofs.v
theories/BmffRead.v
theories/BmffTop.v
theories/PropBmff.v
theories/Jfif.v
theories/JfifSpec.v
theories/JfifProofs.v
theories/JfifTop.v
theories/PropJfif.v
theories/Choose.v
theories/ChooseSpec.v
theories/ChooseProofs.v
theories/ChooseTop.v
theories/PropChoose.v
theories/Mrw.v
theories/MrwSpec.v
theories/MrwProofs.v
theories/MrwTop.v
theories/PropMrw.v
theories/Ciff.v
theories/CiffSpec.v
theories/CiffProofs.v
theories/CiffTop.v
theories/PropCiff.v
theories/Crw.v
theories/CrwSpec.v
theories/CrwProofs.v
theories/CrwTop.v
theories/PropCrw.v
