-Q theories Verif
theories/Base.v
theories/Fld.v
theories/Conc.v
theories/Parallel.v
theories/BitRev.v
theories/FFT.v
theories/Poly.v
theories/ConcLemmas.v
theories/PropConc.v
theories/IO.v
theories/Ext.v
theories/Toy.v
theories/Spec1.v
theories/Phase1.v
theories/Phase1Io.v
theories/Phase1Verify.v
theories/Phase1Trans.v
theories/Phase1Facts.v
theories/Phase1Inv.v
theories/Phase1More.v
theories/Phase1Claims.v
theories/Spec12.v
theories/Phase1Lenient.v
theories/Toy1.v
theories/Prop1.v
theories/Gob.v
theories/GobLemmas.v
theories/Circuit.v
theories/Spec2.v
theories/Phase2.v
theories/Phase2Io.v
theories/Phase2Lemmas.v
theories/Phase2Claims.v
theories/Phase2More.v
theories/Phase2Bad.v
theories/Toy2.v
theories/Prop2.v
theories/Fs.v
theories/Spec3.v
theories/Init2.v
theories/Init2Pure.v
theories/Init2Io.v
theories/Interp.v
theories/Init2Claims.v
theories/Init2More.v
theories/Toy3.v
theories/Prop3.v
theories/Spec4.v
theories/Groth.v
theories/Keys.v
theories/KeysLemmas.v
theories/KeysClaims.v
theories/KeysProps.v
theories/Toy4.v
theories/Prop4.v
theories/Live.v
theories/LiveLemmas.v
theories/Sok.v
theories/LiveFail.v
theories/SokPrograms.v
theories/LiveCmd.v
theories/LiveClaims.v
theories/LiveMore.v
theories/LiveAgree.v
theories/LiveTwin.v
theories/Spec5.v
theories/LiveProps.v
theories/LiveGrow.v
theories/Toy5.v
theories/Prop5.v
theories/Init2Differ.v
theories/Toy6.v
theories/Prop6.v
theories/Spec6.v
theories/Cli.v
theories/CliClaims.v
theories/OnlyA.v
theories/Session.v
theories/SessionClaims.v
theories/Toy7.v
theories/Prop7.v
theories/Spec7.v
theories/Cut1.v
theories/Cut2.v
theories/Cut3.v
theories/Cut4.v
theories/Cut5.v
theories/Prop8.v
theories/Spec8.v
theories/Forge.v
theories/Sessions2.v
theories/Mix2.v
theories/Sound2.v
theories/Toy8.v
theories/Prop9.v
theories/Spec9.v
theories/Sessions3.v
theories/Toy9.v
theories/Prop10.v
theories/LiveDisk.v
theories/LiveDisk2.v
theories/LiveDisk3.v
theories/Prop11.v
theories/Spec10.v
theories/Locality.v
theories/LocalityClaims.v
theories/Toy12.v
theories/Prop12.v
theories/CliPowers.v
theories/Create.v
theories/Prop13.v
theories/Proc.v
theories/ProcLemmas.v
theories/ProcUses.v
theories/ProcLogs.v
theories/ProcClaims.v
theories/Spec11.v
theories/Toy13.v
theories/Prop14.v
theories/Prop15.v
theories/Safe.v
theories/Safe2.v
theories/Safe3.v
theories/Toy14.v
theories/Prop16.v
theories/Spec13.v
theories/Generic.v
theories/Toy15.v
theories/Prop17.v
theories/Spec14.v
theories/Parted.v
theories/Negative.v
theories/Prop18.v
theories/Spec15.v
theories/Quota.v
theories/Short.v
theories/Prop19.v
theories/Spec16.v
theories/Transcript.v
theories/Toy16.v
theories/Prop20.v
theories/Hiding.v
theories/Toy17.v
theories/Prop21.v
theories/Spec17.v
theories/Any.v
theories/Leak.v
theories/Toy18.v
theories/Prop22.v
theories/Spec18.v
theories/Attest.v
theories/Prop23.v
theories/Spec19.v
theories/Readme.v
theories/Prop24.v
theories/Spec20.v
theories/Sizes.v
theories/Prop25.v
theories/Spec21.v
theories/Trans2.v
theories/Trans3.v
theories/Toy20.v
theories/Prop26.v
theories/Spec22.v
theories/Vt.v
theories/Prop27.v
theories/Spec23.v
theories/GobDoc.v
theories/Prop28.v
theories/Spec24.v
theories/Off.v
theories/OffLemmas.v
theories/OffCmd.v
theories/OffClaims.v
theories/Toy19.v
theories/Prop29.v
theories/Spec25.v
theories/Attest1.v
theories/Prop30.v
theories/Origin2.v
theories/Prop31.v
theories/Spec26.v
theories/Binds.v
theories/Prop32.v
theories/Prop33.v
theories/Final.v
theories/Prop34.v
theories/Spec27.v
theories/Torn.v
theories/Prop35.v
theories/Spec28.v
theories/KeyIff.v
theories/Prop36.v
theories/Spec29.v
theories/Shown.v
theories/Prop37.v
theories/Spec30.v
theories/V1Iff.v
theories/Prop38.v
theories/Spec31.v
theories/V2Iff.v
theories/CutOrigin.v
theories/Prop39.v
theories/Spec32.v
theories/NewIff.v
theories/Toy21.v
theories/Prop40.v
theories/Spec33.v
theories/CircIff.v
theories/Prop41.v
theories/ParIff.v
theories/Toy22.v
theories/Prop42.v
theories/Spec34.v
theories/CutKeys.v
theories/Toy23.v
theories/Prop43.v
theories/Spec35.v
theories/VkRight.v
theories/Prop44.v
theories/Strict2.v
theories/StrictIff.v
theories/Prop45.v
theories/Spec36.v
theories/PartIff.v
theories/Prop46.v
theories/Spec37.v
theories/Fixed3.v
theories/FixedPf.v
theories/Prop47.v
