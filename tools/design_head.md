# Formal model of RGIOE in Rocq (Coq 8.16.1)

This file is generated by `tools/mkdesign.py` from `tools/design_head.md` (this text), `tools/methods.json`, `properties.jsonl`,
`MANIFEST.json` and `tools/axioms.json` (what `Print Assumptions` printed).

## How to read the development

* `rocq/theories/*Model.v` (and `FusionBase.v`): transcription of the C++ code, function by function; each definition cites file and lines.
* `rocq/theories/*Spec.v`: vocabulary in which properties are stated, independent of the code.
* `rocq/theories/Prop*.v`: the property theorems only, `Cnn_name`, each closed by `exact lemma` with `Print Assumptions` beneath it and
  an `Example` beside it that meets the hypotheses. `_partial`: part of the property; `_refuted`: a witness that the property as the
  user would expect it is false of the code. Everything else is proofs.
* A property with status *partial* whose note starts with REFUTED is one the code violates: the theorems show the violation, and next to
  it what does hold.

## Trusted base

* The kernel of Coq 8.16.1 (with `vm_compute`). No plugins of our own, no axioms of our own, no switched-off checks, no functors or module
  types of our own.
* Axioms of the standard library, listed theorem by theorem at the end of this file: those of the real numbers
  (`ClassicalDedekindReals.sig_forall_dec`, `sig_not_dec`, `functional_extensionality_dep`), `Classical_Prop.classic`, and, because
  mathcomp's matrices need a choice structure on R (file `Rfield.v`), `ClassicalEpsilon.constructive_indefinite_description` and
  `PropExtensionality.propositional_extensionality`. The checker's list also contains fields of sealed modules of the standard library and
  of mathcomp (`RbaseSymbolsImpl.*`, `finset.*`, `bigop.*`, ...): these are opaque definitions, not assumptions of ours.
* Coquelicot is used for differentiation in the proofs of C75-C78, C87, C88, C145 only; it adds no axioms, and the statements use
  the standard library's `derivable_pt_lim`.
* Flocq's formats and rounding (`generic_format`, `round`) give the meaning of `float` and `double` in C102-C104; it adds no axioms.
* The transcription of the C++ code, read by hand and not run.
* The compiler and the platform: little endian, 32-bit `int` and `unsigned`, IEEE layout of recorded floats where bytes matter; data
  dependent undefined behaviour is an outcome of the model (reads outside a buffer in `LoaderModel`, null pointers in `ApiModel` and
  `ReaderModel`, overflow of the sample counters, uninitialised members as parameters over which the theorems quantify).

## Arithmetic

* `double`/`float` arithmetic of the navigation code is exact real arithmetic. Rounding is not modelled (except in C102-C104); a division by zero and the
  corner cases of `asin`, `atan2`, `sqrt` are explicit: a navigation state with an infinity or NaN is `None`, single read-outs that can be
  NaN carry it (`xr` in `RealMath.v`).
* Integers, bytes and checksums are exact machine arithmetic (wrap-around written out).
* Times in the application (outages, merging) are rationals; in C102-C104 the outage plan, the time statistics and the conversions at the
  interface are modelled again with every operation rounded to nearest (finite values; the build's -Ofast reordering is not modelled).

## What is modelled

| source | model | remarks |
|---|---|---|
| Src/Recorder/comm_crc.{c,h} | CrcModel | complete |
| Src/Recorder/Recorder.{h,cpp}, RecorderType.h | RecorderModel | frame and header writer; the file name in TextModel |
| Src/Recorder/DataLoader.{h,cpp} | LoaderModel, SummaryModel | LoadFile, header, frames, data set access; Save2Csv in TextModel; summary and progress in SummaryModel |
| Src/Convert.cpp, Earth.{h,cpp} | ConvertModel, EarthModel | complete but for unused overloads |
| Src/StaticDetect.{h,cpp} | SmoothModel | complete |
| Src/AttiAhrs.{h,cpp} | AhrsModel | complete |
| Src/InsCore.{h,cpp} | InsModel | complete |
| Src/KalmanFilter.hpp | KalmanModel, InnovationModel | complete for the compiled code; the disabled (`#if 0`) sequential/adaptive variants and the empty RTSUpdate are not modelled |
| Src/DataFusion.{h,cpp} | FusionBase, FusionModel, WideModel | fifteen states, as shipped in RgioeDefine.h; other selections: layout in LayoutModel, initial covariance, transition, design matrix and reads of the feedback in SelectModel (C97-C100), the class with them in WideModel (C149-C151); RGIOE_ENABLE_RTS does not compile and is left out; recorder calls in DiaryModel and RecordedModel; logs left out |
| Src/DcmEstimator.{h,cpp} | DcmModel | complete; the singular value decomposition as its contract |
| Src/Alignment.{h,cpp} | AlignModel | AlignMoving; double antenna switched off as shipped |
| Src/rgioe.cpp, Inc/rgioe.h | ApiModel | every exported call; logs left out |
| Src/Outage.{h,cpp} | OutageModel, FloatOutageModel | complete, with rationals and with IEEE doubles |
| Src/RgioeDefine.h | LayoutModel | state layout |
| App/AppCommon/FileIO.{h,cpp} | ReaderModel, WriterModel | IMU and GNSS readers, writer thread; the odometer, barometer and navigation-result readers are commented out in the code; result text TextModel; ReadUntil, printing operators HelperModel; matrix rows RowModel |
| App/AppCommon/Config.{h,cpp} | ConfigModel, HelperModel | as a key/value document; YAML syntax itself is not modelled |
| App/PostDataFusion/*.cpp | MergeModel, PostModel, ProgramModel, OldModel | data manager, main program and second main program (PostDataFusion_old, OldModel); the first one alone (PostModel) and put together with the readers and the configuration (ProgramModel); progress bar only as C54 |
| Tools/ErrorAnalyser.py, ErrorAnalyse.py, Earth.py | EvalModel, PyInsModel, ErrFileModel | as the CI scripts call them (columns 0 to 10, no offset), and the error file; numpy's histogram and scipy's interp1d as documented; reading and printing not modelled |
| Tools/InsCore.py | PyInsModel, PyTextModel, PyParaModel | earth quantities, conversions, the mechanisation step, NavData and its text, ImuPara; with ErrorAnalyser's lever arm and Earth.py's ecef_to_lla; progress bar not modelled |
| Tools/show_sensors.py, show_nav.py | ViewModel | points of each curve from the text of the file; numpy's loadtxt as documented |
| Tools/DataGenerator.cpp | StreamModel, GenModel | main's loop and operator>> over a stream of words; printing with four decimals not modelled |
| Tools/ObtainInstallAngle.cpp | AngleModel | the estimator; the reader it calls is commented out in the code |
| App/RtSimulation/src/navplay | LayoutModel, ReplayModel, AdiModel | raw frame decoding, player, displayed path, queues and loop of the fusion node (after the alignment; callbacks and loop taken as exclusive); poses and calls of an older library interface left out |

Not modelled: UiDataFusion and the other Tools (several use members that the headers no longer have), Test, logging, timing and performance, files that cannot be
opened (except where a property says so), out-of-memory.

## Testing the theorems against wrong programs

`seeded/LOG.jsonl` records edits of the model in a scratch copy: definition, edit, claim it breaks, theorems whose proof fails, theorems
tightened. The edits are applied one at a time, everything that depends on the edited definition is rebuilt, and lemmas that fail are admitted so
that the theorems that use them can be told apart from those that do not; a property theorem counts as failed if its proof uses a lemma that
no longer holds. Where nothing failed although the claim was false of the edited program, a theorem was added or tightened (C59, C75-C79, C87, C88
among them).
