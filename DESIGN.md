# Formal model of RGIOE in Rocq (Coq 8.16.1)

This file is generated by `tools/mkdesign.py` from `tools/design_head.md` (this text), `tools/methods.json`, `properties.jsonl`,
`MANIFEST.json` and `tools/axioms.json` (what `Print Assumptions` printed).

## How to read the development

* `rocq/theories/*Model.v` (and `FusionBase.v`): transcription of the C++ code, function by function; each definition cites file and lines.
* `rocq/theories/*Spec.v`: vocabulary in which properties are stated, independent of the code.
* `rocq/theories/Prop*.v`: the property theorems only, `Cnn_name`, each closed by `exact lemma` with `Print Assumptions` beneath it and
  an `Example` beside it that meets the hypotheses. `_partial`: part of the property; `_refuted`: a witness that the property as the
  user would expect it is false of the code. Everything else is proofs.
* A property with status *partial* whose note starts with REFUTED is one the code violates: the theorems show the violation, and next to
  it what does hold.

## Trusted base

* The kernel of Coq 8.16.1 (with `vm_compute`). No plugins of our own, no axioms of our own, no switched-off checks, no functors or module
  types of our own.
* Axioms of the standard library, listed theorem by theorem at the end of this file: those of the real numbers
  (`ClassicalDedekindReals.sig_forall_dec`, `sig_not_dec`, `functional_extensionality_dep`), `Classical_Prop.classic`, and, because
  mathcomp's matrices need a choice structure on R (file `Rfield.v`), `ClassicalEpsilon.constructive_indefinite_description` and
  `PropExtensionality.propositional_extensionality`. The checker's list also contains fields of sealed modules of the standard library and
  of mathcomp (`RbaseSymbolsImpl.*`, `finset.*`, `bigop.*`, ...): these are opaque definitions, not assumptions of ours.
* Coquelicot is used for differentiation in the proofs of C75-C78, C87, C88, C145 only; it adds no axioms, and the statements use
  the standard library's `derivable_pt_lim`.
* Flocq's formats and rounding (`generic_format`, `round`) give the meaning of `float` and `double` in C102-C104; it adds no axioms.
* The transcription of the C++ code, read by hand and not run.
* The compiler and the platform: little endian, 32-bit `int` and `unsigned`, IEEE layout of recorded floats where bytes matter; data
  dependent undefined behaviour is an outcome of the model (reads outside a buffer in `LoaderModel`, null pointers in `ApiModel` and
  `ReaderModel`, overflow of the sample counters, uninitialised members as parameters over which the theorems quantify).

## Arithmetic

* `double`/`float` arithmetic of the navigation code is exact real arithmetic. Rounding is not modelled (except in C102-C104); a division by zero and the
  corner cases of `asin`, `atan2`, `sqrt` are explicit: a navigation state with an infinity or NaN is `None`, single read-outs that can be
  NaN carry it (`xr` in `RealMath.v`).
* Integers, bytes and checksums are exact machine arithmetic (wrap-around written out).
* Times in the application (outages, merging) are rationals; in C102-C104 the outage plan, the time statistics and the conversions at the
  interface are modelled again with every operation rounded to nearest (finite values; the build's -Ofast reordering is not modelled).

## What is modelled

| source | model | remarks |
|---|---|---|
| Src/Recorder/comm_crc.{c,h} | CrcModel | complete |
| Src/Recorder/Recorder.{h,cpp}, RecorderType.h | RecorderModel | frame and header writer; the file name in TextModel |
| Src/Recorder/DataLoader.{h,cpp} | LoaderModel, SummaryModel | LoadFile, header, frames, data set access; Save2Csv in TextModel; summary and progress in SummaryModel |
| Src/Convert.cpp, Earth.{h,cpp} | ConvertModel, EarthModel | complete but for unused overloads |
| Src/StaticDetect.{h,cpp} | SmoothModel | complete |
| Src/AttiAhrs.{h,cpp} | AhrsModel | complete |
| Src/InsCore.{h,cpp} | InsModel | complete |
| Src/KalmanFilter.hpp | KalmanModel, InnovationModel | complete for the compiled code; the disabled (`#if 0`) sequential/adaptive variants and the empty RTSUpdate are not modelled |
| Src/DataFusion.{h,cpp} | FusionBase, FusionModel, WideModel | fifteen states, as shipped in RgioeDefine.h; other selections: layout in LayoutModel, initial covariance, transition, design matrix and reads of the feedback in SelectModel (C97-C100), the class with them in WideModel (C149-C151); RGIOE_ENABLE_RTS does not compile and is left out; recorder calls in DiaryModel and RecordedModel; logs left out |
| Src/DcmEstimator.{h,cpp} | DcmModel | complete; the singular value decomposition as its contract |
| Src/Alignment.{h,cpp} | AlignModel | AlignMoving; double antenna switched off as shipped |
| Src/rgioe.cpp, Inc/rgioe.h | ApiModel | every exported call; logs left out |
| Src/Outage.{h,cpp} | OutageModel, FloatOutageModel | complete, with rationals and with IEEE doubles |
| Src/RgioeDefine.h | LayoutModel | state layout |
| App/AppCommon/FileIO.{h,cpp} | ReaderModel, WriterModel | IMU and GNSS readers, writer thread; the odometer, barometer and navigation-result readers are commented out in the code; result text TextModel; ReadUntil, printing operators HelperModel; matrix rows RowModel |
| App/AppCommon/Config.{h,cpp} | ConfigModel, HelperModel | as a key/value document; YAML syntax itself is not modelled |
| App/PostDataFusion/*.cpp | MergeModel, PostModel, ProgramModel, OldModel | data manager, main program and second main program (PostDataFusion_old, OldModel); the first one alone (PostModel) and put together with the readers and the configuration (ProgramModel); progress bar only as C54 |
| Tools/ErrorAnalyser.py, ErrorAnalyse.py, Earth.py | EvalModel, PyInsModel, ErrFileModel | as the CI scripts call them (columns 0 to 10, no offset), and the error file; numpy's histogram and scipy's interp1d as documented; reading and printing not modelled |
| Tools/InsCore.py | PyInsModel, PyTextModel, PyParaModel | earth quantities, conversions, the mechanisation step, NavData and its text, ImuPara; with ErrorAnalyser's lever arm and Earth.py's ecef_to_lla; progress bar not modelled |
| Tools/show_sensors.py, show_nav.py | ViewModel | points of each curve from the text of the file; numpy's loadtxt as documented |
| Tools/DataGenerator.cpp | StreamModel, GenModel | main's loop and operator>> over a stream of words; printing with four decimals not modelled |
| Tools/ObtainInstallAngle.cpp | AngleModel | the estimator; the reader it calls is commented out in the code |
| App/RtSimulation/src/navplay | LayoutModel, ReplayModel, AdiModel | raw frame decoding, player, displayed path, queues and loop of the fusion node (after the alignment; callbacks and loop taken as exclusive); poses and calls of an older library interface left out |

Not modelled: UiDataFusion and the other Tools (several use members that the headers no longer have), Test, logging, timing and performance, files that cannot be
opened (except where a property says so), out-of-memory.

## Testing the theorems against wrong programs

`seeded/LOG.jsonl` records edits of the model in a scratch copy: definition, edit, claim it breaks, theorems whose proof fails, theorems
tightened. The edits are applied one at a time, everything that depends on the edited definition is rebuilt, and lemmas that fail are admitted so
that the theorems that use them can be told apart from those that do not; a property theorem counts as failed if its proof uses a lemma that
no longer holds. Where nothing failed although the claim was false of the edited program, a theorem was added or tightened (C59, C75-C79, C87, C88
among them).


## Properties: model, method, result

| id | property | model | method | status | result |
|---|---|---|---|---|---|
| C01 | Table CRC equals the CRC polynomial | CrcModel (bytes as N); CrcSpec (GF(2) polynomials) | table by computation, linearity of the shift register, injectivity of the remainder on short bursts | proved | Table variant, bitwise variant and GF(2) polynomial remainder agree on all byte strings; the table literal is the generated one. |
| C02 | Checksum residue characterises intact data | CrcModel (bytes as N); CrcSpec (GF(2) polynomials) | table by computation, linearity of the shift register, injectivity of the remainder on short bursts | proved |  |
| C03 | CRC detects every burst of at most 32 bits | CrcModel (bytes as N); CrcSpec (GF(2) polynomials) | table by computation, linearity of the shift register, injectivity of the remainder on short bursts | proved |  |
| C04 | Record frame layout | RecorderModel, LoaderModel; LoaderSpec | induction over the list of records | proved | For all messages below 4 GiB (the length field is 32 bit). |
| C05 | File header round trip | RecorderModel, LoaderModel; LoaderSpec | induction over the list of records | proved |  |
| C06 | Record file round trip | RecorderModel, LoaderModel; LoaderSpec | induction over the list of records | proved | At least one record: with none the loader reads outside the buffer (C08). |
| C07 | The loader terminates on every file | LoaderModel (reads outside the buffer and endless loops are outcomes) | invariants of the scanner, concrete files as witnesses of refutations | partial | REFUTED in full: LoadFile never returns on any recording with a damaged record. Proved: it returns whenever no start mark is followed by a frame that fails its checksum. |
| C08 | The loader never reads outside the file buffer | LoaderModel (reads outside the buffer and endless loops are outcomes) | invariants of the scanner, concrete files as witnesses of refutations | partial | REFUTED in full: header-only files are read past their end. Proved for complete recordings with at least one record. |
| C09 | Corrupted records are never delivered | LoaderModel (reads outside the buffer and endless loops are outcomes) | invariants of the scanner, concrete files as witnesses of refutations | proved | Delivered data stems from disjoint intact frames in file order; a range hit by a burst of at most 32 bits is not intact. |
| C10 | Columns of a loaded data set stay aligned | LoaderModel (reads outside the buffer and endless loops are outcomes) | invariants of the scanner, concrete files as witnesses of refutations | proved | Files below 4 GiB. |
| C11 | Header failure reason is reported | LoaderModel (reads outside the buffer and endless loops are outcomes) | invariants of the scanner, concrete files as witnesses of refutations | partial | REFUTED in full: the error code is overwritten by NO_HEADER. Proved: what is reported for a missing start mark and for a checksum failure (the reason is only in the error strings). |
| C12 | Filter status only moves forward | ApiModel (state machine of Src/rgioe.cpp over AlignModel and FusionModel) | induction over call histories, simulation between two devices | proved | Up to 2^31-1 samples (then the sample counter overflows, which is undefined behaviour). |
| C13 | Navigation only after alignment or given state | ApiModel (state machine of Src/rgioe.cpp over AlignModel and FusionModel) | induction over call histories, simulation between two devices | partial | REFUTED: a displacement (even a purely vertical one) before levelling also counts as heading. Proved: NAVIGATION is entered only with a given state or after both events, and it is entered two samples after them. |
| C14 | NULL samples are harmless | ApiModel (state machine of Src/rgioe.cpp over AlignModel and FusionModel) | induction over call histories, simulation between two devices | proved |  |
| C15 | Only IMU samples advance the status | ApiModel (state machine of Src/rgioe.cpp over AlignModel and FusionModel) | induction over call histories, simulation between two devices | proved |  |
| C16 | Read-outs are gated by status and have no side effects | ApiModel (state machine of Src/rgioe.cpp over AlignModel and FusionModel) | induction over call histories, simulation between two devices | proved | Angles in degrees; NaN and infinity are visible as such. |
| C17 | Position accuracy read-out | ApiModel (state machine of Src/rgioe.cpp over AlignModel and FusionModel) | induction over call histories, simulation between two devices | partial | REFUTED: rgioe_get_pos answers with the standard deviation of the attitude; it can be zero while the position accuracy is not. |
| C18 | Initialisation is safe and starts afresh | ApiModel (state machine of Src/rgioe.cpp over AlignModel and FusionModel) | induction over call histories, simulation between two devices | partial | REFUTED: a NULL option pointer is dereferenced before it is tested; after FAULT_CONFIG the old status stays. Proved: outcome for other arguments, and equal answers afterwards whatever happened before (but for one uninitialised vector of the alignment). |
| C19 | Covariance stays symmetric | FusionModel, FusionBase (fifteen states, real matrices) | induction over epochs, matrix algebra, quadratic forms | proved | Exact real arithmetic, all call sequences. |
| C20 | Kalman steps keep the covariance positive semidefinite | KalmanModel (mathcomp matrices over R, all dimensions) | matrix algebra, quadratic forms | proved | Over the reals, for every dimension; an update is undefined exactly when the innovation covariance is singular, excluded for positive definite noise. |
| C21 | Measurements never increase uncertainty | KalmanModel (mathcomp matrices over R, all dimensions) | matrix algebra, quadratic forms | proved | Joseph form with an arbitrary gain against the filter gain; [corrected] is the covariance of the error of a linear estimate with that gain. |
| C22 | Covariance stays positive semidefinite in the running filter | FusionModel, FusionBase (fifteen states, real matrices) | induction over epochs, matrix algebra, quadratic forms | partial | REFUTED: the process noise (Phi Q + Q Phi^T) dt / 2 is not positive semidefinite; a fix with a variance below dt^3 vrw^2 / 4 leads to a negative velocity variance. Proved: the loss per epoch is bounded. |
| C23 | A measurement correction is fed back completely | FusionModel, FusionBase (fifteen states, real matrices) | induction over epochs, matrix algebra, quadratic forms | proved |  |
| C24 | No measurement is lost within an epoch | FusionModel, FusionBase (fifteen states, real matrices) | induction over epochs, matrix algebra, quadratic forms | partial | REFUTED: a second fix before the next sample erases the correction of the first; with ZUPT-A switched on the zero-velocity part is ignored. |
| C25 | Rejected GNSS fixes do not disturb the filter | FusionModel, FusionBase (fifteen states, real matrices) | induction over epochs, matrix algebra, quadratic forms | proved |  |
| C26 | Constraint updates follow the configured schedule | FusionModel, FusionBase (fifteen states, real matrices) | induction over epochs, matrix algebra, quadratic forms | proved |  |
| C27 | Filter state layout is consistent | LayoutModel | case analysis over the switches, arithmetic | partial | REFUTED in full: switching a block off between two switched-on ones makes blocks overlap. Proved: exactly which of the selections are consistent. |
| C28 | Rotation-vector quaternions are rotations | EarthModel, ConvertModel; ConvertSpec (textbook definitions) | trigonometric identities, field, bounds | proved | Exact real arithmetic (no rounding). Closed branch exactly unit; series branch within explicit bounds. |
| C29 | Quaternion to direction cosine matrix gives a rotation | EarthModel, ConvertModel; ConvertSpec (textbook definitions) | trigonometric identities, field, bounds | proved | Exact real arithmetic. |
| C30 | Euler conversions agree | EarthModel, ConvertModel; ConvertSpec (textbook definitions) | trigonometric identities, field, bounds | proved | Exact real arithmetic. |
| C31 | Euler round trip | EarthModel, ConvertModel; ConvertSpec (textbook definitions) | trigonometric identities, field, bounds | partial | Round trip proved for \|pitch\| < pi/2. REFUTED: at vertical attitudes the conversion back yields 0/0 (nose down) or a fixed heading. |
| C32 | Position quaternion round trip | EarthModel, ConvertModel; ConvertSpec (textbook definitions) | trigonometric identities, field, bounds | partial | Proved for \|lat\| < pi/2 and \|lon\| < pi. REFUTED at the antimeridian (lon = pi comes back as another number). |
| C33 | Geodetic to Cartesian lies on the ellipsoid | EarthModel, ConvertModel; ConvertSpec (textbook definitions) | trigonometric identities, field, bounds | proved | Exact real arithmetic, WGS84 constants as in the source. |
| C34 | Earth model is well defined | EarthModel, ConvertModel; ConvertSpec (textbook definitions) | trigonometric identities, field, bounds | proved | Exact real arithmetic, WGS84 constants as in the source. |
| C35 | Displacement between positions | EarthModel, ConvertModel; ConvertSpec (textbook definitions) | trigonometric identities, field, bounds | partial | Zero for equal points and the sign law of the three components proved. REFUTED: north and east are counted from the second to the first point while the third component is positive upwards, so it is a displacement in neither direction; the variant without heights is not zero for equal points. |
| C36 | Attitude stays a rotation through any history | InsModel | invariants over histories of samples and corrections | proved | Exact real arithmetic; for histories without NaN or infinity, started from a given navigation state. |
| C37 | Static detector | SmoothModel; SmoothSpec | induction over samples | partial | Proved for up to 2^31-1 samples. REFUTED beyond: the sample counter overflows. |
| C38 | Smoothed IMU output is a weighted mean | SmoothModel; SmoothSpec | induction over samples | proved | Exact real arithmetic, up to 2^31-1 samples. |
| C39 | Outage windows | OutageModel (rationals) | induction over the windows | partial | REFUTED in part: construction never ends for length = step = 0. Proved: windows exact for step > 0, disabled plans never report an outage. |
| C40 | Sensor streams are merged in time order | MergeModel; MergeSpec | induction over the consumption of the streams | proved | For streams in time order with times below INT_MAX seconds. |
| C41 | All recorded data is delivered | MergeModel; MergeSpec | induction over the consumption of the streams | partial | REFUTED: with GNSS enabled no IMU sample later than the last fix is delivered. Proved: complete without GNSS. |
| C42 | Result writer writes every result in order | WriterModel (two-thread transition system) | invariant over all schedules | partial | REFUTED: results still queued at stop() can be lost, and the queue is inspected without the lock (data race). Proved under every schedule: prefix, order, no deadlock, stop returns, only queued results are missing. |
| C43 | Configuration file round trip | ConfigModel (key/value document) | round trip, case analysis | partial | REFUTED: no saved configuration can be loaded again. Proved: what comes back when the missing keys are added by hand. |
| C44 | Configuration unit conversions | ConfigModel (key/value document) | round trip, case analysis | proved | Exact arithmetic; pi exact. |
| C45 | AHRS attitude stays a rotation and its integral correction is bounded | AhrsModel | invariant over histories | partial | Proved for the update used by the library. REFUTED: SetAtti(quaternion) leaves the read-out at the old attitude; the magnetometer update does not normalise. |
| C46 | Raw frame decoding | LayoutModel | case analysis over the switches, arithmetic | partial | Velocity decoding proved. Checksum REFUTED: it accepts exactly the all-zero frame. |
| C47 | A stationary unit stays where it is | InsModel | invariants over histories of samples and corrections | partial | REFUTED exactly: a velocity of the order (omega_e dt)^2 g dt / 4 appears. Proved: it is bounded by that, and a sample within that bound of the true one rests exactly for ever. |
| C48 | Barometric height updates | FusionModel, FusionBase (fifteen states, real matrices) | induction over epochs, matrix algebra, quadratic forms | partial | REFUTED: without any fix the sixth height is used with the reference -2147483648 m. Proved: the behaviour after a fix. |
| C49 | Interrupted recordings stay readable | LoaderModel (reads outside the buffer and endless loops are outcomes) | invariants of the scanner, concrete files as witnesses of refutations | partial | REFUTED: every cut strictly inside a record (more than 4 bytes before its end) makes the loader read outside the buffer. |
| C50 | Loading a second file shows that file | LoaderModel (reads outside the buffer and endless loops are outcomes) | invariants of the scanner, concrete files as witnesses of refutations | partial | REFUTED: data accumulates over loads; a missing file leaves code OK and the old data. |
| C51 | Integer items are shown exactly | LoaderModel (reads outside the buffer and endless loops are outcomes) | invariants of the scanner, concrete files as witnesses of refutations | partial | REFUTED in full (2^24+1 in a u32 item). Proved up to magnitude 2^24. |
| C52 | Processing starts at the configured time | MergeModel; MergeSpec | induction over the consumption of the streams | partial | REFUTED: the first sample at or after the start time is consumed too. Proved: exactly which samples are consumed. |
| C53 | Sample interval statistics | MergeModel; MergeSpec | induction over the consumption of the streams | partial | REFUTED for the mean (divides by one too many). Proved: counter, largest interval, and what the mean is. |
| C54 | Progress indication | MergeModel; MergeSpec | induction over the consumption of the streams | partial | Proved for non-empty IMU streams; REFUTED for empty ones (division by zero). |
| C55 | Binary IMU files give one sample per record | ReaderModel (character streams, C++ stream states) | induction over the file | partial | REFUTED: every file yields one extra sample of indeterminate values. Proved: all complete records are delivered in order, reading ends. |
| C56 | Text IMU files give one sample per line | ReaderModel (character streams, C++ stream states) | induction over the file | partial | REFUTED: extra sample behind a final line end; endless reading on a token that is not a number. Proved: files without a final line end. |
| C57 | GNSS files give one fix per line | ReaderModel (character streams, C++ stream states) | induction over the file | partial | REFUTED: undefined behaviour at a final line end; a line without fix hides the rest; GNSS_10_LINES uses a null pointer. Proved: files of usable lines without a final line end. |
| C58 | Fix quality reaches the filter | ReaderModel (character streams, C++ stream states) | induction over the file | partial | REFUTED: the mode is replaced by SPP. Proved: the rest of the fix is passed on. |
| C59 | IMU axes conversion is a rotation | ReaderModel (character streams, C++ stream states) | induction over the file | proved |  |
| C60 | Configured values take effect | ConfigModel (key/value document) | round trip, case analysis | partial | REFUTED: static-detection, barometer and antenna settings and the initial accuracies are not passed on. Proved: the rest is. |
| C61 | Rotation vector to matrix agrees with the quaternion | EarthModel, ConvertModel; ConvertSpec (textbook definitions) | trigonometric identities, field, bounds | partial | REFUTED at the zero vector (0/0). Proved for every other rotation vector. |
| C62 | First fix is weighted by the accuracies | FusionModel, FusionBase (fifteen states, real matrices) | induction over epochs, matrix algebra, quadratic forms | proved | Exact real arithmetic. |
| C63 | Position innovation is the antenna place minus the fix | FusionModel, FusionBase (fifteen states, real matrices) | induction over epochs, matrix algebra, quadratic forms | proved | Exact real arithmetic. |
| C64 | An unfinished correction survives the next measurement | FusionModel, FusionBase (fifteen states, real matrices) | induction over epochs, matrix algebra, quadratic forms | partial | REFUTED: the remainder is dropped. Proved: what happens at a start without fix (window of 1000 samples). |
| C65 | Corrections act on what they name | FusionModel, FusionBase (fifteen states, real matrices) | induction over epochs, matrix algebra, quadratic forms | proved | Exact real arithmetic. |
| C66 | Motion constraints leave a resting unit at rest | FusionModel, FusionBase (fifteen states, real matrices) | induction over epochs, matrix algebra, quadratic forms | proved | Exact real arithmetic; while all numbers stay finite. |
| C67 | Zero angular rate update respects the rotation of the earth | FusionModel, FusionBase (fifteen states, real matrices) | induction over epochs, matrix algebra, quadratic forms | partial | REFUTED: the measured rate is compared with zero, so at rest the earth rate is taken for a gyroscope bias. Proved: the innovation at rest is the earth rate. |
| C68 | Devices do not influence each other | ApiModel (state machine of Src/rgioe.cpp over AlignModel and FusionModel) | induction over call histories, simulation between two devices | proved | The shared gravity variable is overwritten by the calls of the other device; every call recomputes it before use. |
| C69 | A given state is kept by a resting unit | ApiModel (state machine of Src/rgioe.cpp over AlignModel and FusionModel) | induction over call histories, simulation between two devices | proved | Exact real arithmetic; the samples are those for which the discrete mechanisation rests exactly (see C47); while all numbers stay finite, which is proved with the constraints switched off. |
| C70 | Levelling recovers roll and pitch | AlignModel through ApiModel | induction over samples, concrete histories as witnesses | partial | REFUTED: the roll is asin(sin r cos p), right only if roll or pitch is zero; an inverted unit gets the opposite pitch. Proved: the pitch of an upright unit. |
| C71 | Installation angle is compensated once | AlignModel through ApiModel | induction over samples, concrete histories as witnesses | partial | REFUTED: every fix from the second on turns the heading by the installation angle, also when the unit does not move. |
| C72 | Attitude accuracy after alignment | AlignModel through ApiModel | induction over samples, concrete histories as witnesses | partial | REFUTED: the accuracy is 0.3 divided by the accuracy of the fix. |
| C73 | Velocity after alignment | AlignModel through ApiModel | induction over samples, concrete histories as witnesses | partial | REFUTED: three halves of the displacement whatever time it took, vertical part upwards, minus half of an uninitialised vector. |
| C74 | GNSS can be switched off | ApiModel (state machine of Src/rgioe.cpp over AlignModel and FusionModel) | induction over call histories, simulation between two devices | partial | REFUTED: the option is never read. |
| C75 | Corrections move the solution back by the estimated errors | InsModel, FusionModel; JacobianSpec (derivatives at 0) | differentiation of the model with Coquelicot, translated to the standard library's derivable_pt_lim | proved | Exact first-order movement for every state the library reaches; the part proportional to the slip is explicit, zero for a quaternion made from the place (C75_place_in_step), and cannot be dropped (C75_slip_matters). Rotations and places in exact arithmetic. |
| C76 | Design matrix of a fix fits its innovation | InsModel, FusionModel; JacobianSpec (derivatives at 0) | differentiation of the model with Coquelicot, translated to the standard library's derivable_pt_lim | proved | As C75; the remainder (lever arm times distance divided by earth radius and cosine of the latitude) is explicit and bounded. C76_fix_after_correction covers a second observation of the same epoch, where the matrix of the local axes is the old one. |
| C77 | Design matrices of odometer and motion constraints fit their innovations | InsModel, FusionModel; JacobianSpec (derivatives at 0) | differentiation of the model with Coquelicot, translated to the standard library's derivable_pt_lim | proved | For every state the library reaches. The remainders are explicit; the angle increment of the last sample is not corrected by the code, so the bias part is stated for the corrected increment. |
| C78 | Errors are predicted by the psi angle equations | InsModel, FusionModel; JacobianSpec (derivatives at 0) | differentiation of the model with Coquelicot, translated to the standard library's derivable_pt_lim | proved | Exact real arithmetic. |
| C79 | Rewinding delivers the same data again | MergeModel; MergeSpec | induction over the consumption of the streams | partial | REFUTED for the statistics: Reset rewinds the files and not the counters. Proved: the same samples in the same order. |
| C80 | One result per sample | PostModel over MergeModel, OutageModel, ApiModel | induction over runs of the program | proved | Streams ordered in time with fewer than 2^31 samples. File formats: C55-C57; what the writer thread does with the results: C42. |
| C81 | Simulated outages hide fixes completely | PostModel over MergeModel, OutageModel, ApiModel | induction over runs of the program | proved |  |
| C82 | Results depend on the input only | PostModel over MergeModel, OutageModel, ApiModel | induction over runs of the program | partial | REFUTED: the structure is not initialised and place and velocity are not written before NAVIGATION. Proved: with a given state all results from the first IMU sample on depend on the input only. |
| C83 | Time stamps of results | PostModel over MergeModel, OutageModel, ApiModel | induction over runs of the program | proved |  |
| C84 | Sensor flags of a result | FusionModel, ApiModel; FlagsSpec | induction over histories of calls | partial | REFUTED: the GNSS flag stays until the next rejected fix, the odometer flag for ever; the IMU flag is that of the given state; every eighth result repeats the zero-velocity flag. Proved: exactly what each flag says. The non-holonomic flag is C26. |
| C85 | Odometer options | ApiModel; OdoSpec | simulation between two devices | partial | REFUTED: no call takes a wheel speed; switching the odometer on has the sole effect of switching the non-holonomic constraint off, accuracy and scale factor change no answer but the reported factor, which is the one of the options. |
| C86 | Innovation test | InnovationModel; InnovationSpec | matrix algebra | partial | REFUTED: the statistic is weighted with the covariance itself (inverted twice) and no measurement is ever rejected. Proved: the value of the statistic; one gain for all innovations, for fixes too. |
| C87 | Strapdown equations | InsModel; MotionSpec | differentiation in the sampling interval (Coquelicot); uniqueness of integrals | partial | Proved: one step is consistent with the equations to first order in the interval, in earth-fixed axes and in latitude, longitude, height. Missing: a bound of the error accumulated over a trajectory, and rounding. |
| C88 | Coning and sculling | InsModel; MotionSpec | differentiation in the sampling interval (Coquelicot); uniqueness of integrals | proved | Over the reals. |
| C89 | Result file | TextModel; TextSpec | induction over digits, lists of results and rows | partial | REFUTED for format numbers other than 0 and 1: nothing is written and nothing reported. Proved for both formats. |
| C90 | Formats of the queueing writer | TextModel; TextSpec | induction over digits, lists of results and rows | partial | REFUTED: NavAscii and NavDoubleMatrix have the same value, so with the text format (the default) the queueing writer writes binary numbers. Proved for the binary format. |
| C91 | CSV export | TextModel; TextSpec | induction over digits, lists of results and rows | partial | REFUTED: six significant digits are written, so times of week from 100000 s on lose their fraction: recordings at different rates give the same file. Proved: header, rows, and every cell to six significant digits. |
| C92 | Names of recordings | TextModel; TextSpec | induction over digits, lists of results and rows | partial | REFUTED: the month is that before (00 in January); program names of more than 107 characters overrun the buffer. Proved: the order, and the rest of the date. |
| C93 | Installation angles | DcmModel (every singular value decomposition) | induction over observations, matrix algebra | partial | REFUTED: it can be a reflection, the turn about the direction of travel is arbitrary, and it leads from body to vehicle frame where the documentation says the opposite. Proved: orthogonal, and the direction of travel goes to the forward axis. |
| C94 | Estimated scale factor of the odometer | DcmModel (every singular value decomposition) | induction over observations, matrix algebra | partial | REFUTED without wheel speeds: the sum of the velocities times 1e30. Proved with wheel speeds. |
| C95 | Recorded results | RecordedModel; EarthModel | induction over results; bounds on the radii | partial | REFUTED: degrees are passed for radians, so north is 56 to 61 times too large; the origin is a static variable of the process, shared by all devices. Proved: time, velocity, attitude and height. |
| C96 | Output projection | ApiModel; ProjectSpec | differentiation in the lever arm (Coquelicot) | partial | REFUTED for the velocity: it is that of the unit, wrong whenever the unit turns about an axis that does not pass through the point. Proved: attitude exactly (away from the vertical), place to first order in the lever arm. |
| C97 | Initial accuracy of the filter states | SelectModel; LayoutModel | cases over the selections, algebra | partial | REFUTED for the optional states: scale factors start with the fourth power, the odometer with 1e-18 whatever is given. Proved for place, velocity, attitude and biases, and no correlations. |
| C98 | Corrections with optional states | SelectModel; LayoutModel | cases over the selections, algebra | partial | REFUTED: the estimate is passed as a row and read as a column, outside its memory, with every selection that has an optional state. Proved: exactly the selection without optional states is safe. |
| C99 | Scale factors in the error model | SelectModel; LayoutModel | cases over the selections, algebra | partial | REFUTED: gyroscope scale factors act on the estimated biases and not on the attitude, accelerometer scale factors on the attitude and not on the velocity. Proved: what the error does to the increments. |
| C100 | Lever arm as a state | SelectModel; LayoutModel | cases over the selections, algebra | partial | REFUTED: horizontal rows are more than six million times too small (radians for metres), the vertical row has the wrong sign. Proved: what the innovation depends on. |
| C101 | Build options for optional states | SelectModel; LayoutModel | cases over the selections, algebra | partial | REFUTED: EST_ODO_SCALE switches the accelerometer scale factors on; no option switches the odometer scale factor on. Proved: the other three. |
| C102 | Outage windows in machine arithmetic | FloatOutageModel | every operand is a multiple of 2^-33 below 2^20, so Flocq's round is the identity; induction on the loop; absorption lemma for the hang | partial | REFUTED for termination: a positive step below the resolution of the start time (step <= start * 2^-54) never moves the start, so the constructor loops for ever. Proved: for starts, lengths and steps of zero or at least 1/1024 s and times up to 2^20 s every sum is exact and the answer is right for every time. |
| C103 | Time statistics in machine arithmetic | FloatTimeModel | Sterbenz; induction over the samples with an error invariant for the running mean | proved | Rounding of each double operation is modelled. The mean is within 4 (n+1) 2^-53 times the largest gap. |
| C104 | Precision of angles and results | FloatOutModel | relative error of two roundings; half-ulp bounds; monotonicity of rounding | proved | Only the conversions at the interface are rounded in this model; the navigation in between is not part of it. |
| C105 | The gyroscope bias found at rest is used | AlignModel, ApiModel | composition of the levelled state with the two fixes that end the alignment | partial | REFUTED: the fix that ends the alignment overwrites the bias found by levelling with the configured initial bias; the reported bias never depends on the measured rates. |
| C106 | Place and heading when navigation starts | AlignModel, ApiModel | composition of the levelled state with the two fixes that end the alignment | partial | Proved for a level unit, in exact arithmetic. REFUTED in one respect: the lever arm is turned before the installation angle is applied, that is not by the reported heading. |
| C107 | Wheel speeds correct in proportion | velocity_update_f of FusionModel | linear algebra: one gain for all readings; scalar share of the innovation | proved | Exact real arithmetic. |
| C108 | Reported accuracies | output, api_vel, api_atti, api_result of ApiModel | variance of a unit vector is the diagonal entry; squares of roots | partial | REFUTED for the attitude: it is reported in degrees and its accuracy in radians. Proved for place and velocity: the roots of the variances, defined whenever the covariance is positive semidefinite. |
| C109 | The attitude-only filter levels itself at rest | AhrsModel (attitude-only filter); AhrsLevel | the pitch quaternion is invariant; one step turns it by an angle whose sign is that of the specific force; bounds on the turn give the number of samples | partial | REFUTED for the library's own axes (third axis down, as everywhere else in the library): the pitch grows at every sample, past any angle up to 7/5 rad. Proved: with the third axis up the pitch becomes smaller at every sample, until it is below any positive angle, and does not fall below -0.15 rad. |
| C110 | All samples are in the recording | DiaryModel: every message written by the library built with the recorder, on top of ApiModel; DiaryFloat for the cast | induction over the history with the status as invariant; the innovations through FusionInno | partial | REFUTED for a device that aligns itself: up to and with the call that starts navigation no sample and no fix is recorded. Proved for a device started with a given state, and for every navigating device; proved that the recorder changes no answer and stops no call. |
| C111 | Recorded biases are the reported ones | DiaryModel: every message written by the library built with the recorder, on top of ApiModel; DiaryFloat for the cast | induction over the history with the status as invariant; the innovations through FusionInno | proved | In exact arithmetic; the fields of the recording are single-precision. |
| C112 | Recorded fixes are the fixes handed over | DiaryModel: every message written by the library built with the recorder, on top of ApiModel; DiaryFloat for the cast | induction over the history with the status as invariant; the innovations through FusionInno | partial | REFUTED for the time: the entry has the time of the last sample, and for any other times of the fixes the recording (and all the rest) is the same; fixes before the first sample are not recorded; of the mode only eight bits are. Proved: from the first sample on each fix is recorded in order, used or not, with its displacement from the given place. |
| C113 | Recorded innovations compare the reported place with the fix | DiaryModel: every message written by the library built with the recorder, on top of ApiModel; DiaryFloat for the cast | induction over the history with the status as invariant; the innovations through FusionInno | proved | In exact arithmetic, without output projection and with a zero lever arm (C63 has the lever arm). |
| C114 | The recording of an alignment agrees with the results | DiaryModel: every message written by the library built with the recorder, on top of ApiModel; DiaryFloat for the cast | induction over the history with the status as invariant; the innovations through FusionInno | partial | REFUTED: the attitude is recorded in radians and reported in degrees; the place is recorded in radians as a float, and beyond two radians of longitude all places within 2^-23 rad (0.76 m on the equator) of a float are recorded alike. Proved: the error of the recorded place is at most 2^-23 rad. |
| C115 | The post-processing run as a whole | ProgramModel on top of ReaderModel, MergeModel, OutageModel, ConfigModel, PostModel and ApiModel | merge of the two lists of samples by induction over both, a relation between samples and file events carried through merge, start time and calls, and the run lemma of C80 | partial | REFUTED for files with a final line end (C115_final_line_end_refuted: a sample that is in neither file, with a time that was never set, is handed to the library) and for binary files (one extra record). Proved: text files without final line end, binary files up to the extra record, order and completeness of the events, and that from a given state every line from the first sample on is the library's answer. Missing: GGA and ten-line GNSS files (C57), files that cannot be opened. |
| C116 | The documented binary IMU format can be processed | ProgramModel on top of ReaderModel, MergeModel, OutageModel, ConfigModel, PostModel and ApiModel | merge of the two lists of samples by induction over both, a relation between samples and file events carried through merge, start time and calls, and the run lemma of C80 | partial | REFUTED: C116_imd_files_refuted. The reader reads the bytes into the smart pointer instead of the sample it points to: undefined behaviour for every file that is not empty. |
| C117 | Units of IMU text files | ProgramModel on top of ReaderModel, MergeModel, OutageModel, ConfigModel, PostModel and ApiModel | merge of the two lists of samples by induction over both, a relation between samples and file events carried through merge, start time and calls, and the run lemma of C80 | partial | REFUTED: C117_rates_refuted, C117_program_refuted. Text lines are handed over unconverted (they have to be increments in rad and m/s), the rate is not used. That increments are handed over unchanged is C115. |
| C118 | The configured stop time ends the run | ProgramModel on top of ReaderModel, MergeModel, OutageModel, ConfigModel, PostModel and ApiModel | merge of the two lists of samples by induction over both, a relation between samples and file events carried through merge, start time and calls, and the run lemma of C80 | partial | REFUTED: C118_stop_time_refuted (every event behind the stop time gets its result line as well), C118_stop_time_ignored (the run does not depend on the stop time). |
| C119 | Recorded delay of a fix | ProgramModel on top of ReaderModel, MergeModel, OutageModel, ConfigModel, PostModel and ApiModel | merge of the two lists of samples by induction over both, a relation between samples and file events carried through merge, start time and calls, and the run lemma of C80 | partial | REFUTED: C119_delay_refuted. No reader fills in the epoch, so the recorded delay is the time stamp itself (seconds of the week). |
| C120 | Every fix is used once (second program) | OldModel (PostDataFusion_old.cpp), OldSpec | invariant relating the two pointers of the loop to the samples read; the calls of the library as a function of the samples; induction over the samples | partial | REFUTED: C120_used_twice_refuted: at exactly the configured rate a fix in the middle fifth of a sampling interval is handed over twice (the filter then counts it as two independent measurements). Proved: the exact number of hand-overs (C120_uses_of_a_fix_partial), and at least one if the samples around the fix are less than 1.2 intervals apart (C120_used_partial). |
| C121 | Simulated outages hide fixes (second program) | OldModel (PostDataFusion_old.cpp), OldSpec | invariant relating the two pointers of the loop to the samples read; the calls of the library as a function of the samples; induction over the samples | partial | REFUTED: the break behind the test leaves the switch only, the fix is handed over below it. C121_outages_ignored_refuted: the run is the same for every plan; C121_fix_in_outage_refuted: a fix in an enabled window reaches the filter, which the first program holds back. |
| C122 | Any usable files can be processed (second program) | OldModel (PostDataFusion_old.cpp), OldSpec | invariant relating the two pointers of the loop to the samples read; the calls of the library as a function of the samples; induction over the samples | partial | REFUTED: C122_first_record_refuted: undefined (null pointer) exactly if the first record delivered is a fix; proved: in all other cases it ends. |
| C123 | Results of the second program | OldModel (PostDataFusion_old.cpp), OldSpec | invariant relating the two pointers of the loop to the samples read; the calls of the library as a function of the samples; induction over the samples | proved | C123_given_state: from a given state there is a line for every record and no line depends on memory the library found either (in moving alignment the library's own start does, C73). |
| C124 | The two post-processing programs agree | OldModel (PostDataFusion_old.cpp), OldSpec | invariant relating the two pointers of the loop to the samples read; the calls of the library as a function of the samples; induction over the samples | proved | without the condition the programs differ (C120) |
| C125 | Reading up to a time | HelperModel, RowModel: ReadUntil, the printing operators with an interpreter of the format strings, SaveConfig, ConvertNavToDouble | induction over the records; the format strings are evaluated, the rest by the lemmas about printed numbers; case analysis over all keys | partial | REFUTED: C125_data_refuted: only time and type are stored, the measurement never is (assignment through the base class). Proved: position, return value, time and type. |
| C126 | Printed sensor data | HelperModel, RowModel: ReadUntil, the printing operators with an interpreter of the format strings, SaveConfig, ConvertNavToDouble | induction over the records; the format strings are evaluated, the rest by the lemmas about printed numbers; case analysis over all keys | partial | REFUTED for fixes: C126_fix_refuted: printing any fix throws an exception (nine replacement fields, eight arguments). Proved for samples, wheel measurements and results. |
| C127 | Saving with SaveConfig | HelperModel, RowModel: ReadUntil, the printing operators with an interpreter of the format strings, SaveConfig, ConvertNavToDouble | induction over the records; the format strings are evaluated, the rest by the lemmas about printed numbers; case analysis over all keys | partial | REFUTED: the ZUPTA switch gets the value of the ZUPT switch (C127_zupta_refuted), exactly seven keys are missing (C127_missing_refuted), the file can never be loaded (C127_load_refuted). Proved: all other keys have the values SaveTo writes. |
| C128 | Rows of the result matrix | HelperModel, RowModel: ReadUntil, the printing operators with an interpreter of the format strings, SaveConfig, ConvertNavToDouble | induction over the records; the format strings are evaluated, the rest by the lemmas about printed numbers; case analysis over all keys | partial | REFUTED for the distance east: it is the equatorial radius times latitude minus longitude (C128_east_refuted), not zero on the base meridian. Proved: the other twenty. |
| C129 | Replay of a recording is complete | ReplayModel, AdiModel: the player tick by tick on the bytes of the file, the displayed path, the queues and the loop of the fusion node as a transition system, the conversion of raw samples | induction over the sequence of timer events (arrivals, rounds), real arithmetic for the units | proved |  |
| C130 | Pace of a replay | ReplayModel, AdiModel: the player tick by tick on the bytes of the file, the displayed path, the queues and the loop of the fusion node as a transition system, the conversion of raw samples | induction over the sequence of timer events (arrivals, rounds), real arithmetic for the units | partial | REFUTED: C130_pace_refuted: one record for every event of the 1 ms timer; C130_speed_ignored_refuted: independent of clock, mode and speed (the comparison is commented out). |
| C131 | Displayed path | ReplayModel, AdiModel: the player tick by tick on the bytes of the file, the displayed path, the queues and the loop of the fusion node as a transition system, the conversion of raw samples | induction over the sequence of timer events (arrivals, rounds), real arithmetic for the units | partial | REFUTED: C131_cleared_refuted: with the 10001st pose the path is emptied, its length is the number of poses modulo 10001; several poses for a second from 100 Hz on (C131_whole_seconds). Proved: complete up to 10000 poses. |
| C132 | Units of replayed IMU data | ReplayModel, AdiModel: the player tick by tick on the bytes of the file, the displayed path, the queues and the loop of the fusion node as a transition system, the conversion of raw samples | induction over the sequence of timer events (arrivals, rounds), real arithmetic for the units | partial | REFUTED: C132_rates_for_increments_refuted: the conversion to increments is never called; rates are handed over, 125 times too large, and accelerations in units of gravity. Proved: axes and scale of the message, and that the conversion that is not called is right. |
| C133 | Real-time fusion uses what arrives | ReplayModel, AdiModel: the player tick by tick on the bytes of the file, the displayed path, the queues and the loop of the fusion node as a transition system, the conversion of raw samples | induction over the sequence of timer events (arrivals, rounds), real arithmetic for the units | partial | REFUTED: C133_fixes_refuted: after the alignment no fix is ever handed over (the test for an empty queue is inverted); C133_undefined_refuted: undefined exactly if the loop runs before a fix has arrived. Proved: samples in order (their time moved by one second, that of fixes not), complete if never more than ten wait. |
| C134 | An update is the weighted compromise | InfoModel: kf_update, one after the other (update_all) | information form of the update; completing the square; induction over the measurements (InfoProofs) | proved |  |
| C135 | Mounting angles by the tool | AngleModel: the loop of the tool on given records | misfit of all records together by induction (InfoProofs), carried over to three-vectors (AngleProofs) | proved | The reader the tool calls is commented out in the code; the records are given. The reference to a temporary in line 48 is taken as the value. |
| C136 | The summary of a recording lists what is in it | SummaryModel: the text printed line by line into an array of 4096 bytes, on top of LoaderModel | the text is the concatenation of ended lines or nothing; words of a line are read back; keys of the loaded map are distinct; scan of records with unknown identifiers | partial | REFUTED: with 133 records of unknown identifiers the summary is written behind the end of its 4096 byte array (C136_overrun_refuted); the size of the header shown is four bytes too small (C136_registered). Proved: what the lines of every delivered summary say (C136_lists), and that it is delivered with exactly the recorded sets for every recording of registered sets (C136_registered). |
| C137 | The progress of loading a recording ends at 100 | SummaryModel: get_progress on top of LoaderModel | invariant of the scanning loop: the offset never decreases and stays within four bytes of the end | partial | REFUTED: before a file was opened (or after a missing or empty one) the progress is a division by zero (C137_undefined_refuted); a file without header counts as not begun (C137_no_header_refuted). Proved: it never decreases, and at the end it is at least 100 and exactly 100 for files of more than 500 bytes (C137_monotone, C137_complete_partial). |
| C138 | The constraint on sideways motion reduces sideways motion | ConstraintSpec.v (statement), FusionModel.v | residual of a linear update in the metric of the inverse noise, then the rows of the two constraints | proved | On the state after feedback and mechanisation of an epoch (C138_epoch), whose covariance must be positive semidefinite: C22 shows that the prediction does not always keep it so. The remaining velocity is meant to first order in the estimate (C78). |
| C139 | At rest the velocity is reduced | ConstraintSpec.v (statement), FusionModel.v | residual of a linear update in the metric of the inverse noise, then the rows of the two constraints | partial | REFUTED: when the constraint on sideways motion is due in the same epoch (every 32nd sample) it overwrites the correction of the zero velocity update: a vehicle said to be at rest keeps any speed ahead (C139_overwritten_refuted); the same happens with the heading rate constraint (C24). Proved for the other epochs (C139_still_partial). |
| C140 | Attitude over a long time | Src/InsCore.cpp, Src/DataFusion.cpp, Src/Convert.cpp: attitude of a history of samples and corrections (AttitudeSpec, AttitudeProofs) | the attitude as quaternion product; each polynomial quaternion is near the exact one, quaternion distance is invariant under multiplication by unit quaternions; induction over the history | proved | Exact arithmetic; the turns are those the code forms from the samples (rotation vector with coning correction, rotation of the local axes), so the statement is about the composition, not about the accuracy of the sensors or of the coning formula. |
| C141 | The heading error of the evaluation | Tools/ErrorAnalyser.py, Tools/ErrorAnalyse.py, Tools/Earth.py: unwrapping, interpolation, errors, histogram and verdict over the reals (EvalModel, EvalSpec) | induction over the reference rows for unwrapping and interpolation; the cumulative sums of the histogram are counts below the edges; the interpolated quantile lies within the bin that reaches the share | proved | Exact arithmetic; scipy's interp1d is modelled as documented. |
| C142 | The errors of the evaluation | Tools/ErrorAnalyser.py, Tools/ErrorAnalyse.py, Tools/Earth.py: unwrapping, interpolation, errors, histogram and verdict over the reals (EvalModel, EvalSpec) | induction over the reference rows for unwrapping and interpolation; the cumulative sums of the histogram are counts below the edges; the interpolated quantile lies within the bin that reaches the share | partial | REFUTED: a reference on the meridian of 180 degrees and a solution at the same place given as -180 degrees have an error of the circumference of the earth, and between two reference rows on either side of it the reference is interpolated through the meridian of Greenwich (C142_antimeridian_refuted). Proved for longitudes without that jump, where zero error means equal coordinates. The first two errors are east and north: the error file (not modelled) has them under the names lat and lon, the printed table has them as x and y beside velocities that are north and east. |
| C143 | What a passed check means | Tools/ErrorAnalyser.py, Tools/ErrorAnalyse.py, Tools/Earth.py: unwrapping, interpolation, errors, histogram and verdict over the reals (EvalModel, EvalSpec) | induction over the reference rows for unwrapping and interpolation; the cumulative sums of the histogram are counts below the edges; the interpolated quantile lies within the bin that reaches the share | partial | REFUTED: when more than 68.26 % of the errors are in the first of the 100 (or more) bins, the interpolation raises, both sigmas are reported as 0, and the check succeeds whatever the errors (C143_blind_refuted): errors of 10, 10, 10 and 1000 m pass the limit of 8 cm (C143_refuted). Proved in all other cases (C143_share_partial, C143_fails). |
| C144 | A perfect solution passes the check | Tools/ErrorAnalyser.py, Tools/ErrorAnalyse.py, Tools/Earth.py: unwrapping, interpolation, errors, histogram and verdict over the reals (EvalModel, EvalSpec) | induction over the reference rows for unwrapping and interpolation; the cumulative sums of the histogram are counts below the edges; the interpolated quantile lies within the bin that reaches the share | partial | REFUTED: for limits below 9.5 mm: errors that are all equal are given a histogram one metre wide, and the second sigma is 9.544 mm above the error (C144_refuted). Proved for limits of at least a centimetre, as in the scripts. |
| C145 | Corrections keep place and position quaternion in step | feedback, slip of the position quaternion | derivative of the normalised product of quaternions; exact tilt after one correction; half-angle tangents | proved | The growth of the slip by the mechanisation between corrections is not bounded; its effect is in C75 for any size. |
| C146 | One wheel speed for every tenth result | Tools/DataGenerator.cpp: stream extraction, the loop and the lines (StreamModel, GenModel, GenSpec) | induction over the results; each turn of a nineteen-column file splits one number, tracked word by word | partial | REFUTED for files that end with a newline and hold a multiple of ten results: the last result is read twice and a line too many is written (C146_newline_REFUTED). Proved exactly for files that end with the last digit (C146_last_digit_partial); with a newline the output is that of the file with its last result repeated (C146_newline_partial). Lines are real numbers, printing with four decimals is left out. |
| C147 | The generator reads the result files of the library | Tools/DataGenerator.cpp: stream extraction, the loop and the lines (StreamModel, GenModel, GenSpec) | induction over the results; each turn of a nineteen-column file splits one number, tracked word by word | partial | REFUTED: the library writes nineteen columns, the generator reads eleven numbers per turn and goes on in the same line; the second line of its output has as time the decimals of the velocity to the east of the sixth result (C147_own_files_REFUTED), which is no result's time (C147_no_result_REFUTED). |
| C148 | Generated wheel speeds agree with the odometer update | Tools/DataGenerator.cpp with the odometer update of the filter (GenModel, GenWheel) | rotation algebra; bounds of the sine | partial | REFUTED for the installation angles (3, 2, 4 degrees) the generator names: it negates them, the filter does not, so a vehicle that moves straight ahead seems to differ by more than 0.8 % of its speed (C148_labelled_REFUTED). Proved for the negated angles (C148_negated_partial), a wheel at the unit and without the non-holonomic constraint. |
| C149 | Optional states switched off | WideModel | simulation between models; invariant of the update flag | proved | Relates the model of the whole class with optional states to the one as shipped, about which the other filter theorems are. |
| C150 | Navigation with optional states | WideModel | simulation between models; invariant of the update flag | partial | REFUTED: with any optional state every history with an accepted fix or a speed and, anywhere later, a sample is undefined (the feedback reads outside the estimate, C98): C150_correction_REFUTED; with the non-holonomic constraint alone every history of two samples: C150_constraint_REFUTED. What is left is C151. |
| C151 | Pure inertial navigation with optional states | WideModel | simulation between models; invariant of the update flag | proved |  |
| C152 | The generator of wheel speeds ends | The input stream with its end-of-file and failure state; the loop on it, with the number of turns open | Induction on the number of numbers left in the text; a failed stream is a fixed point of the loop | partial | REFUTED: it ends exactly on files that can be opened and whose words can all be read (C152_ends_partial). On a missing file it reports this and then loops for ever (C152_missing_file_REFUTED), as it does on a file with a heading (C152_heading_REFUTED); after a word that is no number each turn repeats one result made of two lines and a zero, and every tenth turn writes a line, so the output grows without bound (C152_repeats_REFUTED, C152_grows_REFUTED). |
| C153 | The Python functions agree with the library | Tools/InsCore.py as functions over the reals | compared with the models of the library, function by function | proved |  |
| C154 | The attitude of the Python mechanisation stays a rotation | mechanization_n as a function of the state, and of memory for aliasing | length of the quaternion as an invariant of runs; the two samples of a unit at rest computed exactly | partial | REFUTED: line 600 stores the quaternion that was not normalised over the normalised one, so the matrix is a rotation times the squared length of a quaternion that shrinks with every turn; already one sample of a unit at rest on the earth is enough. Proved: the form of the matrix, the quaternion never grows, and a lower bound for its length after n samples. |
| C155 | A step of the Python mechanisation returns a new state | mechanization_n as a function of the state, and of memory for aliasing | length of the quaternion as an invariant of runs; the two samples of a unit at rest computed exactly | partial | REFUTED: current_epoch is last_epoch itself, so the object passed in is changed and returned and the distance between the two is zero whatever the motion. Proved: no other object is changed. |
| C156 | A unit at rest in the Python mechanisation | mechanization_n as a function of the state, and of memory for aliasing | length of the quaternion as an invariant of runs; the two samples of a unit at rest computed exactly | partial | REFUTED: the first sample keeps place and velocity and scales the attitude matrix; because of that the second one lets the unit fall. Proved: both, exactly. |
| C157 | From earth-centred coordinates to latitude, longitude and height | ecef_to_lla with its loop of at most eleven turns; compensate of the error analysis | the latitude as a distance D; the turn contracts in D, the height is Lipschitz in D from both sides, so a small change of height bounds what is left | proved | The exceptions are real: on the meridian of 180 degrees the result is on the other side of the earth, and on the axis there is no finite result (the two _refuted theorems). |
| C158 | The lever arm of the reference | ecef_to_lla with its loop of at most eleven turns; compensate of the error analysis | the latitude as a distance D; the turn contracts in D, the height is Lipschitz in D from both sides, so a small change of height bounds what is left | proved |  |
| C159 | Samples that are not in order in the Python mechanisation | mechanization_n and the times | case split on the time difference | partial | REFUTED: the check is commented out; samples that are 0.1 ms or more before the state are integrated backwards and set its time back. Proved: samples within 0.1 ms change nothing, all others set the time. |
| C160 | Accuracy of the biases without corrections | WideModel (Predict and TimeUpdate without corrections), rows of the transition matrix and the process noise for every selection | rows with the diagonal entry only give a linear recursion for the variance; induction over the history gives the closed form; bounds of the fixed point; Bernoulli's inequality for the refuted parts | proved |  |
| C161 | Accuracy of the optional states without corrections | WideModel (Predict and TimeUpdate without corrections), rows of the transition matrix and the process noise for every selection | rows with the diagonal entry only give a linear recursion for the variance; induction over the history gives the closed form; bounds of the fixed point; Bernoulli's inequality for the refuted parts | partial | REFUTED for the lever arm and the odometer: the variance of the lever arm shrinks with every sample, without limit (C161_arm_REFUTED; a decay with a correlation time of ten hours and no noise), and the one of the odometer's scale factor tends to ten times the configured square (noise for 3600 s, decay for 36000 s: C161_odometer_REFUTED); C161_waiting_REFUTED exhibits a history of a resting unit. Proved: the scale factors of gyroscopes and accelerometers tend to the configured squares (C161_scale_partial), starting from the fourth power as C97 says. |
| C162 | Accuracy behind a measurement | KalmanModel, FusionModel, ApiModel | optimality of the gain against one chosen gain of rank one gives the weighted mean on the measured row; induction over the fixes for the sum of reciprocals | proved | Exact arithmetic. That the covariance is positive semidefinite is a hypothesis, because the process noise can destroy it (C22). The deviation used for a barometric height is the one configured for zero turn rates (opt.zupta_std). |
| C163 | Navigation written by the Python tools | PyTextModel (write2txt, __str__, the row of NavData) | printing and reading of decimals as in C89; the length of a printed number decides whether the time joins the week; conversion to the reals for the state | partial | REFUTED: C163_biases_refuted: NavData never takes the biases from the line, they start at zero. C163_long_time_refuted: a time from 1000000 s on fills its field of thirteen characters, which has no blank in front, and is joined to the week, so the line has sixteen numbers. The rest is proved: C163_file (every line of a file reads back to the printed decimals for times of the week), C163_state_partial (time, position, velocity, attitude of the state), C163_start (matrix, quaternions and angles of the state agree), C163_str (the eleven cells of str). Not modelled: numpy's conversion of the values to degrees before printing. |
| C164 | Parameters and distances in the Python tools | PyParaModel (ImuPara, get_distance, get_distance_d) | the units of each parameter against ConfigSpec; radii of curvature are positive and the cosine of a latitude below the pole is | proved | C164_parameters and C164_same_file: all twelve parameters, each axis. C164_distance: sign law, zero and the plane distance; C164_metric: north and east as arcs; C164_space: with heights. Exact arithmetic; the programs keep the parameters in single precision, Python in double. |
| C165 | Variances of the filter are conservative | KalmanModel (Predict, Update) | mean squares over a finite ensemble with weights (EnsembleSpec); both steps are the same linear maps of errors and covariance; induction over the history | proved | C165_conservative, C165_exact, by induction over the sequence. For the class KalmanFilter with the transition and measurement matrices of the true errors: that the matrices of the running filter are those of its errors is C76 to C78; that they are the same in all runs is an assumption (they depend on the trajectory). |
| C166 | Better data never gives a larger variance | KalmanModel (Predict, Update) | monotone in covariance and noise for a fixed gain, and the filter's gain is optimal (C21); induction over the pair of histories | proved | C166_better, by induction over the two runs; the gain of the second filter used in the first is no better than the first one's own. |
| C167 | The scripts show the result files | ViewModel | columns of a loaded table by induction over the lines; bits by Z.land; files by the reading-back theorems | partial | REFUTED: the result file of the library has thirteen columns and that of the Python tools seventeen, but show_sensors.py reads column 24 and showBias column 19, so both stop with an exception on every such file (C167_library_REFUTED, C167_python_REFUTED); a file with one result is not shown either (C167_one_result_REFUTED). Proved: for a table with 25 columns or more exactly the times with the bit are drawn (C167_sensors), for one with 20 or more the bias columns of every line (C167_bias); nav_compare shows time and heading of every result to six decimals, for files with at least two results (C167_compare_partial). Model of numpy.loadtxt as documented; window, labels and counts are not modelled. |
| C168 | The error file of the evaluation | ErrFileModel | cells by name of the header, errors by C141 and C142 | partial | REFUTED: the east error stands under lat and the north error under lon (C168_exchanged_REFUTED; a solution one degree too far north has latitude error 0 in the file, C168_latitude_REFUTED), and the week is always 0 (C168_week_REFUTED). Proved: rows and times (C168_rows, C168_written), height, speeds, attitude, horizontal and spatial errors (C168_cells_partial); a horizontal or spatial error that was not asked for is no number (C168_not_asked). How pandas prints numbers is not modelled. |

## Axioms per theorem (`Print Assumptions` in the property files)

* **none** (closed under the global context):
  C14_null_sample, C14_null_fix, C18_null_options_refuted, C39_outage_windows, C39_disabled_never_outage, C39_construction_terminates_refuted, C39_zero_step_hangs, C39_one_window_at_a_time, C40_merge, C40_end_is_reported, C41_all_delivered_refuted, C41_tail_is_lost, C41_imu_only_partial, C42_every_result_written_refuted, C42_race_free_refuted, C42_file_is_prefix_partial, C42_missing_are_queued_partial, C42_no_empty_pop_partial, C42_no_deadlock_partial, C42_stop_returns_partial, C52_start_time_refuted, C52_move_to_time_partial, C53_mean_interval_refuted, C53_statistics_partial, C54_progress, C54_progress_empty_refuted, C79_rewind_delivers_again, C79_statistics_refuted, C43_round_trip_refuted, C43_completed_file_partial, C43_threshold_lost_refuted, C43_columns_saved, C152_ends_partial, C152_missing_file_REFUTED, C152_heading_REFUTED, C152_repeats_REFUTED, C125_position_partial, C125_failure, C125_data_refuted, C126_imu, C126_wheel, C126_result, C126_fix_refuted, C127_written_partial, C127_zupta_refuted, C127_missing_refuted, C127_load_refuted, C27_layout_refuted, C27_layout_exact_partial, C27_inside, C46_velocity_twos_complement, C46_checksum_refuted, C120_used_twice_refuted, C120_used_partial, C81_windows, C81_disabled, C115_order_of_time, C115_nothing_in_between_left_out, C119_delay_refuted, C163_file, C163_str, C163_long_time_refuted, C55_one_sample_per_record_refuted, C55_records_in_order_partial, C55_broken_record_refuted, C56_one_sample_per_line_refuted, C56_reading_ends_refuted, C56_lines_partial, C57_terminated_file_refuted, C57_bad_line_drops_rest_refuted, C57_ten_lines_refuted, C57_truncated_line_refuted, C57_word_in_line_refuted, C57_all_fixes_partial, C58_quality_reaches_filter_refuted, C58_invalid_fix_is_used, C58_rest_is_passed_partial, C59_axes_involution, C59_axes_rotation, C59_whole_sample, C59_axes_meaning, C01_table_crc_is_crc32, C01_table_is_generated, C02_residue, C03_burst_detected, C03_burst_changes_checksum, C04_frame_layout, C05_header_round_trip, C05_names, C06_file_round_trip, C07_terminates_refuted, C07_every_damaged_record_hangs, C07_terminates_partial, C08_memory_safe_refuted, C08_every_header_only_file_reads_outside, C08_safe_on_complete_recordings_partial, C09_only_intact_frames_delivered, C09_corrupted_range_not_intact, C09_written_frames_are_intact, C10_columns_aligned, C11_error_code_refuted, C11_checksum_failure_reported_as_no_header, C11_no_start_mark, C49_truncated_recording_refuted, C50_reload_accumulates_refuted, C50_missing_file_reports_ok_refuted, C51_integers_up_to_2_24_exact, C51_integers_exact_refuted, C129_all_published, C129_always_prefix, C130_pace_refuted, C130_speed_ignored_refuted, C131_path_partial, C131_cleared_refuted, C131_whole_seconds, C133_fixes_refuted, C133_undefined_refuted, C133_samples_in_order_partial, C133_samples_complete_partial, C98_feedback_REFUTED, C98_column_partial, C101_options_partial, C101_odometer_REFUTED, C136_lists, C136_registered, C136_overrun_refuted, C137_monotone, C137_complete_partial, C137_undefined_refuted, C137_no_header_refuted, C89_text, C89_binary, C89_other_REFUTED, C90_binary_partial, C90_text_REFUTED, C91_csv_partial, C91_time_REFUTED, C92_order_partial, C92_month_REFUTED, C92_buffer_REFUTED, C167_sensors, C167_bias, C167_library_REFUTED, C167_python_REFUTED, C167_compare_partial, C167_one_result_REFUTED

* **functional_extensionality_dep, sig_forall_dec**:
  C93_orthogonal_partial, C93_direction_REFUTED, C93_rotation_REFUTED, C93_roll_REFUTED, C141_heading, C142_rows, C145_slip_is_tilt, C29_rotation, C29_composition, C29_rotates_vectors, C33_wgs84, C87_meaning, C117_rates_refuted, C153_quaternion_rest, C153_compensation, C97_base_partial, C97_scale_REFUTED, C97_odometer_REFUTED, C99_true_effect_partial

* **functional_extensionality_dep, sig_forall_dec, sig_not_dec**:
  C73_any_velocity_refuted, C44_parameter_units, C44_option_angles, C44_print_is_file, C60_settings_reach_filter_refuted, C60_initial_accuracy_is_zero, C60_passed_on_partial, C93_forward_partial, C93_straight_partial, C94_scale_partial, C94_no_odometer_REFUTED, C168_rows, C168_cells_partial, C168_exchanged_REFUTED, C168_week_REFUTED, C168_not_asked, C168_written, C142_errors_partial, C142_zero_partial, C142_rms, C142_antimeridian_refuted, C143_blind_refuted, C143_refuted, C144_perfect_partial, C144_nothing, C144_refuted, C67_rate_at_rest, C146_last_digit_partial, C146_newline_partial, C146_newline_REFUTED, C147_own_files_REFUTED, C147_no_result_REFUTED, C152_grows_REFUTED, C128_row_partial, C128_east_refuted, C128_base_meridian_refuted, C135_body, C36_position_matrix_start, C37_flag, C37_one_sample_clears, C37_spread, C37_defined_partial, C37_overflow_refuted, C38_in_range, C38_first_window, C38_weighted, C38_variance, C38_constant, C45_unit_and_bounded, C45_matrix, C76_rest_is_small, C28_closed_branch, C28_series_norm, C28_series_close, C30_direct_conversion, C30_via_quaternion, C32_quaternion, C32_position_matrix, C33_on_ellipsoid, C33_height, C34_radii, C34_gravity_positive, C34_gravity_latitude, C34_gravity_height, C35_zero_for_equal_points, C35_no_height_north, C35_signs_partial, C35_no_height_variant_refuted, C61_same_rotation, C61_zero_vector_refuted, C153_earth, C153_quaternion, C164_parameters, C164_same_file, C164_distance, C164_space, C164_metric, C163_state_partial, C163_start, C163_biases_refuted, C95_rest_partial, C95_origin_REFUTED, C132_units_partial, C132_increments, C132_rates_for_increments_refuted, C99_gyroscopes_REFUTED, C99_accelerometers_REFUTED, C99_arm_and_odometer_partial, C99_base_partial, C100_innovation_partial, C100_design_REFUTED, C106_lever_refuted

* **classic, constructive_indefinite_description, functional_extensionality_dep, sig_forall_dec**:
  C165_unbiased, C165_conservative, C165_exact, C166_better, C24_zero_velocity_ignored_refuted, C67_earth_rate_is_no_bias_refuted, C134_least, C134_information, C134_order, C86_statistic_partial, C86_not_normalised, C86_never_rejects, C86_counter, C76_design_is_the_matrix, C20_predict, C20_predict_symmetric, C20_update, C20_update_symmetric, C20_update_defined, C21_optimal, C21_shrinks, C21_gain, C162_still

* **classic, functional_extensionality_dep, sig_forall_dec, sig_not_dec**:
  C109_levels_REFUTED, C109_axis_up_partial, C16_gated, C16_navigation, C17_attitude_accuracy_refuted, C140_drift, C140_linear, C114_place_near, C114_place_REFUTED, C168_latitude_REFUTED, C143_share_partial, C143_fails, C102_exact, C102_no_drift, C102_senseless_plan, C102_positive_step_ends_refuted, C102_small_step_hangs, C103_gap_exact, C103_max_and_mean, C103_gnss_delay_exact, C104_given_angle_returned, C104_velocity_precision, C104_attitude_precision, C104_height_precision, C104_order_kept, C104_float_unchanged, C65_level_corrections, C148_labelled_REFUTED, C36_rotation, C36_euler, C36_position_matrix, C45_set_quaternion_refuted, C45_magnetometer_refuted, C47_rests_partial, C47_first_epoch_partial, C47_exact_refuted, C75_place, C75_velocity, C75_attitude, C75_every_state, C75_place_in_step, C75_velocity_in_step, C75_attitude_in_step, C75_slip_matters, C76_fix, C76_after_a_sample, C76_fix_after_correction, C76_fix_in_step, C77_wheel, C77_zero_velocity, C145_slip_rate, C145_one_correction, C31_roundtrip_partial, C31_pitch_partial, C31_always_numbers_refuted, C31_vertical_down_refuted, C31_vertical_up, C32_roundtrip_partial, C32_antimeridian_refuted, C35_direction_refuted, C87_place_partial, C87_geodetic_partial, C87_velocity_partial, C87_attitude_partial, C88_coning, C88_sculling, C96_place_partial, C96_attitude_partial, C96_velocity_REFUTED, C153_place, C153_attitude, C154_scaled_partial, C154_shrinks_refuted, C156_first_sample_partial, C156_second_sample_refuted, C154_no_rotation_refuted, C155_same_object_refuted, C155_other_objects_partial, C157_accuracy, C157_roundtrip, C157_antimeridian_refuted, C157_poles_refuted, C158_moved, C159_duplicate_partial, C159_time_partial, C159_backwards_refuted, C95_north_REFUTED

* **classic, constructive_indefinite_description, functional_extensionality_dep, sig_forall_dec, sig_not_dec**:
  C108_deviations_partial, C108_getters, C108_attitude_units_refuted, C70_levelling_partial, C70_configured_errors_partial, C71_installation_angle_refuted, C72_accuracy_refuted, C73_velocity_refuted, C12_status_forward, C12_never_error, C12_no_undefined_behaviour, C13_reason_partial, C13_reached_partial, C13_heading_after_levelling_refuted, C15_fixes_keep_status, C15_nothing_before_first_sample, C16_no_side_effects, C16_others_unchanged, C17_zero_refuted, C18_zero_state_refuted, C18_old_status_refuted, C18_outcome_partial, C18_fresh_partial, C68_two_devices, C69_given_state_kept, C69_finite, C74_gnss_off_refuted, C74_no_effect_refuted, C138_sideways, C138_epoch, C139_still_partial, C139_overwritten_refuted, C110_given, C110_navigating_partial, C110_alignment_REFUTED, C110_transparent, C111_reported, C111_each_sample, C112_place_partial, C112_time_REFUTED, C113_innovation, C113_none, C113_only_fixes, C114_attitude_REFUTED, C114_filter_partial, C114_start_partial, C114_flags_partial, C84_gnss_flag_partial, C84_gnss_flag_before, C84_not_cleared, C84_odometer_flag, C84_imu_flag, C84_zero_velocity_flag, C84_mode_at_fix, C19_symmetric, C22_positive_semidefinite_refuted, C22_negative_variance_refuted, C22_bounded_loss_partial, C23_number_of_parts, C23_biases, C23_parts, C24_all_measurements_count_refuted, C25_rejected, C25_flags, C26_schedule, C48_after_fix_partial, C48_needs_reference_refuted, C62_first_fix, C62_fix_above, C63_innovation, C64_remainder_kept_refuted, C64_spread_over_thousand, C66_constraints_at_rest, C148_negated_partial, C135_least, C135_order, C135_straight, C135_aligned, C86_fix_never_rejected, C78_denominators, C78_error_model, C78_transition_matrix, C85_no_effect_partial, C85_scale_reported, C120_uses_of_a_fix_partial, C121_outages_ignored_refuted, C121_fix_in_outage_refuted, C122_first_record_refuted, C123_lines, C123_result_variable, C123_given_state, C124_programs_agree, C80_ends, C80_samples_taken, C80_one_line_per_sample, C80_line_is_the_answer, C81_fixes_in_windows_ignored, C81_line_repeated, C82_memory_refuted, C82_memory_before_navigation_refuted, C82_given_state_partial, C83_time_of_last_sample, C83_times_never_go_back, C115_gga_files_partial, C115_unknown_format_refuted, C115_text_files_partial, C115_binary_files_partial, C115_given_state, C115_final_line_end_refuted, C116_ten_columns_refuted, C116_unknown_columns_refuted, C116_imd_files_refuted, C117_program_refuted, C118_stop_time_refuted, C118_stop_time_ignored, C162_fixes, C162_each_fix, C162_antenna, C162_wheel, C162_sideways, C162_height, C160_accelerometers, C160_gyroscopes, C161_scale_partial, C161_arm_REFUTED, C161_odometer_REFUTED, C161_waiting_REFUTED, C105_static_bias_refuted, C106_start_partial, C107_wheel_gain, C107_explained, C107_no_overshoot, C149_none, C150_correction_REFUTED, C150_constraint_REFUTED, C151_inertial

