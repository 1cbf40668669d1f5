[
{"range":[[1,3]],"model":"CrcModel (bytes as N); CrcSpec (GF(2) polynomials)","method":"table by computation, linearity of the shift register, injectivity of the remainder on short bursts"},
{"range":[[4,6]],"model":"RecorderModel, LoaderModel; LoaderSpec","method":"induction over the list of records"},
{"range":[[7,11],[49,51]],"model":"LoaderModel (reads outside the buffer and endless loops are outcomes)","method":"invariants of the scanner, concrete files as witnesses of refutations"},
{"range":[[12,18],[68,69],[74,74]],"model":"ApiModel (state machine of Src/rgioe.cpp over AlignModel and FusionModel)","method":"induction over call histories, simulation between two devices"},
{"range":[[19,19],[22,26],[48,48],[62,67]],"model":"FusionModel, FusionBase (fifteen states, real matrices)","method":"induction over epochs, matrix algebra, quadratic forms"},
{"range":[[20,21]],"model":"KalmanModel (mathcomp matrices over R, all dimensions)","method":"matrix algebra, quadratic forms"},
{"range":[[27,27],[46,46]],"model":"LayoutModel","method":"case analysis over the switches, arithmetic"},
{"range":[[28,35],[61,61]],"model":"EarthModel, ConvertModel; ConvertSpec (textbook definitions)","method":"trigonometric identities, field, bounds"},
{"range":[[36,36],[47,47]],"model":"InsModel","method":"invariants over histories of samples and corrections"},
{"range":[[37,38]],"model":"SmoothModel; SmoothSpec","method":"induction over samples"},
{"range":[[39,39]],"model":"OutageModel (rationals)","method":"induction over the windows"},
{"range":[[40,41],[52,54],[79,79]],"model":"MergeModel; MergeSpec","method":"induction over the consumption of the streams"},
{"range":[[42,42]],"model":"WriterModel (two-thread transition system)","method":"invariant over all schedules"},
{"range":[[43,44],[60,60]],"model":"ConfigModel (key/value document)","method":"round trip, case analysis"},
{"range":[[45,45]],"model":"AhrsModel","method":"invariant over histories"},
{"range":[[55,59]],"model":"ReaderModel (character streams, C++ stream states)","method":"induction over the file"},
{"range":[[70,73]],"model":"AlignModel through ApiModel","method":"induction over samples, concrete histories as witnesses"},
{"range":[[75,78]],"model":"InsModel, FusionModel; JacobianSpec (derivatives at 0)","method":"differentiation of the model with Coquelicot, translated to the standard library's derivable_pt_lim"},
{"range":[[80,83]],"model":"PostModel over MergeModel, OutageModel, ApiModel","method":"induction over runs of the program"},
{"range":[[84,84]],"model":"FusionModel, ApiModel; FlagsSpec","method":"induction over histories of calls"},
{"range":[[85,85]],"model":"ApiModel; OdoSpec","method":"simulation between two devices"},
{"range":[[86,86]],"model":"InnovationModel; InnovationSpec","method":"matrix algebra"},
{"range":[[87,88]],"model":"InsModel; MotionSpec","method":"differentiation in the sampling interval (Coquelicot); uniqueness of integrals"},
{"range":[[89,92]],"model":"TextModel; TextSpec","method":"induction over digits, lists of results and rows"},
{"range":[[93,94]],"model":"DcmModel (every singular value decomposition)","method":"induction over observations, matrix algebra"},
{"range":[[95,95]],"model":"RecordedModel; EarthModel","method":"induction over results; bounds on the radii"},
{"range": [[96, 96]], "model": "ApiModel; ProjectSpec", "method": "differentiation in the lever arm (Coquelicot)"},
{"range": [[97, 101]], "model": "SelectModel; LayoutModel", "method": "cases over the selections, algebra"},
{"range": [[102, 102]], "model": "FloatOutageModel", "method": "every operand is a multiple of 2^-33 below 2^20, so Flocq's round is the identity; induction on the loop; absorption lemma for the hang"},
{"range": [[103, 103]], "model": "FloatTimeModel", "method": "Sterbenz; induction over the samples with an error invariant for the running mean"},
{"range": [[104, 104]], "model": "FloatOutModel", "method": "relative error of two roundings; half-ulp bounds; monotonicity of rounding"},
{"range": [[105, 106]], "model": "AlignModel, ApiModel", "method": "composition of the levelled state with the two fixes that end the alignment"},
{"range": [[107, 107]], "model": "velocity_update_f of FusionModel", "method": "linear algebra: one gain for all readings; scalar share of the innovation"},
{"range": [[108, 108]], "model": "output, api_vel, api_atti, api_result of ApiModel", "method": "variance of a unit vector is the diagonal entry; squares of roots"},
{"range": [[109, 109]], "model": "AhrsModel (attitude-only filter); AhrsLevel", "method": "the pitch quaternion is invariant; one step turns it by an angle whose sign is that of the specific force; bounds on the turn give the number of samples"},
{"range": [[110, 114]], "model": "DiaryModel: every message written by the library built with the recorder, on top of ApiModel; DiaryFloat for the cast", "method": "induction over the history with the status as invariant; the innovations through FusionInno"},
{"range": [[115, 119]], "model": "ProgramModel on top of ReaderModel, MergeModel, OutageModel, ConfigModel, PostModel and ApiModel", "method": "merge of the two lists of samples by induction over both, a relation between samples and file events carried through merge, start time and calls, and the run lemma of C80"},
{"range": [[120, 124]], "model": "OldModel (PostDataFusion_old.cpp), OldSpec", "method": "invariant relating the two pointers of the loop to the samples read; the calls of the library as a function of the samples; induction over the samples"},
{"range": [[125, 128]], "model": "HelperModel, RowModel: ReadUntil, the printing operators with an interpreter of the format strings, SaveConfig, ConvertNavToDouble", "method": "induction over the records; the format strings are evaluated, the rest by the lemmas about printed numbers; case analysis over all keys"},
{"range": [[129, 133]], "model": "ReplayModel, AdiModel: the player tick by tick on the bytes of the file, the displayed path, the queues and the loop of the fusion node as a transition system, the conversion of raw samples", "method": "induction over the sequence of timer events (arrivals, rounds), real arithmetic for the units"},
{"range": [[134, 134]], "model": "InfoModel: kf_update, one after the other (update_all)", "method": "information form of the update; completing the square; induction over the measurements (InfoProofs)"},
{"range": [[135, 135]], "model": "AngleModel: the loop of the tool on given records", "method": "misfit of all records together by induction (InfoProofs), carried over to three-vectors (AngleProofs)"},
{"range": [[136, 136]], "model": "SummaryModel: the text printed line by line into an array of 4096 bytes, on top of LoaderModel", "method": "the text is the concatenation of ended lines or nothing; words of a line are read back; keys of the loaded map are distinct; scan of records with unknown identifiers"},
{"range": [[137, 137]], "model": "SummaryModel: get_progress on top of LoaderModel", "method": "invariant of the scanning loop: the offset never decreases and stays within four bytes of the end"},
{"range": [[138, 139]], "model": "ConstraintSpec.v (statement), FusionModel.v", "method": "residual of a linear update in the metric of the inverse noise, then the rows of the two constraints"},
{"range": [[140, 140]], "model": "Src/InsCore.cpp, Src/DataFusion.cpp, Src/Convert.cpp: attitude of a history of samples and corrections (AttitudeSpec, AttitudeProofs)", "method": "the attitude as quaternion product; each polynomial quaternion is near the exact one, quaternion distance is invariant under multiplication by unit quaternions; induction over the history"},
{"range": [[141, 144]], "model": "Tools/ErrorAnalyser.py, Tools/ErrorAnalyse.py, Tools/Earth.py: unwrapping, interpolation, errors, histogram and verdict over the reals (EvalModel, EvalSpec)", "method": "induction over the reference rows for unwrapping and interpolation; the cumulative sums of the histogram are counts below the edges; the interpolated quantile lies within the bin that reaches the share"},
{"range": [[145, 145]], "model": "feedback, slip of the position quaternion", "method": "derivative of the normalised product of quaternions; exact tilt after one correction; half-angle tangents"},
{"range": [[146, 147]], "model": "Tools/DataGenerator.cpp: stream extraction, the loop and the lines (StreamModel, GenModel, GenSpec)", "method": "induction over the results; each turn of a nineteen-column file splits one number, tracked word by word"},
{"range": [[148, 148]], "model": "Tools/DataGenerator.cpp with the odometer update of the filter (GenModel, GenWheel)", "method": "rotation algebra; bounds of the sine"},
{"range": [[149, 151]], "model": "WideModel", "method": "simulation between models; invariant of the update flag"},
{"range": [[152, 152]], "model": "The input stream with its end-of-file and failure state; the loop on it, with the number of turns open", "method": "Induction on the number of numbers left in the text; a failed stream is a fixed point of the loop"},
{"range": [[153, 153]], "model": "Tools/InsCore.py as functions over the reals", "method": "compared with the models of the library, function by function"},
{"range": [[154, 156]], "model": "mechanization_n as a function of the state, and of memory for aliasing", "method": "length of the quaternion as an invariant of runs; the two samples of a unit at rest computed exactly"},
{"range": [[157, 158]], "model": "ecef_to_lla with its loop of at most eleven turns; compensate of the error analysis", "method": "the latitude as a distance D; the turn contracts in D, the height is Lipschitz in D from both sides, so a small change of height bounds what is left"},
{"range": [[159, 159]], "model": "mechanization_n and the times", "method": "case split on the time difference"},
{"range": [[160, 161]], "model": "WideModel (Predict and TimeUpdate without corrections), rows of the transition matrix and the process noise for every selection", "method": "rows with the diagonal entry only give a linear recursion for the variance; induction over the history gives the closed form; bounds of the fixed point; Bernoulli's inequality for the refuted parts"},
{"range": [[162, 162]], "model": "KalmanModel, FusionModel, ApiModel", "method": "optimality of the gain against one chosen gain of rank one gives the weighted mean on the measured row; induction over the fixes for the sum of reciprocals"},
{"range": [[163, 163]], "model": "PyTextModel (write2txt, __str__, the row of NavData)", "method": "printing and reading of decimals as in C89; the length of a printed number decides whether the time joins the week; conversion to the reals for the state"},
{"range": [[164, 164]], "model": "PyParaModel (ImuPara, get_distance, get_distance_d)", "method": "the units of each parameter against ConfigSpec; radii of curvature are positive and the cosine of a latitude below the pole is"},
{"range": [[165, 165]], "model": "KalmanModel (Predict, Update)", "method": "mean squares over a finite ensemble with weights (EnsembleSpec); both steps are the same linear maps of errors and covariance; induction over the history"},
{"range": [[166, 166]], "model": "KalmanModel (Predict, Update)", "method": "monotone in covariance and noise for a fixed gain, and the filter's gain is optimal (C21); induction over the pair of histories"},
{"range": [[167, 167]], "model": "ViewModel", "method": "columns of a loaded table by induction over the lines; bits by Z.land; files by the reading-back theorems"},
{"range": [[168, 168]], "model": "ErrFileModel", "method": "cells by name of the header, errors by C141 and C142"}
]
