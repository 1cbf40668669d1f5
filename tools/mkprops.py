import json
P=[]
def p(title, statement, quant, why, anchors):
    P.append(dict(id="C%02d"%(len(P)+1), title=title, statement=statement, quantifier=quant, why_tests_cant=why, anchors=anchors))
p("Table CRC equals the CRC polynomial",
  "The checksum the recorder and the loader use (crc32 with its 256-entry lookup table) equals, for every byte string, the bit-by-bit CRC-32 with polynomial 0x04C11DB7, initial value 0xFFFFFFFF, most significant bit first, no reflection and no final xor; the shipped table literal equals what the generator routine produces; both compile-time variants return the same value.",
  "all byte strings of any length", "256^n inputs; a test compares a few strings",
  ["Src/Recorder/comm_crc.c: crc_table_init, crc32", "Src/Recorder/comm_crc.h"])
p("Checksum residue characterises intact data",
  "A message followed by four trailer bytes has CRC 0 exactly when the trailer is the big-endian CRC of the message; so the loader's `crc32(frame) == 0` test accepts a frame if and only if its stored checksum is the right one.",
  "all messages and all four-byte trailers", "unbounded message space and 2^32 trailers per message",
  ["Src/Recorder/comm_crc.c: crc32", "Src/Recorder/Recorder.h: CHECKSUM_RECORDER_CRC32", "Src/Recorder/DataLoader.cpp: DataLoader::AddData, DataLoader::_loadHeader"])
p("CRC detects every burst of at most 32 bits",
  "If an intact frame is altered only inside a window of at most 32 consecutive bits (any non-zero pattern, any position, any frame length, including a single flipped bit) the checksum test fails.",
  "all frames, all burst positions and patterns up to 32 bits", "frames are unbounded and there are 2^32 patterns per position",
  ["Src/Recorder/comm_crc.c: crc32", "Src/Recorder/DataLoader.cpp: DataLoader::AddData"])
p("Record frame layout",
  "Every record written is the packed sequence start mark 0xAA55AA55, message id, time stamp, length, payload, checksum, end mark 0xAA66AA66, little endian; the length field equals the number of bytes of the frame, and the checksum covers everything before it, so that the CRC over all bytes up to and including the checksum is 0.",
  "all message kinds, time stamps and payload values", "payloads are arbitrary bytes",
  ["Src/Recorder/Recorder.h: RECORDER_MSG, CHECKSUM_RECORDER_CRC32, Recorder::Record", "Src/Recorder/RecorderType.h"])
p("File header round trip",
  "Loading the header that the recorder writes for any list of registered data sets (with names shorter than the 16-byte field) yields exactly those data sets: same ids, same names, same item names and types, in order.",
  "all lists of data-set descriptions that fit the header buffer", "unbounded combinations of sets and items",
  ["Src/Recorder/Recorder.cpp: Recorder::WriteHeader", "Src/Recorder/DataLoader.cpp: DataLoader::_loadHeader"])
p("Record file round trip",
  "For a file made of the header and any sequence of records of the registered sets with any values, the loader terminates, reports OK and returns for every data set exactly the recorded time stamps and values, in recording order, nothing lost and nothing added.",
  "all record sequences and all values", "sequences are unbounded, payload bytes may mimic marks",
  ["Src/Recorder/Recorder.h: Recorder::Record", "Src/Recorder/DataLoader.cpp: DataLoader::LoadFile, DataLoader::AddData"])
p("The loader terminates on every file",
  "LoadFile returns for every file contents.",
  "all file contents", "termination over all inputs cannot be tested",
  ["Src/Recorder/DataLoader.cpp: DataLoader::LoadFile, DataLoader::AddData"])
p("The loader never reads outside the file buffer",
  "For every file contents LoadFile only reads bytes of the file.",
  "all file contents", "memory safety over all inputs",
  ["Src/Recorder/DataLoader.cpp: DataLoader::LoadFile, DataLoader::AddData, DataLoader::_loadHeader"])
p("Corrupted records are never delivered",
  "A value delivered by the loader always stems from a byte range of the file that starts with the start mark, has the length its own length field says and passes the checksum; a record corrupted by a burst of at most 32 bits in its id, time stamp, payload or checksum is not delivered.",
  "all files, all corruptions", "unbounded files and corruptions",
  ["Src/Recorder/DataLoader.cpp: DataLoader::AddData, DataLoader::LoadFile"])
p("Columns of a loaded data set stay aligned",
  "After loading any file, all columns of one data set have the same number of entries as its time column.",
  "all file contents on which loading returns", "invariant over arbitrary inputs",
  ["Src/Recorder/DataLoader.cpp: DataLoader::AddData"])
p("Header failure reason is reported",
  "When the header is unusable the loader's error code tells which check failed (no start mark, checksum failure, missing end mark).",
  "all file contents", "all malformed headers",
  ["Src/Recorder/DataLoader.cpp: DataLoader::LoadFile, DataLoader::_loadHeader", "Src/Recorder/DataLoader.h"])
p("Filter status only moves forward",
  "Between two initialisations the status returned by rgioe_get_status never goes back in INIT, ALIGN, ATTITUDE, NAVIGATION, NAVIGATION is never left, and ERROR is never reported.",
  "all histories of API calls with all inputs", "histories are unbounded",
  ["Src/rgioe.cpp: rgioe_timeupdate, rgioe_gnssupdate, rgioe_get_status"])
p("Navigation only after alignment or given state",
  "The status is NAVIGATION only if the filter was initialised with a given navigation state, or an IMU sample found the unit static (levelling) and afterwards a GNSS displacement above the velocity threshold provided the heading.",
  "all histories of API calls", "histories are unbounded",
  ["Src/rgioe.cpp: rgioe_timeupdate", "Src/Alignment.cpp: AlignMoving::Update, AlignMoving::alignFinished"])
p("NULL samples are harmless",
  "rgioe_timeupdate and rgioe_gnssupdate with a NULL sample return NULL_INPUT and change nothing observable, in every state.",
  "all states", "all reachable states",
  ["Src/rgioe.cpp: rgioe_timeupdate, rgioe_gnssupdate"])
p("Only IMU samples advance the status",
  "rgioe_gnssupdate never changes the status; GNSS samples that arrive before the first IMU sample have no effect at all.",
  "all states and samples", "all reachable states",
  ["Src/rgioe.cpp: rgioe_gnssupdate"])
p("Read-outs are gated by status and have no side effects",
  "The get functions never change later behaviour; before NAVIGATION, position and velocity are not delivered by rgioe_get_result; in NAVIGATION it delivers the filter state with angles in degrees.",
  "all states", "all reachable states",
  ["Src/rgioe.cpp: rgioe_get_atti, rgioe_get_pos, rgioe_get_vel, rgioe_get_result", "Src/DataFusion.cpp: DataFusion::Output"])
p("Position accuracy read-out",
  "The standard deviation that rgioe_get_pos returns is the position standard deviation of the solution.",
  "all states", "all reachable states",
  ["Src/rgioe.cpp: rgioe_get_pos"])
p("Initialisation is safe and starts afresh",
  "rgioe_init accepts a NULL option pointer (default options), rejects a missing initial state with FAULT_CONFIG, and after it the status is INIT whatever happened before.",
  "all prior histories and arguments", "histories are unbounded",
  ["Src/rgioe.cpp: rgioe_init"])
p("Covariance stays symmetric",
  "After any history of samples the filter covariance is a symmetric matrix.",
  "all histories of samples", "unbounded histories of 15x15 real matrices",
  ["Src/KalmanFilter.hpp: KalmanFilter::Predict, KalmanFilter::Update", "Src/DataFusion.cpp: DataFusion::TimeUpdate"])
p("Kalman steps keep the covariance positive semidefinite",
  "Predict with a positive semidefinite process noise and Update with any measurement whose innovation covariance is invertible keep a positive semidefinite covariance positive semidefinite; with positive definite measurement noise the innovation covariance is always invertible, so no update divides by zero.",
  "all dimensions, covariances, transition and measurement matrices", "continuous state space",
  ["Src/KalmanFilter.hpp: KalmanFilter::Predict, KalmanFilter::Update"])
p("Measurements never increase uncertainty",
  "After Update the variance of every linear combination of the states is at most what it was before, and the gain used is optimal: no other gain gives a smaller variance for any linear combination.",
  "all covariances, measurement matrices, noises and gains", "continuous state space",
  ["Src/KalmanFilter.hpp: KalmanFilter::Update"])
p("Covariance stays positive semidefinite in the running filter",
  "After any history of samples the covariance of the running filter is positive semidefinite, so that reported standard deviations are real numbers.",
  "all histories of samples", "unbounded histories",
  ["Src/DataFusion.cpp: DataFusion::TimeUpdate, DataFusion::Initialize", "Src/KalmanFilter.hpp"])
p("A measurement correction is fed back completely",
  "After a measurement update the estimated error is fed back in equal parts over the following IMU epochs, and if no new measurement arrives before the last part the parts add up to exactly the estimated error; bias estimates therefore move by exactly the estimated bias error.",
  "all estimates, all epochs counts", "unbounded epochs and continuous values",
  ["Src/DataFusion.cpp: DataFusion::TimeUpdate, DataFusion::_feedBack, UpdateMonitor"])
p("No measurement is lost within an epoch",
  "If several measurements are processed before the next IMU epoch, the correction fed back accounts for all of them.",
  "all pairs of measurements", "continuous state space",
  ["Src/KalmanFilter.hpp: KalmanFilter::Update", "Src/DataFusion.cpp: DataFusion::TimeUpdate"])
p("Rejected GNSS fixes do not disturb the filter",
  "A GNSS sample whose mode is not an accepted fix type changes neither the navigation state nor covariance nor pending corrections, clears the GNSS flag of the output and marks the mode invalid.",
  "all states and samples", "continuous state space",
  ["Src/DataFusion.cpp: DataFusion::GnssCheck, DataFusion::MeasureUpdatePos"])
p("Constraint updates follow the configured schedule",
  "Zero-velocity updates are only applied when enabled and the unit is detected static, non-holonomic updates only when enabled without odometer, on one in 32 epochs; the output sensor flags say which were applied in the last eligible epoch.",
  "all histories and configurations", "unbounded histories",
  ["Src/DataFusion.cpp: DataFusion::TimeUpdate, DataFusion::MeasureZeroVelocity, DataFusion::MeasureNHC"])
p("Filter state layout is consistent",
  "For every compile-time selection of augmented states the blocks of the error state are disjoint, lie inside the state vector and cover it completely.",
  "all selections of the compile-time switches", "each selection is a separate build",
  ["Src/RgioeDefine.h"])
p("Rotation-vector quaternions are rotations",
  "The quaternion computed from a rotation vector is exactly unit for the closed form branch, and for the series branch has norm close to 1 with an explicit bound; it agrees with the exact rotation within that bound.",
  "all rotation vectors", "continuous domain",
  ["Src/Convert.cpp: Convert::rv_to_quaternion"])
p("Quaternion to direction cosine matrix gives a rotation",
  "For every unit quaternion the direction cosine matrix is orthogonal with determinant 1, composition of quaternions is the product of matrices.",
  "all unit quaternions", "continuous domain",
  ["Src/Convert.cpp: Convert::quaternion_to_dcm"])
p("Euler conversions agree",
  "For all attitudes, converting Euler angles to a quaternion and then to a matrix gives the same matrix as the direct conversion, which is orthogonal.",
  "all angle triples", "continuous domain",
  ["Src/Convert.cpp: Convert::euler_to_quaternion, Convert::euler_to_dcm"])
p("Euler round trip",
  "Euler angles to matrix and back returns the same roll, pitch and heading (heading in [0, 2 pi) or the range the code uses) for all attitudes away from the vertical, and the conversion back always yields numbers.",
  "all roll, pitch, heading", "continuous domain",
  ["Src/Convert.cpp: Convert::dcm_to_euler, Convert::euler_to_dcm"])
p("Position quaternion round trip",
  "Latitude and longitude to position quaternion and back is the identity for all points except the poles; the quaternion is unit and its matrix equals the directly computed position matrix.",
  "all latitudes and longitudes", "continuous domain",
  ["Src/Convert.cpp: Convert::lla_to_qne, Convert::qne_to_lla, Convert::lla_to_cne"])
p("Geodetic to Cartesian lies on the ellipsoid",
  "The Cartesian coordinates of a geodetic position at height 0 satisfy the ellipsoid equation, and a height change moves the point along the ellipsoid normal by exactly that height.",
  "all latitudes, longitudes, heights", "continuous domain",
  ["Src/Convert.cpp: Convert::lla_to_xyz", "Src/Earth.cpp"])
p("Earth model is well defined",
  "For all latitudes the radii of curvature are finite, positive and ordered (meridian radius at most transverse radius) and lie between explicit bounds; normal gravity is positive and increases from equator to pole at zero height.",
  "all latitudes", "continuous domain",
  ["Src/Earth.cpp: Earth::RM, Earth::RN, Earth::Update", "Src/Earth.h"])
p("Displacement between positions",
  "The displacement function returns (north, east, down) distance from the first to the second point: zero exactly for equal points, with the sign of the latitude and longitude differences, east displacement not depending on anything but the latitude and the longitude difference.",
  "all pairs of points", "continuous domain",
  ["Src/Earth.cpp: Earth::distance, Earth::dN, Earth::dE"])
p("Attitude stays a rotation through any history",
  "After any history of IMU samples and corrections the attitude quaternion has norm 1, the attitude matrix is the orthogonal matrix of that quaternion and the reported Euler angles are those of that matrix.",
  "all histories of samples", "unbounded histories, continuous values",
  ["Src/InsCore.cpp: InsMechanization", "Src/DataFusion.cpp: DataFusion::_feedBack", "Src/Convert.cpp"])
p("Static detector",
  "The static flag is raised exactly when the acceleration spread has been at or below the threshold on more than the required number of consecutive latest samples; one sample above the threshold clears it.",
  "all sample sequences", "unbounded sequences",
  ["Src/StaticDetect.cpp: IMUSmooth::Update, IMUSmooth::isStatic"])
p("Smoothed IMU output is a weighted mean",
  "The smoothed IMU output always lies between the smallest and largest sample seen, equals the arithmetic mean during the first window, variances are never negative, and a constant signal has zero spread.",
  "all sample sequences", "unbounded sequences",
  ["Src/StaticDetect.cpp: IMUSmooth::Update"])
p("Outage windows",
  "With a valid configuration a time is reported as outage exactly when it lies in one of the periodic windows [start + k step, start + k step + length] whose beginning is before the stop time; with a disabled configuration never; construction terminates.",
  "all configurations and times", "continuous domain, unbounded number of windows",
  ["Src/Outage.cpp: Outage::Outage, Outage::IsOutage"])
p("Sensor streams are merged in time order",
  "The data manager delivers the samples of all input streams in non-decreasing time order (for time-ordered streams), keeps the order of each stream, and delivers IMU before GNSS at equal times; every sample is delivered exactly once until the first stream is exhausted.",
  "all contents of the input files", "unbounded streams and interleavings",
  ["App/PostDataFusion/DataManager.h", "App/PostDataFusion/DataManager.cpp: DataManager::GetNextData"])
p("All recorded data is delivered",
  "All samples of all input streams are delivered before the end is reported.",
  "all contents of the input files", "unbounded streams",
  ["App/PostDataFusion/DataManager.cpp: DataManager::GetNextData"])
p("Result writer writes every result in order",
  "The background result writer writes every queued solution exactly once in order, under every thread schedule, provided the writer is stopped after the last one was queued.",
  "all thread schedules and queued sequences", "schedules cannot be enumerated",
  ["App/AppCommon/FileIO.cpp: NavWriter"])
p("Configuration file round trip",
  "A configuration that is saved can be loaded again and yields the same configuration.",
  "all configurations", "unbounded configurations",
  ["App/AppCommon/Config.cpp: Config::SaveTo, Config::LoadFrom"])
p("Configuration unit conversions",
  "The options derived from a configuration are in SI units: angles in radians, and the conversion of a value in degrees back to degrees is the value in the file.",
  "all configurations", "continuous domain",
  ["App/AppCommon/Config.cpp: Config::GetOption, LoadImuPara"])
p("AHRS attitude stays a rotation and its integral correction is bounded",
  "After any history of updates the attitude quaternion of the attitude-only filter has norm 1 and each component of its integral correction is at most one degree in magnitude.",
  "all histories of samples", "unbounded histories",
  ["Src/AttiAhrs.cpp: AttiAhrs::Update"])
p("Raw frame decoding",
  "The raw velocity bytes are decoded as big-endian two's complement in thousandths for all byte pairs; the raw IMU checksum rejects corrupted frames.",
  "all byte frames", "2^160 frames",
  ["App/RtSimulation/src/navplay/src/navplay_node.cpp: ConvertVelRawToFloat", "App/RtSimulation/src/navplay/src/AdiHandle.cpp: CheckSum"])
p("A stationary unit stays where it is",
  "If the IMU delivers exactly the specific force and the rotation a stationary unit senses, mechanisation leaves velocity zero and the position unchanged.",
  "all positions and attitudes", "continuous domain",
  ["Src/InsCore.cpp: InsMechanization::ForwardMechanization"])
p("Barometric height updates",
  "Relative height measurements are referenced to the GNSS height at the first sample, and no update happens before a reference is available and five samples have been seen.",
  "all histories", "unbounded histories",
  ["Src/DataFusion.cpp: DataFusion::RelativeHeight"])
p("Interrupted recordings stay readable",
  "If the recording process stops at any moment, so that the file ends inside a record, the loader returns the complete records in front of the cut and reads nothing outside the file.",
  "all recordings and all crash points", "every byte offset of every recording is a crash point",
  ["Src/Recorder/DataLoader.cpp: DataLoader::LoadFile"])
p("Loading a second file shows that file",
  "After LoadFile on a loader that was used before, the loader shows the data of the new file only; a file that cannot be opened is reported by the error code.",
  "all sequences of loaded files", "histories of loads are unbounded",
  ["Src/Recorder/DataLoader.cpp: DataLoader::LoadFile"])
p("Integer items are shown exactly",
  "An integer item of a record (any of the eight integer types) is shown by the loader as the number that was recorded.",
  "all integer types and values", "2^64 values per type",
  ["Src/Recorder/DataLoader.cpp: structMember2Float"])
p("Processing starts at the configured time",
  "After MoveToTime(t) the next sample delivered is the first one with time at or after t.",
  "all streams and start times", "unbounded streams",
  ["App/PostDataFusion/DataManager.cpp: DataManager::MoveToTime"])
p("Sample interval statistics",
  "The sample counter, mean interval and largest interval that the sequence checker reports are those of the delivered samples.",
  "all sample sequences with positive times", "unbounded sequences",
  ["App/PostDataFusion/DataManager.cpp: DataSeqCheck::Update"])
p("Progress indication",
  "GetProgress is the percentage of delivered IMU samples, never more than 100, and 100 exactly when all have been delivered; it is defined for every set of inputs.",
  "all streams and reading positions", "unbounded streams",
  ["App/PostDataFusion/DataManager.cpp: DataManager::GetProgress"])
p("Binary IMU files give one sample per record",
  "Reading a binary IMU file delivers exactly one sample per complete 56-byte record, in order, with the recorded values, and ends.",
  "all file contents", "all byte strings",
  ["App/AppCommon/FileIO.cpp: IMUReader::ReadNext", "App/PostDataFusion/DataManager.cpp: DataManager::AddFile"])
p("Text IMU files give one sample per line",
  "Reading a text IMU file delivers exactly one sample per line of seven numbers, in order, and ends for every file contents.",
  "all text files", "all texts",
  ["App/AppCommon/FileIO.cpp: IMUReader::ReadNext"])
p("GNSS files give one fix per line",
  "Reading a GNSS text file in any supported format delivers the fix of every line, in order; a line without a usable fix is skipped and does not hide the fixes behind it.",
  "all files in the supported formats", "all texts",
  ["App/AppCommon/FileIO.cpp: GnssReader::ReadNext", "App/PostDataFusion/DataManager.cpp: DataManager::AddFile"])
p("Fix quality reaches the filter",
  "The quality of a fix read from a file is what the filter sees, so that a fix marked invalid is rejected by it.",
  "all fixes", "all fix lines",
  ["App/PostDataFusion/DataManager.cpp: GnssData_t::toRgioeData", "Src/DataFusion.cpp: DataFusion::GnssCheck"])
p("IMU axes conversion is a rotation",
  "The conversion from right-front-up to front-right-down axes is a proper rotation and its own inverse.",
  "all vectors", "continuous domain",
  ["App/AppCommon/FileIO.cpp: IMUReader::ReadNext"])
p("Configured values take effect",
  "Every setting of the configuration that concerns the filter is part of the options the filter gets.",
  "all configurations", "all configurations",
  ["App/AppCommon/Config.cpp: Config::GetOption"])
p("Rotation vector to matrix agrees with the quaternion",
  "The direction cosine matrix computed from a rotation vector is the matrix of the rotation the vector stands for, for every rotation vector including the zero vector.",
  "all rotation vectors", "continuous domain",
  ["Src/Convert.cpp: Convert::rv_to_DCM"])
p("First fix is weighted by the accuracies",
  "The first fix after start, with the antenna at the centre of the IMU, yields a correction whose position part is on each axis p/(p+r) of the difference between position and fix (p: variance of the initial position, r: variance of the fix) and nothing else; a fix straight above the unit moves the height by exactly this share over the distribution window.",
  "all initial states, options and valid fixes", "continuous domain",
  ["Src/DataFusion.cpp: DataFusion::MeasureUpdatePos", "Src/KalmanFilter.cpp"])
p("Position innovation is the antenna place minus the fix",
  "The difference the filter works with is the place of the antenna, computed from position, attitude and lever arm, minus the fix, in metres along the local axes.",
  "all reachable filter states, lever arms and fixes", "continuous domain, unbounded histories",
  ["Src/DataFusion.cpp: DataFusion::_posZ"])
p("An unfinished correction survives the next measurement",
  "The part of a correction that has not been applied yet when the next measurement comes in is still applied.",
  "all histories of measurements and samples", "every interleaving of measurements with the distribution window",
  ["Src/DataFusion.cpp: DataFusion::MeasureUpdate", "Src/DataFusion.cpp: DataFusion::_timeUpdateIdx"])
p("Corrections act on what they name",
  "A correction in height, velocity or biases changes exactly height, velocity or biases and leaves latitude, longitude and attitude.",
  "all states and corrections", "continuous domain",
  ["Src/DataFusion.cpp: DataFusion::_feedBack"])
p("Motion constraints leave a resting unit at rest",
  "Zero-velocity updates and non-holonomic constraints do not move a unit that is at rest, however long it rests.",
  "all resting places, attitudes and sample sequences", "unbounded histories",
  ["Src/DataFusion.cpp: DataFusion::MeasureZeroVelocity", "Src/DataFusion.cpp: DataFusion::MeasureNHC"])
p("Zero angular rate update respects the rotation of the earth",
  "The zero angular rate update of a unit at rest does not attribute the rotation of the earth to the gyroscope bias.",
  "all states at rest", "continuous domain",
  ["Src/DataFusion.cpp: DataFusion::MeasureZeroVelocity"])
p("Devices do not influence each other",
  "Two devices used in one process, with calls in any order, each give the answers they would give alone, although they share the global earth parameters.",
  "all pairs of devices and all interleavings of calls", "every interleaving",
  ["Src/rgioe.cpp", "Src/Earth.h: Earth::Instance"])
p("A given state is kept by a resting unit",
  "A device initialised with a given position and attitude and zero velocity, fed with samples of a unit at rest there, is in NAVIGATION after the first sample and keeps answering the given position and zero velocity however many samples follow.",
  "all places, attitudes, options and numbers of samples", "unbounded histories, continuous domain",
  ["Src/rgioe.cpp: rgioe_init, rgioe_timeupdate, rgioe_get_pos, rgioe_get_vel"])
p("Levelling recovers roll and pitch",
  "After levelling, the reported roll and pitch are those of the resting unit.",
  "all attitudes, places and sample sequences of a resting unit", "continuous domain",
  ["Src/Alignment.cpp: AlignMoving::Update(imu)"])
p("Installation angle is compensated once",
  "The configured installation angle about the vertical axis is applied once to the heading found by the alignment.",
  "all sequences of fixes during alignment", "unbounded histories",
  ["Src/Alignment.cpp: AlignMoving::Update(gnss)"])
p("Attitude accuracy after alignment",
  "A more accurate fix leads to an attitude accuracy after alignment that is not worse.",
  "all fixes", "continuous domain",
  ["Src/Alignment.cpp: AlignMoving::Update(gnss)"])
p("Velocity after alignment",
  "The velocity the filter starts with after alignment is the velocity of the motion between the fixes (displacement divided by time, third component downwards) and depends on nothing but the inputs since initialisation.",
  "all histories that lead to NAVIGATION by alignment", "continuous domain; uninitialised memory",
  ["Src/Alignment.cpp: AlignMoving::Update(gnss)", "Src/Alignment.h: AlignMoving"])
p("GNSS can be switched off",
  "With the option enable_gnss = 0 the library makes no use of fixes.",
  "all histories", "unbounded histories",
  ["Src/RgioeDataType.h: RgioeOption", "Src/rgioe.cpp: rgioe_gnssupdate"])
p("Corrections move the solution back by the estimated errors",
  "Feeding back an estimate of position, velocity and attitude errors moves place and velocity, seen in earth-fixed axes, by minus the estimated errors in metres and metres per second, and turns the unit by the estimated attitude error, to first order; the only further part is proportional to the slip between position quaternion and reported place, is given exactly, and is zero where the quaternion was made from the place.",
  "all navigation states and estimates", "continuous domain, derivative",
  ["Src/DataFusion.cpp: DataFusion::_feedBack"])
p("Design matrix of a fix fits its innovation",
  "The matrix handed to the Kalman filter with a fix is the sensitivity of the innovation to the corrections the library feeds back, so that an estimate that explains the innovation makes it vanish to first order, up to the lever arm times the turn of the local axes (bounded by lever arm times correction over earth radius) and the part proportional to the slip of C75.",
  "all navigation states, lever arms, fixes and estimates", "continuous domain, derivative",
  ["Src/DataFusion.cpp: DataFusion::_posH, DataFusion::_posZ, DataFusion::_feedBack"])
p("Design matrices of odometer and motion constraints fit their innovations",
  "The matrices handed to the Kalman filter with wheel velocities, non-holonomic constraints and zero velocities are the sensitivities of the innovations to the corrections the library feeds back, up to the turn of the local axes times velocity, earth rate and lever arm.",
  "all navigation states, lever arms, installation angles and estimates", "continuous domain, derivative",
  ["Src/DataFusion.cpp: DataFusion::MeasureUpdateVel, DataFusion::MeasureNHC, DataFusion::MeasureZeroVelocity"])
p("Errors are predicted by the psi angle equations",
  "From one sample to the next the estimated errors follow the strapdown error equations (Coriolis and transport terms, gravity gradient, specific force times attitude error, biases through the attitude, Gauss-Markov biases) with the state after the sample.",
  "all states, samples, options and estimates", "continuous domain",
  ["Src/DataFusion.cpp: DataFusion::TransferMatrix, DataFusion::TimeUpdate"])
p("Rewinding delivers the same data again",
  "After Reset the data source delivers the same samples in the same order as a source that was freshly opened, wherever it stood before, and its statistics describe what it has delivered since.",
  "all files, configurations and reading positions", "unbounded histories and file contents",
  ["App/FileIO/DataLoader.cpp: DataManager::Reset, DataManager::GetNext"])
p("One result per sample",
  "The post-processing program ends for every pair of files and hands one result to the writer for every sample it takes; in NAVIGATION it is what rgioe_get_result answers after exactly the samples so far.",
  "all files, configurations and samples", "unbounded histories",
  ["App/PostDataFusion/PostDataFusion.cpp: main"])
p("Simulated outages hide fixes completely",
  "With simulated outages the program behaves as if the fixes inside the windows were not in the file: same device and same results for the other samples; a hidden fix repeats the result before it. Without the option every fix is used.",
  "all files, outage plans and configurations", "unbounded histories",
  ["App/PostDataFusion/PostDataFusion.cpp: main", "Src/Outage.cpp: Outage::IsOutage"])
p("Results depend on the input only",
  "What the post-processing program writes is determined by the files and the configuration.",
  "all files, configurations and memory contents", "uninitialised memory",
  ["App/PostDataFusion/PostDataFusion.cpp: main", "Src/rgioe.cpp: rgioe_get_result"])
p("Time stamps of results",
  "Every navigation result carries the time of the last IMU sample consumed, also after a fix, and the times of navigation results never go back when those of the IMU samples do not.",
  "all files, configurations and samples", "unbounded histories",
  ["App/PostDataFusion/PostDataFusion.cpp: main", "Src/rgioe.cpp: rgioe_get_result", "Src/InsCore.cpp: Ins::ForwardMechanization"])
p("Sensor flags of a result",
  "The sensor flags and the GNSS mode reported with a result tell which sensors contributed to it since the previous result: the IMU flag is set, the GNSS flag only if a fix was used, the odometer flag only if a wheel speed was used, the zero-velocity flag only if the unit was found to be static.",
  "all histories of IMU samples, fixes, wheel speeds and heights", "unbounded histories",
  ["Src/DataFusion.cpp: DataFusion::TimeUpdate, MeasureUpdatePos, MeasureUpdateVel", "Src/rgioe.cpp: rgioe_get_result"])
p("Odometer options",
  "Through the C interface, switching on the odometer and setting its accuracy and scale factor makes wheel speeds support the solution, and the reported scale factor is an estimate.",
  "all histories of calls of the C interface with all options", "unbounded histories",
  ["Inc/rgioe.h", "Src/rgioe.cpp: rgioe_init", "Src/DataFusion.cpp: DataFusion::Initialize, TimeUpdate, MeasureUpdateVel"])
p("Innovation test",
  "The filter tests every measurement with the chi-square statistic of the innovation (weighted with the inverse of its covariance), reports it, and does not use a measurement that fails.",
  "all covariances, design matrices, noises and measurements of every dimension", "continuous inputs, all dimensions",
  ["Src/KalmanFilter.hpp: KalmanFilter::Update, GetX2", "Src/DataFusion.cpp: DataFusion::MeasureUpdatePos"])
p("Strapdown equations",
  "As the sampling interval gets small, the mechanisation follows the equations of motion on the rotating ellipsoid: the place moves with the velocity, the velocity changes by the specific force (freed from bias and scale factor) plus gravity minus the Coriolis acceleration, and the attitude turns with the measured rate (freed from bias and scale factor) less the rotation of the earth.",
  "all states away from the poles and the antimeridian, all velocities, attitudes, biases, scale factors, all measured forces and rates that settle as the interval shrinks", "limits over continuous inputs",
  ["Src/InsCore.cpp: Ins::ForwardMechanization, _extrapolate, _velocity_update, _position_update, _atti_update, CompensateIMU", "Src/Earth.cpp", "Src/Convert.cpp"])
p("Coning and sculling",
  "When angular rate and specific force change linearly in time, the corrections for coning and sculling are exact: the attitude turns by the rotation vector of Bortz' equation to second order, and velocity and place come out as for a sample without rotation whose impulse is the integral of the turned force.",
  "all linear courses of rate and force over two sampling intervals, all intervals, all states without bias and scale factor", "continuous inputs",
  ["Src/Convert.cpp: Convert::gyro_to_rv", "Src/InsCore.cpp: Ins::_velocity_update, _atti_update"])
p("Result file",
  "The result file has an entry for every result in order. In text format it is a line of thirteen words that read back as week, time, latitude, longitude, height, velocity, attitude, mode and flags, each to the printed number of decimals; in binary format it is the structure.",
  "all lists of results with finite numbers, all values of the format option", "all numbers with all signs and roundings",
  ["App/AppCommon/FileIO.cpp: operator<<(ostream&, NavOutput), PvaWriter::Write", "App/AppCommon/FileIO.h: NavFileFormat"])
p("Formats of the queueing writer",
  "The queueing writer and the direct writer write the same file for the same results and format.",
  "all lists of results, both formats", "all results",
  ["App/AppCommon/FileIO.cpp: NavWriter::th_write_nav, PvaWriter::Write", "App/AppCommon/FileIO.h: NavFileFormat"])
p("CSV export",
  "The exported file has a header with the names of the items and a row for every record, from which the recorded times and values can be read back.",
  "all data sets with finite values and names without commas", "all numbers",
  ["Src/Recorder/DataLoader.cpp: DataLoaderCsvWriter::Save2Csv"])
p("Names of recordings",
  "The name of a recording tells the date and time of its creation; names of later recordings of a program sort behind those of earlier ones.",
  "all program names, all dates and times from 1900 to 9999", "all dates",
  ["Src/Recorder/Recorder.cpp: Recorder::Initialize", "Src/Recorder/Recorder.h: rcd_filename"])
p("Installation angles",
  "The matrix estimated from body velocities is a rotation that turns the direction of travel in the body frame to the forward axis of the vehicle; it is determined by the observations.",
  "all sequences of observations with and without wheel speed, every singular value decomposition of the sums", "all velocities; the decomposition is not unique",
  ["Src/DcmEstimator.cpp: DcmEstimator::Update, CalcDcmBySVD, GetDCM"])
p("Estimated scale factor of the odometer",
  "The scale factor estimated from body velocities and wheel speeds is the ratio of true speed to wheel speed.",
  "all sequences of observations in straight driving", "all velocities",
  ["Src/DcmEstimator.cpp: DcmEstimator::Update, GetScaleFactor"])
p("Recorded results",
  "Each result asked for while navigating is recorded with its time, velocity, attitude and the displacement in metres from the first result.",
  "all sequences of results", "all places and sequences",
  ["Src/rgioe.cpp: rgioe_get_result", "Src/Recorder/RecorderType.h"])
p("Output projection",
  "With output projection switched on the results are those of the given point and frame of the body: place, attitude and velocity.",
  "all navigation states away from the poles, all lever arms and mounting angles", "all states and lever arms",
  ["Src/DataFusion.cpp: DataFusion::Output"])
p("Initial accuracy of the filter states",
  "At the start the variance of each filter state is the square of the standard deviation given for it, and the states are uncorrelated.",
  "all selections of optional states, all options", "all selections and options",
  ["Src/DataFusion.cpp: DataFusion::Initialize", "Src/RgioeDefine.h"])
p("Corrections with optional states",
  "With each selection of optional states a correction is computed from the estimate only.",
  "all sixteen selections", "a memory error need not show in a test",
  ["Src/DataFusion.cpp: DataFusion::_feedBack", "Src/KalmanFilter.hpp: Vec1X"])
p("Scale factors in the error model",
  "An error of a gyroscope scale factor acts on the attitude and one of an accelerometer scale factor on the velocity.",
  "all selections with scale factors, all navigation states", "all states",
  ["Src/DataFusion.cpp: DataFusion::TransferMatrix", "Src/InsCore.cpp: Ins::CompensateIMU"])
p("Lever arm as a state",
  "The measured place depends on an error of the lever arm as the design matrix says.",
  "all navigation states, all lever arms", "all states",
  ["Src/DataFusion.cpp: DataFusion::_posH, _posZ, _feedBack"])
p("Build options for optional states",
  "Each build option switches the state on that it is named after.",
  "all sixteen combinations of options", "combinations",
  ["App/PostDataFusion/CMakeLists.txt", "Inc/RgioeConfig.h"])
p("Outage windows in machine arithmetic",
  "With the times kept as IEEE doubles, as the program does, a time is reported as in outage exactly when it lies in one of the mathematical windows start + k*step, however many windows there are, and the plan with a positive step is built in finite time.",
  "all float starts, stops, lengths and steps; all times; any number of windows", "rounding of the running start must not accumulate for any plan",
  ["Src/Outage.cpp: Outage::Outage, Outage::IsOutage"])
p("Time statistics in machine arithmetic",
  "The gap between two samples and the delay of a fix that the data manager records are the exact differences of the time stamps, the largest gap is the exact maximum, and the mean gap is the mathematical mean up to rounding.",
  "all sequences of fewer than 2^32 time stamps in which no stamp is more than twice or less than half the previous one", "unbounded sequences; rounding errors accumulate",
  ["App/PostDataFusion/DataManager.cpp: DataSeqCheck::Update"])
p("Precision of angles and results",
  "A latitude or longitude given in degrees is reported back unchanged to double precision, and narrowing velocities, attitudes and heights to single precision loses less than a stated amount and never reverses an order.",
  "all real values in the stated ranges", "all values",
  ["Src/InsCore.cpp: makeNavEpoch, Ins::Output", "Src/DataFusion.cpp: DataFusion::Output", "Src/rgioe.cpp: rgioe_get_vel, rgioe_get_atti"])
p("The gyroscope bias found at rest is used",
  "A unit that stood still before driving off starts navigation with the gyroscope bias it showed while standing.",
  "all rates shown at rest, all configurations with alignment, all two fixes that start navigation", "all rates and configurations",
  ["Src/Alignment.cpp: AlignMoving::Update"])
p("Place and heading when navigation starts",
  "When an alignment in motion ends, the reported place is that of the last fix reduced from the antenna to the unit with the reported attitude, and the reported heading is the direction of the reported velocity plus the installation angle; the biases and scale factors are the configured ones.",
  "all levelled histories followed by two fixes, all configurations, lever arms and installation angles", "all places, lever arms and angles",
  ["Src/Alignment.cpp: AlignMoving::Update", "Src/DataFusion.cpp: DataFusion::Initialize, DataFusion::Output"])
p("Wheel speeds correct in proportion",
  "A wheel speed is never rejected: the correction is a gain that does not depend on the reading times the difference of what the state says about the wheel and the scaled reading; an explained reading changes nothing, a one-dimensional correction never overshoots, and sideways readings count only with the constraint on sideways motion enabled.",
  "all states with a positive semidefinite covariance, all readings, all configurations with non-zero deviations", "all states and readings",
  ["Src/DataFusion.cpp: DataFusion::MeasureUpdateVel", "Src/KalmanFilter.hpp: KalmanFilter::Update"])
p("Reported accuracies",
  "While navigating, the accuracies reported with place, velocity and attitude are the standard deviations of the filter for them, in the units of the reported values.",
  "all navigating states", "all states",
  ["Src/DataFusion.cpp: DataFusion::Output", "Src/rgioe.cpp: rgioe_get_vel, rgioe_get_atti, rgioe_get_result"])
p("The attitude-only filter levels itself at rest",
  "While a unit rests level the attitude-only filter (used while the library aligns itself, and exposed as a class) pulls its pitch towards zero: with samples that show no rotation and only gravity, whatever error the pitch was set with becomes smaller.",
  "every sample interval up to a second, every initial pitch up to 80 degrees, every sequence of samples of a level unit at rest of any length", "The drift per sample is tiny; whether it goes the right way and how far it gets is a statement about unboundedly many samples and every initial error.",
  ["Src/AttiAhrs.cpp:AttiAhrs::Update", "Src/AttiAhrs.cpp:AttiAhrs::SetAtti"])
p("All samples are in the recording",
  "Built with the recorder, the library writes each IMU sample it was handed to the recording, unchanged and in the order they came; and recording changes nothing of what the calls do.",
  "every history of calls after initialisation, every state of the device, alignment included", "Which samples are written depends on the status the device has at that moment, that is on the whole history.",
  ["Src/DataFusion.cpp:DataFusion::TimeUpdate", "Src/Alignment.cpp:AlignMoving::Update", "Src/rgioe.cpp:rgioe_timeupdate"])
p("Recorded biases are the reported ones",
  "For each IMU sample that is processed while navigating, the recording holds one entry with the time of the sample and the biases that a result read right after it reports, in the same units.",
  "every history with a given state, every sample, every result read after it", "It relates two outputs of the library, for all internal states.",
  ["Src/DataFusion.cpp:DataFusion::TimeUpdate", "Src/DataFusion.cpp:DataFusion::Output", "Src/rgioe.cpp:rgioe_get_result"])
p("Recorded fixes are the fixes handed over",
  "The recording holds each GNSS fix with its own time, its place relative to the start and its mode.",
  "every history of calls with a given state, whatever the fixes and their times", "The entry is written from what the filter holds, so it depends on the history and not on the fix alone.",
  ["Src/DataFusion.cpp:DataFusion::MeasureUpdatePos", "Src/Recorder/RecorderType.h:gnss"])
p("Recorded innovations compare the reported place with the fix",
  "With the antenna at the unit, each fix of a usable mode leaves exactly one innovation in the recording: the place that a result read just before it reports, minus the place of the fix, as north, east and down components at the reported place, with the time of that result and as variances the squared accuracies of the fix times the configured factor. Other fixes and other calls leave none.",
  "every history of calls with a given state, every fix, every result read before it", "It must hold in every state the filter can get into, and compares two outputs.",
  ["Src/DataFusion.cpp:DataFusion::MeasureUpdatePos", "Src/DataFusion.cpp:DataFusion::_posZ", "Src/rgioe.cpp:rgioe_get_result"])
p("The recording of an alignment agrees with the results",
  "Each entry that a fix leaves in the recording while the device aligns itself holds the attitude that a result read then reports, and the place to the decimetre.",
  "every device that has levelled itself, every fix, every place", "It relates two outputs for all states; the error of the place is a matter of rounding at every longitude.",
  ["Src/Alignment.cpp:AlignMoving::Update", "Src/rgioe.cpp:rgioe_get_result", "Src/Recorder/RecorderType.h:align"])
p("The post-processing run as a whole",
  "Given readable files, the program writes one result per recorded event, IMU samples and fixes worked off in the order of their time stamps behind the start time with fixes in simulated outages left out, and each result is the library's answer after exactly the calls those events stand for: nothing is lost in between, nothing is added.",
  "all configurations, all file contents of the supported formats (any length), all leftover memory, all loop bounds", "the run composes readers, merging, outages, options and the library over unbounded files",
  ["App/PostDataFusion/PostDataFusion.cpp:main", "App/PostDataFusion/DataManager.cpp", "App/AppCommon/FileIO.cpp:IMUReader::ReadNext", "App/AppCommon/FileIO.cpp:GnssReader::ReadNext", "App/AppCommon/Config.cpp:Config::GetOption"])
p("The documented binary IMU format can be processed",
  "A file of the documented imd format (format 1, rows of seven doubles) is read and processed.",
  "all configurations with format 1, all non-empty files, all GNSS files that can be read", "every file content; undefined behaviour is not observable by tests",
  ["App/AppCommon/FileIO.cpp:IMUReader::ReadNext", "Doc/RGIOE \u6570\u636e\u683c\u5f0f\u8bf4\u660e-CN.md"])
p("Units of IMU text files",
  "The library gets what the documentation says a line of an imutxt file means: rates in rad/s and g, converted to the increments of one sampling interval.",
  "all lines with a rotation, all rates above 1 Hz, all values of gravity, all runs over text files", "must hold for every line and rate",
  ["App/AppCommon/FileIO.cpp:IMUReader::ReadNext", "App/PostDataFusion/DataManager.cpp:ImuData_t::toRgioeData", "Doc/RGIOE \u6570\u636e\u683c\u5f0f\u8bf4\u660e-CN.md"])
p("The configured stop time ends the run",
  "No event later than the configured stop time is processed.",
  "all configurations, all text files with events behind the stop time", "every file and stop time",
  ["App/PostDataFusion/PostDataFusion.cpp:main", "App/AppCommon/Config.h", "Doc/RGIOE \u6570\u636e\u683c\u5f0f\u8bf4\u660e-CN.md"])
p("Recorded delay of a fix",
  "The delay of a fix in the time-check record is the time between its epoch and its delivery.",
  "all file contents, all states of the data manager, all fixes", "every fix of every file",
  ["App/PostDataFusion/DataManager.cpp:DataSeqCheck::Update", "App/AppCommon/FileIO.cpp:GnssReader::ReadNext", "App/AppCommon/FileIO.h:GnssData_t"])
p("Every fix is used once (second program)",
  "PostDataFusion_old hands every fix it reads to the library exactly once.",
  "all configurations, all files, all rates, all leftover memory", "all interleavings of IMU samples and fixes of any length",
  ["App/PostDataFusion/PostDataFusion_old.cpp:main", "Src/rgioe.cpp:rgioe_gnssupdate"])
p("Simulated outages hide fixes (second program)",
  "In PostDataFusion_old fixes inside an enabled outage window do not reach the filter.",
  "all configurations, plans, files and rates", "all plans and fix times",
  ["App/PostDataFusion/PostDataFusion_old.cpp:main", "Src/Outage.cpp:Outage::IsOutage"])
p("Any usable files can be processed (second program)",
  "PostDataFusion_old processes all usable files without undefined behaviour and ends.",
  "all configurations, all files whose records are in time order, all leftover memory", "undefined behaviour cannot be excluded by tests; all files",
  ["App/PostDataFusion/PostDataFusion_old.cpp:main", "App/PostDataFusion/DataManager.cpp:DataManager::GetNextData"])
p("Results of the second program",
  "PostDataFusion_old writes one result for every record after which the filter navigates and none before; each is the library's answer at that point, and nothing written depends on uninitialised memory of the program.",
  "all configurations, all files, all leftover memory", "all histories",
  ["App/PostDataFusion/PostDataFusion_old.cpp:main"])
p("The two post-processing programs agree",
  "If every fix lies close behind an IMU sample and away from the next one, both programs leave the library in the same state and the second one writes the lines of the first one for which the filter navigates.",
  "all configurations without outages, all files with that property, all leftover memory", "two whole program runs over unbounded files",
  ["App/PostDataFusion/PostDataFusion_old.cpp:main", "App/PostDataFusion/PostDataFusion.cpp:main"])
p("Reading up to a time",
  "ReadUntil(t, data) reads up to and with the first record at or behind t, stores that record in data and returns true; it returns false exactly if there is none, or the file could not be opened.",
  "all record sequences, all times, all contents of data", "sequences of any length",
  ["App/AppCommon/FileIO.cpp:ReaderBase::ReadUntil"])
p("Printed sensor data",
  "Printing an IMU sample, a wheel measurement, a fix or a result gives a line from which the values can be read back to the printed number of decimals.",
  "all finite values", "all numbers",
  ["App/AppCommon/FileIO.cpp:operator<<"])
p("Saving with SaveConfig",
  "SaveConfig(cfg, path) writes the same settings as Config::SaveTo, and the file can be loaded again.",
  "all configurations", "all configurations",
  ["App/AppCommon/Config.cpp:SaveConfig", "App/AppCommon/Config.cpp:Config::SaveTo"])
p("Rows of the result matrix",
  "In the matrix format each result is a row of 21 numbers: time, place, distance east and north of the base point, velocity, attitude and the accuracies, each equal to that of the result.",
  "all results", "all places on the earth",
  ["App/AppCommon/FileIO.cpp:NavWriter::ConvertNavToDouble", "Src/Earth.cpp:Earth::distance"])
p("Replay of a recording is complete",
  "The replay node publishes every complete record with a topic, from the first one with a positive time on, once and in file order, then the end mark, and nothing after it; at every moment what has been published is a beginning of that.",
  "all recordings (also with an incomplete record at the end), all sequences of timer events, all parameters", "recordings of any length",
  ["App/RtSimulation/src/navplay/src/navplay_node.cpp:Beats::operator()", "App/RtSimulation/src/navplay/src/NavRawReader.cpp:NavRawReader::ReadNext"])
p("Pace of a replay",
  "The replay node publishes a record when as much time has passed since the start as in the recording, at speed_up times the speed if real time is switched off.",
  "all recordings, all clocks, all speeds", "all clocks and time stamps",
  ["App/RtSimulation/src/navplay/src/navplay_node.cpp:Beats::operator()"])
p("Displayed path",
  "The displayed path has one pose for every whole second of the results so far.",
  "all sequences of results", "sequences of any length",
  ["App/RtSimulation/src/navplay/src/navplay_node.cpp:Beats::toPoseMsg", "App/RtSimulation/src/navplay/src/rtsim_fusion_node.cpp:publishResult"])
p("Units of replayed IMU data",
  "The IMU data the replay hands to the library by way of the fusion node are angle and velocity increments along front, right, down.",
  "all raw samples", "all raw values",
  ["App/RtSimulation/src/navplay/src/navplay_node.cpp:Beats::toImuMsg", "App/RtSimulation/src/navplay/src/AdiHandle.cpp:ADIHandleBase::ConvertRaw2D", "App/RtSimulation/src/navplay/src/rtsim_fusion_node.cpp:OnImuMsgCallBack"])
p("Real-time fusion uses what arrives",
  "The fusion node hands every arriving IMU sample and every usable fix to the library, in order of arrival.",
  "all sequences of arrivals and rounds of the loop", "all schedules",
  ["App/RtSimulation/src/navplay/src/rtsim_fusion_node.cpp:main", "App/RtSimulation/src/navplay/src/rtsim_fusion_node.cpp:OnImuMsgCallBack", "App/RtSimulation/src/navplay/src/rtsim_fusion_node.cpp:OnGnssMsgCallBack"])
p("An update is the weighted compromise",
  "A measurement update yields the one state error with the least misfit, weighted with the inverse covariances, to what was believed (zero error) and to the measurement; the inverse of the covariance grows by what the measurement says, so measurements worked off in a row leave the same covariance in any order.",
  "all numbers of states and measurements, all regular covariances, all measurement matrices, noises and values, all orders", "continuous state space and all orders",
  ["Src/KalmanFilter.hpp:KalmanFilter::Update"])
p("Mounting angles by the tool",
  "The mounting angle tool prints the one set of angles that is best in the least squares sense for the records, whatever their order; for straight travel in one direction the part of the travel that is not forward after turning by them fades with the distance driven, and a sensor mounted along the car gives zero.",
  "all sequences of navigation records", "sequences of any length, all attitudes and velocities",
  ["Tools/ObtainInstallAngle.cpp:main"])
p("The summary of a recording lists what is in it",
  "The summary a loader delivers after a recording was loaded has one line for each data set of which there are records, in ascending order of the identifiers, with its name, its identifier, the number of its records and of its columns, and one line for each error; it is delivered for every recording the loader accepts.",
  "all loader states and file names (lines), all non-empty sequences of records of the registered sets (delivery), all recordings with 133 or more records the header does not describe (refutation)", "a test looks at the summary of one recording; the text is printed into a fixed array whose end is only reached by particular recordings",
  ["Src/Recorder/DataLoader.cpp: DataLoader::GetSummaryString", "Src/Recorder/DataLoader.cpp: DataLoader::AddData", "Src/Recorder/DataLoader.cpp: DataLoader::LoadFile"])
p("The progress of loading a recording ends at 100",
  "While a recording is loaded the progress reported never decreases, and it is 100 when everything was read; before a file was loaded it is 0.",
  "all files (any bytes), all loader states", "a test sees a few files; the claim is about every file, including short, damaged and missing ones",
  ["Src/Recorder/DataLoader.cpp: DataLoader::GetProgress", "Src/Recorder/DataLoader.cpp: DataLoader::LoadFile"])
p("The constraint on sideways motion reduces sideways motion",
  "With the constraint on sideways motion configured and no odometer, every 32nd sample corrects the solution so that the sideways and vertical velocity of the wheel that remains, in units of the configured deviations, is not larger than before; the correction is always defined, and without sideways velocity nothing is corrected, whatever the speed ahead.",
  "all filter states with a valid covariance, all options with non-zero deviations, all samples", "a test drives a few tracks; the claim is about every state and covariance",
  ["Src/DataFusion.cpp: DataFusion::MeasureNHC", "Src/DataFusion.cpp: DataFusion::TimeUpdate", "Src/KalmanFilter.hpp: KalmanFilter::Update"])
p("At rest the velocity is reduced",
  "When the detector says that the unit is at rest and the zero velocity update is configured, the velocity that remains after the correction is not larger than before, and a zero velocity is not corrected.",
  "all filter states with a valid covariance, all options with non-zero deviations", "a test sees a few stops; whether two constraints fall on the same sample depends on the number of samples",
  ["Src/DataFusion.cpp: DataFusion::MeasureZeroVelocity", "Src/DataFusion.cpp: DataFusion::TimeUpdate"])
p("Attitude over a long time",
  "Over any history of samples and corrections whose single turns are less than half a turn, the attitude of the solution is the exact composition of all turns up to the sum of (|v|/2)^8/9000 over the turns v: the error grows at most linearly with their number, and for turns of a fifth of a radian a million samples add less than 3 microradian.",
  "all initial states with a unit attitude quaternion, all histories of samples and corrections with turns below pi", "a test integrates a few trajectories for a limited time; the bound is about every history and length",
  ["Src/InsCore.cpp: Ins::_atti_update", "Src/DataFusion.cpp: DataFusion::_feedBack", "Src/Convert.cpp: Convert::rv_to_quaternion"])
p("The heading error of the evaluation",
  "The heading error the evaluation script reports for a row is between -180 and 180 degrees and is, up to full turns, the heading of the solution minus the heading of the reference, turned steadily the shorter way between its neighbouring rows.",
  "all references with ascending times, headings of any value and number of turns, all rows of the solution within them", "a test compares a few headings; the jumps of 360 degrees can fall on any row of either file",
  ["Tools/ErrorAnalyser.py: ErrorAnalyser.analyse"])
p("The errors of the evaluation",
  "Every row of the solution strictly between the first and last time of the reference, and no other, is compared; its errors are the solution minus the reference interpolated at the same time, positions in metres east, north and up on the ellipsoid; the spatial error is zero for the same place only; the printed rms of errors is their quadratic mean.",
  "all references with ascending times, all solutions", "a test compares a few rows",
  ["Tools/ErrorAnalyser.py: ErrorAnalyser.analyse", "Tools/Earth.py: WGS84"])
p("What a passed check means",
  "When the check of the continuous integration succeeds, 95.44 % of the horizontal and of the spatial errors are within the given limits, up to the width of one bin of the histogram; when it fails one of the two shares is missed, up to the width of a bin.",
  "all solutions, references and limits", "the check is itself the test: whether it can see an error is a statement about all solutions",
  ["Tools/ErrorAnalyser.py: ErrorAnalyser.analyse", "Tools/ErrorAnalyser.py: Error", "Tools/ErrorAnalyse.py", "Tools/Earth.py: WGS84", "ci-test-a15.sh", "ci-test-pos830.sh"])
p("A perfect solution passes the check",
  "A solution that is the reference at all common times passes the check with every positive limit; a solution without common times does not pass.",
  "all references with ascending times and solutions on them, all limits", "as above",
  ["Tools/ErrorAnalyser.py: ErrorAnalyser.analyse", "Tools/ErrorAnalyser.py: Error", "Tools/ErrorAnalyse.py", "Tools/Earth.py: WGS84", "ci-test-a15.sh", "ci-test-pos830.sh"])
p("Corrections keep place and position quaternion in step",
  "A correction leaves the position quaternion in step with the reported latitude and longitude: the slip between them changes, to first order, only in proportion to itself, and one correction of any size applied where there is none tilts the east axis of the quaternion out of the plane of the equator by at most half the product of the northward and eastward angles of the correction over the cosine of the latitude.",
  "all navigation states and corrections", "continuous domain, derivative; the two representations are never compared by the code",
  ["Src/DataFusion.cpp: DataFusion::_feedBack", "Src/Convert.cpp: Convert::qne_to_lla"])
p("One wheel speed for every tenth result",
  "From a file of results with eleven columns (week, time, place, velocity, attitude) the generator of wheel speeds writes one line for every tenth result, beginning with the first: its time, its speed ahead over the scale factor, and its speeds down and to the right.",
  "all result files and their lengths, with and without a final newline", "all lengths of the file; the loop ends by the state of the stream",
  ["Tools/DataGenerator.cpp: main", "Tools/DataGenerator.cpp: operator>>"])
p("The generator reads the result files of the library",
  "Given a result file that the library wrote, the generator of wheel speeds writes lines with the times of results.",
  "all result files of at least six results", "all files and contents",
  ["Tools/DataGenerator.cpp: main", "Tools/DataGenerator.cpp: operator>>", "App/AppCommon/FileIO.cpp: operator<<"])
p("Generated wheel speeds agree with the odometer update",
  "A filter that is where the result says and is given the installation angles and the scale factor of the generator finds nothing to correct in the generated speed.",
  "all states of the filter, results and speeds", "continuous domain",
  ["Tools/DataGenerator.cpp: main", "Tools/DataGenerator.cpp: operator>>", "Src/DataFusion.cpp: DataFusion::MeasureUpdateVel"])
p("Optional states switched off",
  "With every optional state (scale factors, lever arm, odometer scale factor) switched off at compile time the filter is the fifteen-state filter: every history of samples, fixes, speeds and heights gives the same navigation state, covariance and counters.",
  "all histories, options, initial states", "all histories of calls",
  ["Src/DataFusion.cpp: DataFusion", "Src/RgioeDefine.h: STATE_CNT", "Inc/RgioeConfig.h"])
p("Navigation with optional states",
  "A library built with one or more of the optional states goes on navigating after a fix, a speed or a non-holonomic constraint.",
  "all selections with an optional state, all histories", "all histories; undefined behaviour need not show in a test",
  ["Src/DataFusion.cpp: DataFusion", "Src/RgioeDefine.h: STATE_CNT", "Inc/RgioeConfig.h", "Src/DataFusion.cpp: DataFusion::_feedBack"])
p("Pure inertial navigation with optional states",
  "As long as there are only samples and refused fixes and the constraints are off, the navigation state does not depend on the selection of optional states.",
  "all sixteen selections, all such histories, options, initial states", "all histories and selections",
  ["Src/DataFusion.cpp: DataFusion", "Src/RgioeDefine.h: STATE_CNT", "Inc/RgioeConfig.h"])
p("The generator of wheel speeds ends",
  "Whatever file is named, the generator of wheel speeds comes to an end.",
  "all files, existing or not, and all contents", "non-termination is not seen by a finite test; all texts",
  ["Tools/DataGenerator.cpp: main", "Tools/DataGenerator.cpp: operator>>"])
p("The Python functions agree with the library",
  "The earth model and the conversions of Tools/InsCore.py return what the functions of the same name in the library return, for every argument: radii, gravity, rates, ECEF coordinates, matrices, quaternions, Euler angles and rotation vectors. The matrix of a quaternion is the same exactly for quaternions of length one.",
  "all latitudes, longitudes, heights, velocities, angles, quaternions, rotation vectors, matrices", "all real arguments, both implementations",
  ["Tools/InsCore.py: WGS84", "Tools/InsCore.py: rv_to_quaternion", "Src/Convert.cpp", "Src/Earth.cpp"])
p("The attitude of the Python mechanisation stays a rotation",
  "After any number of samples the attitude matrix of the Python mechanisation is a rotation.",
  "all initial states, all sequences of samples, all lengths", "all histories",
  ["Tools/InsCore.py: mechanization_n"])
p("A step of the Python mechanisation returns a new state",
  "mechanization_n leaves the state that is passed to it as it was, so that the state before and the state after can be compared.",
  "all states, samples, memories", "all states and aliasing of the objects",
  ["Tools/InsCore.py: mechanization_n", "Tools/InsCore.py: get_distance"])
p("A unit at rest in the Python mechanisation",
  "A unit at rest keeps its place, velocity and attitude in the Python mechanisation.",
  "all places away from the poles and the antimeridian, all attitudes, all sample intervals of at least 0.1 ms", "all places, attitudes and rates",
  ["Tools/InsCore.py: mechanization_n", "Tools/InsCore.py: NavData"])
p("From earth-centred coordinates to latitude, longitude and height",
  "ecef_to_lla ends without its message and returns finite values; the point they denote is at most 1e-9 m away from the argument. This holds for all points at least 6200 km from the centre, except for those on the axis and on the meridian of 180 degrees.",
  "all points, all latitudes, longitudes and heights above -100 km", "convergence of an iteration for all points of space",
  ["Tools/Earth.py: ecef_to_lla", "Tools/InsCore.py: ecef_to_lla"])
p("The lever arm of the reference",
  "The error analysis moves each reference position by the offset turned from the axes of the vehicle into those of the earth, to within 1e-9 m, unless the moved point lies on the axis of the earth or on the meridian of 180 degrees.",
  "all positions, attitudes, offsets", "all real arguments",
  ["Tools/ErrorAnalyser.py: compensate"])
p("Samples that are not in order in the Python mechanisation",
  "A sample that is not later than the state leaves the Python mechanisation unchanged.",
  "all states, samples, times", "all times",
  ["Tools/InsCore.py: mechanization_n"])
p("Accuracy of the biases without corrections",
  "While no correction arrives (only samples and refused fixes, constraints off), the variance that the filter holds for each component of the gyroscope and accelerometer bias stays what is configured: at most the square of gb_std or ab_std, and at least that square less the share that one sample interval has in the configured correlation time.",
  "every build selection of optional states (for the gyroscopes: those without their scale factors), every initial state, options with positive rate and a correlation time of at least one sample interval, and every history of samples and refused fixes on which the computation is defined", "the variance is the result of one matrix product per sample over histories of any length; a test sees one history",
  "Src/DataFusion.cpp: DataFusion::Initialize, TransferMatrix, TimeUpdate; Src/KalmanFilter.hpp: Predict; Src/RgioeDefine.h")
p("Accuracy of the optional states without corrections",
  "While no correction arrives, the variance of an optional state stays at, or tends to, what is configured: gs_std, as_std and odo_scale_std squared for the scale factors, and the lever arm does not become more accurate.",
  "every consistent selection of optional states, every initial state and options, every history of samples and refused fixes", "long-term behaviour: the difference shows after hours of samples only, and only by comparison with the configured values",
  "Src/DataFusion.cpp: DataFusion::Initialize, TransferMatrix, TimeUpdate; Src/KalmanFilter.hpp: Predict; Src/RgioeDefine.h")
p("Accuracy behind a measurement",
  "Behind a fix the place of the antenna is known, north, east and down, at least as well as the weighted mean of the place known before and of the fix: after any number of fixes without a sample in between the reciprocal of the variance is at least the reciprocal of the variance before plus those of all fixes, so the reported accuracy is neither worse than before nor worse than that of any of the fixes. The same holds for the speed of the wheel behind a wheel speed or the constraint on sideways motion, for the velocity behind a zero velocity update, and for the height behind a barometric height.",
  "all states with a symmetric positive semidefinite covariance, all numbers of fixes with usable modes and positive accuracies, all lever arms and configurations", "continuous state space and any number of fixes",
  ["Src/KalmanFilter.hpp: KalmanFilter::Update", "Src/DataFusion.cpp: DataFusion::MeasureUpdatePos, DataFusion::MeasureUpdateVel, DataFusion::MeasureNHC, DataFusion::MeasureZeroVelocity, DataFusion::MeasureUpdateRelativeHeight, DataFusion::_posH", "Src/rgioe.cpp: rgioe_gnssupdate, rgioe_get_result"])
p("Navigation written by the Python tools",
  "A state written by the Python tools (write2txt, or str) is a line of numbers from which week, time, position, velocity, attitude and biases can be read back to the printed decimals, and the state that NavData makes from that line is the one that was written.",
  "all files of states with finite values; all weeks, all times", "A test writes a few states; that no value runs into the next one or loses its decimals is a statement about all values, and that a time of seven digits joins the week or that biases are dropped is seen only with such values.",
  ["Tools/InsCore.py: write2txt, NavData.__init__, NavData.__str__"])
p("Parameters and distances in the Python tools",
  "The Python tools read a sensor parameter file to the same parameters as the programs, in SI units; the distance of two places they compute is never negative, zero only for the same place, and has north and east parts with the right signs.",
  "all parameter files; all places below the poles", "A test compares a few files and places; the unit of each of twelve parameters and the sign and zero of a distance are statements about all numbers.",
  ["Tools/InsCore.py: ImuPara, get_distance, get_distance_d", "App/AppCommon/Config.cpp: Config::LoadImuPara"])
p("Variances of the filter are conservative",
  "If the errors at the start and the noises are on average at most as large as the filter is told, and the noises uncorrelated with the errors, then behind any sequence of predictions and measurements the mean square of every combination of the remaining errors is at most the variance the filter reports for it; with noises exactly as told it is equal.",
  "all ensembles of runs and weights, all numbers of states and measurements, all matrices, all sequences of predictions and measurements", "A simulation checks a few scenarios within its statistical error; here every ensemble, matrix and sequence is covered.",
  ["Src/KalmanFilter.hpp: KalmanFilter::Predict, KalmanFilter::Update, KalmanFilter::Reset"])
p("Better data never gives a larger variance",
  "Of two filters with the same transition and measurement matrices, the one that starts with smaller or equal variances, is told smaller or equal noises and perhaps gets further measurements holds, for every combination of states, a variance that is at most that of the other.",
  "all numbers of states and measurements, all matrices, all sequences of predictions and measurements", "Unbounded sequences over continuous matrices; the comparison of two runs is no single test case.",
  ["Src/KalmanFilter.hpp: KalmanFilter::Predict, KalmanFilter::Update"])
p("The scripts show the result files",
  "show_sensors.py draws, for each kind of sensor, exactly the times of the lines that have its bit; show_nav.py draws the biases and the odometer scale factor, or time and heading of two files, of every line of a result file that the library or the Python tools wrote.",
  "all texts, all lists of finite results of any length, all heights and bits", "Unbounded files with arbitrary numbers; a picture is no test outcome.",
  ["Tools/show_sensors.py: show_sensors", "Tools/show_nav.py: showBias, nav_compare", "App/AppCommon/FileIO.cpp: operator<<, PvaWriter::Write", "Tools/InsCore.py: write2txt"])
p("The error file of the evaluation",
  "The file that the error analysis writes (target.err.csv) has one row for each row of the solution strictly between the first and the last time of the reference, with week, time and, under the name of each quantity, the error of that quantity.",
  "all solutions and references of any length with ascending times of the reference, both options", "Unbounded files with arbitrary real numbers.",
  ["Tools/ErrorAnalyser.py: ErrorAnalyser.analyse"])
with open("/verif/properties.jsonl","w") as f:
    for x in P: f.write(json.dumps(x)+"\n")
print(len(P))
