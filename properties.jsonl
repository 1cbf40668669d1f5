{"id": "C01", "title": "Table CRC equals the CRC polynomial", "statement": "The checksum the recorder and the loader use (crc32 with its 256-entry lookup table) equals, for every byte string, the bit-by-bit CRC-32 with polynomial 0x04C11DB7, initial value 0xFFFFFFFF, most significant bit first, no reflection and no final xor; the shipped table literal equals what the generator routine produces; both compile-time variants return the same value.", "quantifier": "all byte strings of any length", "why_tests_cant": "256^n inputs; a test compares a few strings", "anchors": ["Src/Recorder/comm_crc.c: crc_table_init, crc32", "Src/Recorder/comm_crc.h"]}
{"id": "C02", "title": "Checksum residue characterises intact data", "statement": "A message followed by four trailer bytes has CRC 0 exactly when the trailer is the big-endian CRC of the message; so the loader's `crc32(frame) == 0` test accepts a frame if and only if its stored checksum is the right one.", "quantifier": "all messages and all four-byte trailers", "why_tests_cant": "unbounded message space and 2^32 trailers per message", "anchors": ["Src/Recorder/comm_crc.c: crc32", "Src/Recorder/Recorder.h: CHECKSUM_RECORDER_CRC32", "Src/Recorder/DataLoader.cpp: DataLoader::AddData, DataLoader::_loadHeader"]}
{"id": "C03", "title": "CRC detects every burst of at most 32 bits", "statement": "If an intact frame is altered only inside a window of at most 32 consecutive bits (any non-zero pattern, any position, any frame length, including a single flipped bit) the checksum test fails.", "quantifier": "all frames, all burst positions and patterns up to 32 bits", "why_tests_cant": "frames are unbounded and there are 2^32 patterns per position", "anchors": ["Src/Recorder/comm_crc.c: crc32", "Src/Recorder/DataLoader.cpp: DataLoader::AddData"]}
{"id": "C04", "title": "Record frame layout", "statement": "Every record written is the packed sequence start mark 0xAA55AA55, message id, time stamp, length, payload, checksum, end mark 0xAA66AA66, little endian; the length field equals the number of bytes of the frame, and the checksum covers everything before it, so that the CRC over all bytes up to and including the checksum is 0.", "quantifier": "all message kinds, time stamps and payload values", "why_tests_cant": "payloads are arbitrary bytes", "anchors": ["Src/Recorder/Recorder.h: RECORDER_MSG, CHECKSUM_RECORDER_CRC32, Recorder::Record", "Src/Recorder/RecorderType.h"]}
{"id": "C05", "title": "File header round trip", "statement": "Loading the header that the recorder writes for any list of registered data sets (with names shorter than the 16-byte field) yields exactly those data sets: same ids, same names, same item names and types, in order.", "quantifier": "all lists of data-set descriptions that fit the header buffer", "why_tests_cant": "unbounded combinations of sets and items", "anchors": ["Src/Recorder/Recorder.cpp: Recorder::WriteHeader", "Src/Recorder/DataLoader.cpp: DataLoader::_loadHeader"]}
{"id": "C06", "title": "Record file round trip", "statement": "For a file made of the header and any sequence of records of the registered sets with any values, the loader terminates, reports OK and returns for every data set exactly the recorded time stamps and values, in recording order, nothing lost and nothing added.", "quantifier": "all record sequences and all values", "why_tests_cant": "sequences are unbounded, payload bytes may mimic marks", "anchors": ["Src/Recorder/Recorder.h: Recorder::Record", "Src/Recorder/DataLoader.cpp: DataLoader::LoadFile, DataLoader::AddData"]}
{"id": "C07", "title": "The loader terminates on every file", "statement": "LoadFile returns for every file contents.", "quantifier": "all file contents", "why_tests_cant": "termination over all inputs cannot be tested", "anchors": ["Src/Recorder/DataLoader.cpp: DataLoader::LoadFile, DataLoader::AddData"]}
{"id": "C08", "title": "The loader never reads outside the file buffer", "statement": "For every file contents LoadFile only reads bytes of the file.", "quantifier": "all file contents", "why_tests_cant": "memory safety over all inputs", "anchors": ["Src/Recorder/DataLoader.cpp: DataLoader::LoadFile, DataLoader::AddData, DataLoader::_loadHeader"]}
{"id": "C09", "title": "Corrupted records are never delivered", "statement": "A value delivered by the loader always stems from a byte range of the file that starts with the start mark, has the length its own length field says and passes the checksum; a record corrupted by a burst of at most 32 bits in its id, time stamp, payload or checksum is not delivered.", "quantifier": "all files, all corruptions", "why_tests_cant": "unbounded files and corruptions", "anchors": ["Src/Recorder/DataLoader.cpp: DataLoader::AddData, DataLoader::LoadFile"]}
{"id": "C10", "title": "Columns of a loaded data set stay aligned", "statement": "After loading any file, all columns of one data set have the same number of entries as its time column.", "quantifier": "all file contents on which loading returns", "why_tests_cant": "invariant over arbitrary inputs", "anchors": ["Src/Recorder/DataLoader.cpp: DataLoader::AddData"]}
{"id": "C11", "title": "Header failure reason is reported", "statement": "When the header is unusable the loader's error code tells which check failed (no start mark, checksum failure, missing end mark).", "quantifier": "all file contents", "why_tests_cant": "all malformed headers", "anchors": ["Src/Recorder/DataLoader.cpp: DataLoader::LoadFile, DataLoader::_loadHeader", "Src/Recorder/DataLoader.h"]}
{"id": "C12", "title": "Filter status only moves forward", "statement": "Between two initialisations the status returned by rgioe_get_status never goes back in INIT, ALIGN, ATTITUDE, NAVIGATION, NAVIGATION is never left, and ERROR is never reported.", "quantifier": "all histories of API calls with all inputs", "why_tests_cant": "histories are unbounded", "anchors": ["Src/rgioe.cpp: rgioe_timeupdate, rgioe_gnssupdate, rgioe_get_status"]}
{"id": "C13", "title": "Navigation only after alignment or given state", "statement": "The status is NAVIGATION only if the filter was initialised with a given navigation state, or an IMU sample found the unit static (levelling) and afterwards a GNSS displacement above the velocity threshold provided the heading.", "quantifier": "all histories of API calls", "why_tests_cant": "histories are unbounded", "anchors": ["Src/rgioe.cpp: rgioe_timeupdate", "Src/Alignment.cpp: AlignMoving::Update, AlignMoving::alignFinished"]}
{"id": "C14", "title": "NULL samples are harmless", "statement": "rgioe_timeupdate and rgioe_gnssupdate with a NULL sample return NULL_INPUT and change nothing observable, in every state.", "quantifier": "all states", "why_tests_cant": "all reachable states", "anchors": ["Src/rgioe.cpp: rgioe_timeupdate, rgioe_gnssupdate"]}
{"id": "C15", "title": "Only IMU samples advance the status", "statement": "rgioe_gnssupdate never changes the status; GNSS samples that arrive before the first IMU sample have no effect at all.", "quantifier": "all states and samples", "why_tests_cant": "all reachable states", "anchors": ["Src/rgioe.cpp: rgioe_gnssupdate"]}
{"id": "C16", "title": "Read-outs are gated by status and have no side effects", "statement": "The get functions never change later behaviour; before NAVIGATION, position and velocity are not delivered by rgioe_get_result; in NAVIGATION it delivers the filter state with angles in degrees.", "quantifier": "all states", "why_tests_cant": "all reachable states", "anchors": ["Src/rgioe.cpp: rgioe_get_atti, rgioe_get_pos, rgioe_get_vel, rgioe_get_result", "Src/DataFusion.cpp: DataFusion::Output"]}
{"id": "C17", "title": "Position accuracy read-out", "statement": "The standard deviation that rgioe_get_pos returns is the position standard deviation of the solution.", "quantifier": "all states", "why_tests_cant": "all reachable states", "anchors": ["Src/rgioe.cpp: rgioe_get_pos"]}
{"id": "C18", "title": "Initialisation is safe and starts afresh", "statement": "rgioe_init accepts a NULL option pointer (default options), rejects a missing initial state with FAULT_CONFIG, and after it the status is INIT whatever happened before.", "quantifier": "all prior histories and arguments", "why_tests_cant": "histories are unbounded", "anchors": ["Src/rgioe.cpp: rgioe_init"]}
{"id": "C19", "title": "Covariance stays symmetric", "statement": "After any history of samples the filter covariance is a symmetric matrix.", "quantifier": "all histories of samples", "why_tests_cant": "unbounded histories of 15x15 real matrices", "anchors": ["Src/KalmanFilter.hpp: KalmanFilter::Predict, KalmanFilter::Update", "Src/DataFusion.cpp: DataFusion::TimeUpdate"]}
{"id": "C20", "title": "Kalman steps keep the covariance positive semidefinite", "statement": "Predict with a positive semidefinite process noise and Update with any measurement whose innovation covariance is invertible keep a positive semidefinite covariance positive semidefinite; with positive definite measurement noise the innovation covariance is always invertible, so no update divides by zero.", "quantifier": "all dimensions, covariances, transition and measurement matrices", "why_tests_cant": "continuous state space", "anchors": ["Src/KalmanFilter.hpp: KalmanFilter::Predict, KalmanFilter::Update"]}
{"id": "C21", "title": "Measurements never increase uncertainty", "statement": "After Update the variance of every linear combination of the states is at most what it was before, and the gain used is optimal: no other gain gives a smaller variance for any linear combination.", "quantifier": "all covariances, measurement matrices, noises and gains", "why_tests_cant": "continuous state space", "anchors": ["Src/KalmanFilter.hpp: KalmanFilter::Update"]}
{"id": "C22", "title": "Covariance stays positive semidefinite in the running filter", "statement": "After any history of samples the covariance of the running filter is positive semidefinite, so that reported standard deviations are real numbers.", "quantifier": "all histories of samples", "why_tests_cant": "unbounded histories", "anchors": ["Src/DataFusion.cpp: DataFusion::TimeUpdate, DataFusion::Initialize", "Src/KalmanFilter.hpp"]}
{"id": "C23", "title": "A measurement correction is fed back completely", "statement": "After a measurement update the estimated error is fed back in equal parts over the following IMU epochs, and if no new measurement arrives before the last part the parts add up to exactly the estimated error; bias estimates therefore move by exactly the estimated bias error.", "quantifier": "all estimates, all epochs counts", "why_tests_cant": "unbounded epochs and continuous values", "anchors": ["Src/DataFusion.cpp: DataFusion::TimeUpdate, DataFusion::_feedBack, UpdateMonitor"]}
{"id": "C24", "title": "No measurement is lost within an epoch", "statement": "If several measurements are processed before the next IMU epoch, the correction fed back accounts for all of them.", "quantifier": "all pairs of measurements", "why_tests_cant": "continuous state space", "anchors": ["Src/KalmanFilter.hpp: KalmanFilter::Update", "Src/DataFusion.cpp: DataFusion::TimeUpdate"]}
{"id": "C25", "title": "Rejected GNSS fixes do not disturb the filter", "statement": "A GNSS sample whose mode is not an accepted fix type changes neither the navigation state nor covariance nor pending corrections, clears the GNSS flag of the output and marks the mode invalid.", "quantifier": "all states and samples", "why_tests_cant": "continuous state space", "anchors": ["Src/DataFusion.cpp: DataFusion::GnssCheck, DataFusion::MeasureUpdatePos"]}
{"id": "C26", "title": "Constraint updates follow the configured schedule", "statement": "Zero-velocity updates are only applied when enabled and the unit is detected static, non-holonomic updates only when enabled without odometer, on one in 32 epochs; the output sensor flags say which were applied in the last eligible epoch.", "quantifier": "all histories and configurations", "why_tests_cant": "unbounded histories", "anchors": ["Src/DataFusion.cpp: DataFusion::TimeUpdate, DataFusion::MeasureZeroVelocity, DataFusion::MeasureNHC"]}
{"id": "C27", "title": "Filter state layout is consistent", "statement": "For every compile-time selection of augmented states the blocks of the error state are disjoint, lie inside the state vector and cover it completely.", "quantifier": "all selections of the compile-time switches", "why_tests_cant": "each selection is a separate build", "anchors": ["Src/RgioeDefine.h"]}
{"id": "C28", "title": "Rotation-vector quaternions are rotations", "statement": "The quaternion computed from a rotation vector is exactly unit for the closed form branch, and for the series branch has norm close to 1 with an explicit bound; it agrees with the exact rotation within that bound.", "quantifier": "all rotation vectors", "why_tests_cant": "continuous domain", "anchors": ["Src/Convert.cpp: Convert::rv_to_quaternion"]}
{"id": "C29", "title": "Quaternion to direction cosine matrix gives a rotation", "statement": "For every unit quaternion the direction cosine matrix is orthogonal with determinant 1, composition of quaternions is the product of matrices.", "quantifier": "all unit quaternions", "why_tests_cant": "continuous domain", "anchors": ["Src/Convert.cpp: Convert::quaternion_to_dcm"]}
{"id": "C30", "title": "Euler conversions agree", "statement": "For all attitudes, converting Euler angles to a quaternion and then to a matrix gives the same matrix as the direct conversion, which is orthogonal.", "quantifier": "all angle triples", "why_tests_cant": "continuous domain", "anchors": ["Src/Convert.cpp: Convert::euler_to_quaternion, Convert::euler_to_dcm"]}
{"id": "C31", "title": "Euler round trip", "statement": "Euler angles to matrix and back returns the same roll, pitch and heading (heading in [0, 2 pi) or the range the code uses) for all attitudes away from the vertical, and the conversion back always yields numbers.", "quantifier": "all roll, pitch, heading", "why_tests_cant": "continuous domain", "anchors": ["Src/Convert.cpp: Convert::dcm_to_euler, Convert::euler_to_dcm"]}
{"id": "C32", "title": "Position quaternion round trip", "statement": "Latitude and longitude to position quaternion and back is the identity for all points except the poles; the quaternion is unit and its matrix equals the directly computed position matrix.", "quantifier": "all latitudes and longitudes", "why_tests_cant": "continuous domain", "anchors": ["Src/Convert.cpp: Convert::lla_to_qne, Convert::qne_to_lla, Convert::lla_to_cne"]}
{"id": "C33", "title": "Geodetic to Cartesian lies on the ellipsoid", "statement": "The Cartesian coordinates of a geodetic position at height 0 satisfy the ellipsoid equation, and a height change moves the point along the ellipsoid normal by exactly that height.", "quantifier": "all latitudes, longitudes, heights", "why_tests_cant": "continuous domain", "anchors": ["Src/Convert.cpp: Convert::lla_to_xyz", "Src/Earth.cpp"]}
{"id": "C34", "title": "Earth model is well defined", "statement": "For all latitudes the radii of curvature are finite, positive and ordered (meridian radius at most transverse radius) and lie between explicit bounds; normal gravity is positive and increases from equator to pole at zero height.", "quantifier": "all latitudes", "why_tests_cant": "continuous domain", "anchors": ["Src/Earth.cpp: Earth::RM, Earth::RN, Earth::Update", "Src/Earth.h"]}
{"id": "C35", "title": "Displacement between positions", "statement": "The displacement function returns (north, east, down) distance from the first to the second point: zero exactly for equal points, with the sign of the latitude and longitude differences, east displacement not depending on anything but the latitude and the longitude difference.", "quantifier": "all pairs of points", "why_tests_cant": "continuous domain", "anchors": ["Src/Earth.cpp: Earth::distance, Earth::dN, Earth::dE"]}
{"id": "C36", "title": "Attitude stays a rotation through any history", "statement": "After any history of IMU samples and corrections the attitude quaternion has norm 1, the attitude matrix is the orthogonal matrix of that quaternion and the reported Euler angles are those of that matrix.", "quantifier": "all histories of samples", "why_tests_cant": "unbounded histories, continuous values", "anchors": ["Src/InsCore.cpp: InsMechanization", "Src/DataFusion.cpp: DataFusion::_feedBack", "Src/Convert.cpp"]}
{"id": "C37", "title": "Static detector", "statement": "The static flag is raised exactly when the acceleration spread has been at or below the threshold on more than the required number of consecutive latest samples; one sample above the threshold clears it.", "quantifier": "all sample sequences", "why_tests_cant": "unbounded sequences", "anchors": ["Src/StaticDetect.cpp: IMUSmooth::Update, IMUSmooth::isStatic"]}
{"id": "C38", "title": "Smoothed IMU output is a weighted mean", "statement": "The smoothed IMU output always lies between the smallest and largest sample seen, equals the arithmetic mean during the first window, variances are never negative, and a constant signal has zero spread.", "quantifier": "all sample sequences", "why_tests_cant": "unbounded sequences", "anchors": ["Src/StaticDetect.cpp: IMUSmooth::Update"]}
{"id": "C39", "title": "Outage windows", "statement": "With a valid configuration a time is reported as outage exactly when it lies in one of the periodic windows [start + k step, start + k step + length] whose beginning is before the stop time; with a disabled configuration never; construction terminates.", "quantifier": "all configurations and times", "why_tests_cant": "continuous domain, unbounded number of windows", "anchors": ["Src/Outage.cpp: Outage::Outage, Outage::IsOutage"]}
{"id": "C40", "title": "Sensor streams are merged in time order", "statement": "The data manager delivers the samples of all input streams in non-decreasing time order (for time-ordered streams), keeps the order of each stream, and delivers IMU before GNSS at equal times; every sample is delivered exactly once until the first stream is exhausted.", "quantifier": "all contents of the input files", "why_tests_cant": "unbounded streams and interleavings", "anchors": ["App/PostDataFusion/DataManager.h", "App/PostDataFusion/DataManager.cpp: DataManager::GetNextData"]}
{"id": "C41", "title": "All recorded data is delivered", "statement": "All samples of all input streams are delivered before the end is reported.", "quantifier": "all contents of the input files", "why_tests_cant": "unbounded streams", "anchors": ["App/PostDataFusion/DataManager.cpp: DataManager::GetNextData"]}
{"id": "C42", "title": "Result writer writes every result in order", "statement": "The background result writer writes every queued solution exactly once in order, under every thread schedule, provided the writer is stopped after the last one was queued.", "quantifier": "all thread schedules and queued sequences", "why_tests_cant": "schedules cannot be enumerated", "anchors": ["App/AppCommon/FileIO.cpp: NavWriter"]}
{"id": "C43", "title": "Configuration file round trip", "statement": "A configuration that is saved can be loaded again and yields the same configuration.", "quantifier": "all configurations", "why_tests_cant": "unbounded configurations", "anchors": ["App/AppCommon/Config.cpp: Config::SaveTo, Config::LoadFrom"]}
{"id": "C44", "title": "Configuration unit conversions", "statement": "The options derived from a configuration are in SI units: angles in radians, and the conversion of a value in degrees back to degrees is the value in the file.", "quantifier": "all configurations", "why_tests_cant": "continuous domain", "anchors": ["App/AppCommon/Config.cpp: Config::GetOption, LoadImuPara"]}
{"id": "C45", "title": "AHRS attitude stays a rotation and its integral correction is bounded", "statement": "After any history of updates the attitude quaternion of the attitude-only filter has norm 1 and each component of its integral correction is at most one degree in magnitude.", "quantifier": "all histories of samples", "why_tests_cant": "unbounded histories", "anchors": ["Src/AttiAhrs.cpp: AttiAhrs::Update"]}
{"id": "C46", "title": "Raw frame decoding", "statement": "The raw velocity bytes are decoded as big-endian two's complement in thousandths for all byte pairs; the raw IMU checksum rejects corrupted frames.", "quantifier": "all byte frames", "why_tests_cant": "2^160 frames", "anchors": ["App/RtSimulation/src/navplay/src/navplay_node.cpp: ConvertVelRawToFloat", "App/RtSimulation/src/navplay/src/AdiHandle.cpp: CheckSum"]}
{"id": "C47", "title": "A stationary unit stays where it is", "statement": "If the IMU delivers exactly the specific force and the rotation a stationary unit senses, mechanisation leaves velocity zero and the position unchanged.", "quantifier": "all positions and attitudes", "why_tests_cant": "continuous domain", "anchors": ["Src/InsCore.cpp: InsMechanization::ForwardMechanization"]}
{"id": "C48", "title": "Barometric height updates", "statement": "Relative height measurements are referenced to the GNSS height at the first sample, and no update happens before a reference is available and five samples have been seen.", "quantifier": "all histories", "why_tests_cant": "unbounded histories", "anchors": ["Src/DataFusion.cpp: DataFusion::RelativeHeight"]}
{"id": "C49", "title": "Interrupted recordings stay readable", "statement": "If the recording process stops at any moment, so that the file ends inside a record, the loader returns the complete records in front of the cut and reads nothing outside the file.", "quantifier": "all recordings and all crash points", "why_tests_cant": "every byte offset of every recording is a crash point", "anchors": ["Src/Recorder/DataLoader.cpp: DataLoader::LoadFile"]}
{"id": "C50", "title": "Loading a second file shows that file", "statement": "After LoadFile on a loader that was used before, the loader shows the data of the new file only; a file that cannot be opened is reported by the error code.", "quantifier": "all sequences of loaded files", "why_tests_cant": "histories of loads are unbounded", "anchors": ["Src/Recorder/DataLoader.cpp: DataLoader::LoadFile"]}
{"id": "C51", "title": "Integer items are shown exactly", "statement": "An integer item of a record (any of the eight integer types) is shown by the loader as the number that was recorded.", "quantifier": "all integer types and values", "why_tests_cant": "2^64 values per type", "anchors": ["Src/Recorder/DataLoader.cpp: structMember2Float"]}
{"id": "C52", "title": "Processing starts at the configured time", "statement": "After MoveToTime(t) the next sample delivered is the first one with time at or after t.", "quantifier": "all streams and start times", "why_tests_cant": "unbounded streams", "anchors": ["App/PostDataFusion/DataManager.cpp: DataManager::MoveToTime"]}
{"id": "C53", "title": "Sample interval statistics", "statement": "The sample counter, mean interval and largest interval that the sequence checker reports are those of the delivered samples.", "quantifier": "all sample sequences with positive times", "why_tests_cant": "unbounded sequences", "anchors": ["App/PostDataFusion/DataManager.cpp: DataSeqCheck::Update"]}
{"id": "C54", "title": "Progress indication", "statement": "GetProgress is the percentage of delivered IMU samples, never more than 100, and 100 exactly when all have been delivered; it is defined for every set of inputs.", "quantifier": "all streams and reading positions", "why_tests_cant": "unbounded streams", "anchors": ["App/PostDataFusion/DataManager.cpp: DataManager::GetProgress"]}
{"id": "C55", "title": "Binary IMU files give one sample per record", "statement": "Reading a binary IMU file delivers exactly one sample per complete 56-byte record, in order, with the recorded values, and ends.", "quantifier": "all file contents", "why_tests_cant": "all byte strings", "anchors": ["App/AppCommon/FileIO.cpp: IMUReader::ReadNext", "App/PostDataFusion/DataManager.cpp: DataManager::AddFile"]}
{"id": "C56", "title": "Text IMU files give one sample per line", "statement": "Reading a text IMU file delivers exactly one sample per line of seven numbers, in order, and ends for every file contents.", "quantifier": "all text files", "why_tests_cant": "all texts", "anchors": ["App/AppCommon/FileIO.cpp: IMUReader::ReadNext"]}
{"id": "C57", "title": "GNSS files give one fix per line", "statement": "Reading a GNSS text file in any supported format delivers the fix of every line, in order; a line without a usable fix is skipped and does not hide the fixes behind it.", "quantifier": "all files in the supported formats", "why_tests_cant": "all texts", "anchors": ["App/AppCommon/FileIO.cpp: GnssReader::ReadNext", "App/PostDataFusion/DataManager.cpp: DataManager::AddFile"]}
{"id": "C58", "title": "Fix quality reaches the filter", "statement": "The quality of a fix read from a file is what the filter sees, so that a fix marked invalid is rejected by it.", "quantifier": "all fixes", "why_tests_cant": "all fix lines", "anchors": ["App/PostDataFusion/DataManager.cpp: GnssData_t::toRgioeData", "Src/DataFusion.cpp: DataFusion::GnssCheck"]}
{"id": "C59", "title": "IMU axes conversion is a rotation", "statement": "The conversion from right-front-up to front-right-down axes is a proper rotation and its own inverse.", "quantifier": "all vectors", "why_tests_cant": "continuous domain", "anchors": ["App/AppCommon/FileIO.cpp: IMUReader::ReadNext"]}
{"id": "C60", "title": "Configured values take effect", "statement": "Every setting of the configuration that concerns the filter is part of the options the filter gets.", "quantifier": "all configurations", "why_tests_cant": "all configurations", "anchors": ["App/AppCommon/Config.cpp: Config::GetOption"]}
{"id": "C61", "title": "Rotation vector to matrix agrees with the quaternion", "statement": "The direction cosine matrix computed from a rotation vector is the matrix of the rotation the vector stands for, for every rotation vector including the zero vector.", "quantifier": "all rotation vectors", "why_tests_cant": "continuous domain", "anchors": ["Src/Convert.cpp: Convert::rv_to_DCM"]}
{"id": "C62", "title": "First fix is weighted by the accuracies", "statement": "The first fix after start, with the antenna at the centre of the IMU, yields a correction whose position part is on each axis p/(p+r) of the difference between position and fix (p: variance of the initial position, r: variance of the fix) and nothing else; a fix straight above the unit moves the height by exactly this share over the distribution window.", "quantifier": "all initial states, options and valid fixes", "why_tests_cant": "continuous domain", "anchors": ["Src/DataFusion.cpp: DataFusion::MeasureUpdatePos", "Src/KalmanFilter.cpp"]}
{"id": "C63", "title": "Position innovation is the antenna place minus the fix", "statement": "The difference the filter works with is the place of the antenna, computed from position, attitude and lever arm, minus the fix, in metres along the local axes.", "quantifier": "all reachable filter states, lever arms and fixes", "why_tests_cant": "continuous domain, unbounded histories", "anchors": ["Src/DataFusion.cpp: DataFusion::_posZ"]}
{"id": "C64", "title": "An unfinished correction survives the next measurement", "statement": "The part of a correction that has not been applied yet when the next measurement comes in is still applied.", "quantifier": "all histories of measurements and samples", "why_tests_cant": "every interleaving of measurements with the distribution window", "anchors": ["Src/DataFusion.cpp: DataFusion::MeasureUpdate", "Src/DataFusion.cpp: DataFusion::_timeUpdateIdx"]}
{"id": "C65", "title": "Corrections act on what they name", "statement": "A correction in height, velocity or biases changes exactly height, velocity or biases and leaves latitude, longitude and attitude.", "quantifier": "all states and corrections", "why_tests_cant": "continuous domain", "anchors": ["Src/DataFusion.cpp: DataFusion::_feedBack"]}
{"id": "C66", "title": "Motion constraints leave a resting unit at rest", "statement": "Zero-velocity updates and non-holonomic constraints do not move a unit that is at rest, however long it rests.", "quantifier": "all resting places, attitudes and sample sequences", "why_tests_cant": "unbounded histories", "anchors": ["Src/DataFusion.cpp: DataFusion::MeasureZeroVelocity", "Src/DataFusion.cpp: DataFusion::MeasureNHC"]}
{"id": "C67", "title": "Zero angular rate update respects the rotation of the earth", "statement": "The zero angular rate update of a unit at rest does not attribute the rotation of the earth to the gyroscope bias.", "quantifier": "all states at rest", "why_tests_cant": "continuous domain", "anchors": ["Src/DataFusion.cpp: DataFusion::MeasureZeroVelocity"]}
{"id": "C68", "title": "Devices do not influence each other", "statement": "Two devices used in one process, with calls in any order, each give the answers they would give alone, although they share the global earth parameters.", "quantifier": "all pairs of devices and all interleavings of calls", "why_tests_cant": "every interleaving", "anchors": ["Src/rgioe.cpp", "Src/Earth.h: Earth::Instance"]}
{"id": "C69", "title": "A given state is kept by a resting unit", "statement": "A device initialised with a given position and attitude and zero velocity, fed with samples of a unit at rest there, is in NAVIGATION after the first sample and keeps answering the given position and zero velocity however many samples follow.", "quantifier": "all places, attitudes, options and numbers of samples", "why_tests_cant": "unbounded histories, continuous domain", "anchors": ["Src/rgioe.cpp: rgioe_init, rgioe_timeupdate, rgioe_get_pos, rgioe_get_vel"]}
{"id": "C70", "title": "Levelling recovers roll and pitch", "statement": "After levelling, the reported roll and pitch are those of the resting unit.", "quantifier": "all attitudes, places and sample sequences of a resting unit", "why_tests_cant": "continuous domain", "anchors": ["Src/Alignment.cpp: AlignMoving::Update(imu)"]}
{"id": "C71", "title": "Installation angle is compensated once", "statement": "The configured installation angle about the vertical axis is applied once to the heading found by the alignment.", "quantifier": "all sequences of fixes during alignment", "why_tests_cant": "unbounded histories", "anchors": ["Src/Alignment.cpp: AlignMoving::Update(gnss)"]}
{"id": "C72", "title": "Attitude accuracy after alignment", "statement": "A more accurate fix leads to an attitude accuracy after alignment that is not worse.", "quantifier": "all fixes", "why_tests_cant": "continuous domain", "anchors": ["Src/Alignment.cpp: AlignMoving::Update(gnss)"]}
{"id": "C73", "title": "Velocity after alignment", "statement": "The velocity the filter starts with after alignment is the velocity of the motion between the fixes (displacement divided by time, third component downwards) and depends on nothing but the inputs since initialisation.", "quantifier": "all histories that lead to NAVIGATION by alignment", "why_tests_cant": "continuous domain; uninitialised memory", "anchors": ["Src/Alignment.cpp: AlignMoving::Update(gnss)", "Src/Alignment.h: AlignMoving"]}
{"id": "C74", "title": "GNSS can be switched off", "statement": "With the option enable_gnss = 0 the library makes no use of fixes.", "quantifier": "all histories", "why_tests_cant": "unbounded histories", "anchors": ["Src/RgioeDataType.h: RgioeOption", "Src/rgioe.cpp: rgioe_gnssupdate"]}
{"id": "C75", "title": "Corrections move the solution back by the estimated errors", "statement": "Feeding back an estimate of position, velocity and attitude errors moves place and velocity, seen in earth-fixed axes, by minus the estimated errors in metres and metres per second, and turns the unit by the estimated attitude error, to first order; the only further part is proportional to the slip between position quaternion and reported place, is given exactly, and is zero where the quaternion was made from the place.", "quantifier": "all navigation states and estimates", "why_tests_cant": "continuous domain, derivative", "anchors": ["Src/DataFusion.cpp: DataFusion::_feedBack"]}
{"id": "C76", "title": "Design matrix of a fix fits its innovation", "statement": "The matrix handed to the Kalman filter with a fix is the sensitivity of the innovation to the corrections the library feeds back, so that an estimate that explains the innovation makes it vanish to first order, up to the lever arm times the turn of the local axes (bounded by lever arm times correction over earth radius) and the part proportional to the slip of C75.", "quantifier": "all navigation states, lever arms, fixes and estimates", "why_tests_cant": "continuous domain, derivative", "anchors": ["Src/DataFusion.cpp: DataFusion::_posH, DataFusion::_posZ, DataFusion::_feedBack"]}
{"id": "C77", "title": "Design matrices of odometer and motion constraints fit their innovations", "statement": "The matrices handed to the Kalman filter with wheel velocities, non-holonomic constraints and zero velocities are the sensitivities of the innovations to the corrections the library feeds back, up to the turn of the local axes times velocity, earth rate and lever arm.", "quantifier": "all navigation states, lever arms, installation angles and estimates", "why_tests_cant": "continuous domain, derivative", "anchors": ["Src/DataFusion.cpp: DataFusion::MeasureUpdateVel, DataFusion::MeasureNHC, DataFusion::MeasureZeroVelocity"]}
{"id": "C78", "title": "Errors are predicted by the psi angle equations", "statement": "From one sample to the next the estimated errors follow the strapdown error equations (Coriolis and transport terms, gravity gradient, specific force times attitude error, biases through the attitude, Gauss-Markov biases) with the state after the sample.", "quantifier": "all states, samples, options and estimates", "why_tests_cant": "continuous domain", "anchors": ["Src/DataFusion.cpp: DataFusion::TransferMatrix, DataFusion::TimeUpdate"]}
{"id": "C79", "title": "Rewinding delivers the same data again", "statement": "After Reset the data source delivers the same samples in the same order as a source that was freshly opened, wherever it stood before, and its statistics describe what it has delivered since.", "quantifier": "all files, configurations and reading positions", "why_tests_cant": "unbounded histories and file contents", "anchors": ["App/FileIO/DataLoader.cpp: DataManager::Reset, DataManager::GetNext"]}
{"id": "C80", "title": "One result per sample", "statement": "The post-processing program ends for every pair of files and hands one result to the writer for every sample it takes; in NAVIGATION it is what rgioe_get_result answers after exactly the samples so far.", "quantifier": "all files, configurations and samples", "why_tests_cant": "unbounded histories", "anchors": ["App/PostDataFusion/PostDataFusion.cpp: main"]}
{"id": "C81", "title": "Simulated outages hide fixes completely", "statement": "With simulated outages the program behaves as if the fixes inside the windows were not in the file: same device and same results for the other samples; a hidden fix repeats the result before it. Without the option every fix is used.", "quantifier": "all files, outage plans and configurations", "why_tests_cant": "unbounded histories", "anchors": ["App/PostDataFusion/PostDataFusion.cpp: main", "Src/Outage.cpp: Outage::IsOutage"]}
{"id": "C82", "title": "Results depend on the input only", "statement": "What the post-processing program writes is determined by the files and the configuration.", "quantifier": "all files, configurations and memory contents", "why_tests_cant": "uninitialised memory", "anchors": ["App/PostDataFusion/PostDataFusion.cpp: main", "Src/rgioe.cpp: rgioe_get_result"]}
{"id": "C83", "title": "Time stamps of results", "statement": "Every navigation result carries the time of the last IMU sample consumed, also after a fix, and the times of navigation results never go back when those of the IMU samples do not.", "quantifier": "all files, configurations and samples", "why_tests_cant": "unbounded histories", "anchors": ["App/PostDataFusion/PostDataFusion.cpp: main", "Src/rgioe.cpp: rgioe_get_result", "Src/InsCore.cpp: Ins::ForwardMechanization"]}
{"id": "C84", "title": "Sensor flags of a result", "statement": "The sensor flags and the GNSS mode reported with a result tell which sensors contributed to it since the previous result: the IMU flag is set, the GNSS flag only if a fix was used, the odometer flag only if a wheel speed was used, the zero-velocity flag only if the unit was found to be static.", "quantifier": "all histories of IMU samples, fixes, wheel speeds and heights", "why_tests_cant": "unbounded histories", "anchors": ["Src/DataFusion.cpp: DataFusion::TimeUpdate, MeasureUpdatePos, MeasureUpdateVel", "Src/rgioe.cpp: rgioe_get_result"]}
{"id": "C85", "title": "Odometer options", "statement": "Through the C interface, switching on the odometer and setting its accuracy and scale factor makes wheel speeds support the solution, and the reported scale factor is an estimate.", "quantifier": "all histories of calls of the C interface with all options", "why_tests_cant": "unbounded histories", "anchors": ["Inc/rgioe.h", "Src/rgioe.cpp: rgioe_init", "Src/DataFusion.cpp: DataFusion::Initialize, TimeUpdate, MeasureUpdateVel"]}
{"id": "C86", "title": "Innovation test", "statement": "The filter tests every measurement with the chi-square statistic of the innovation (weighted with the inverse of its covariance), reports it, and does not use a measurement that fails.", "quantifier": "all covariances, design matrices, noises and measurements of every dimension", "why_tests_cant": "continuous inputs, all dimensions", "anchors": ["Src/KalmanFilter.hpp: KalmanFilter::Update, GetX2", "Src/DataFusion.cpp: DataFusion::MeasureUpdatePos"]}
{"id": "C87", "title": "Strapdown equations", "statement": "As the sampling interval gets small, the mechanisation follows the equations of motion on the rotating ellipsoid: the place moves with the velocity, the velocity changes by the specific force (freed from bias and scale factor) plus gravity minus the Coriolis acceleration, and the attitude turns with the measured rate (freed from bias and scale factor) less the rotation of the earth.", "quantifier": "all states away from the poles and the antimeridian, all velocities, attitudes, biases, scale factors, all measured forces and rates that settle as the interval shrinks", "why_tests_cant": "limits over continuous inputs", "anchors": ["Src/InsCore.cpp: Ins::ForwardMechanization, _extrapolate, _velocity_update, _position_update, _atti_update, CompensateIMU", "Src/Earth.cpp", "Src/Convert.cpp"]}
{"id": "C88", "title": "Coning and sculling", "statement": "When angular rate and specific force change linearly in time, the corrections for coning and sculling are exact: the attitude turns by the rotation vector of Bortz' equation to second order, and velocity and place come out as for a sample without rotation whose impulse is the integral of the turned force.", "quantifier": "all linear courses of rate and force over two sampling intervals, all intervals, all states without bias and scale factor", "why_tests_cant": "continuous inputs", "anchors": ["Src/Convert.cpp: Convert::gyro_to_rv", "Src/InsCore.cpp: Ins::_velocity_update, _atti_update"]}
{"id": "C89", "title": "Result file", "statement": "The result file has an entry for every result in order. In text format it is a line of thirteen words that read back as week, time, latitude, longitude, height, velocity, attitude, mode and flags, each to the printed number of decimals; in binary format it is the structure.", "quantifier": "all lists of results with finite numbers, all values of the format option", "why_tests_cant": "all numbers with all signs and roundings", "anchors": ["App/AppCommon/FileIO.cpp: operator<<(ostream&, NavOutput), PvaWriter::Write", "App/AppCommon/FileIO.h: NavFileFormat"]}
{"id": "C90", "title": "Formats of the queueing writer", "statement": "The queueing writer and the direct writer write the same file for the same results and format.", "quantifier": "all lists of results, both formats", "why_tests_cant": "all results", "anchors": ["App/AppCommon/FileIO.cpp: NavWriter::th_write_nav, PvaWriter::Write", "App/AppCommon/FileIO.h: NavFileFormat"]}
{"id": "C91", "title": "CSV export", "statement": "The exported file has a header with the names of the items and a row for every record, from which the recorded times and values can be read back.", "quantifier": "all data sets with finite values and names without commas", "why_tests_cant": "all numbers", "anchors": ["Src/Recorder/DataLoader.cpp: DataLoaderCsvWriter::Save2Csv"]}
{"id": "C92", "title": "Names of recordings", "statement": "The name of a recording tells the date and time of its creation; names of later recordings of a program sort behind those of earlier ones.", "quantifier": "all program names, all dates and times from 1900 to 9999", "why_tests_cant": "all dates", "anchors": ["Src/Recorder/Recorder.cpp: Recorder::Initialize", "Src/Recorder/Recorder.h: rcd_filename"]}
{"id": "C93", "title": "Installation angles", "statement": "The matrix estimated from body velocities is a rotation that turns the direction of travel in the body frame to the forward axis of the vehicle; it is determined by the observations.", "quantifier": "all sequences of observations with and without wheel speed, every singular value decomposition of the sums", "why_tests_cant": "all velocities; the decomposition is not unique", "anchors": ["Src/DcmEstimator.cpp: DcmEstimator::Update, CalcDcmBySVD, GetDCM"]}
{"id": "C94", "title": "Estimated scale factor of the odometer", "statement": "The scale factor estimated from body velocities and wheel speeds is the ratio of true speed to wheel speed.", "quantifier": "all sequences of observations in straight driving", "why_tests_cant": "all velocities", "anchors": ["Src/DcmEstimator.cpp: DcmEstimator::Update, GetScaleFactor"]}
{"id": "C95", "title": "Recorded results", "statement": "Each result asked for while navigating is recorded with its time, velocity, attitude and the displacement in metres from the first result.", "quantifier": "all sequences of results", "why_tests_cant": "all places and sequences", "anchors": ["Src/rgioe.cpp: rgioe_get_result", "Src/Recorder/RecorderType.h"]}
{"id": "C96", "title": "Output projection", "statement": "With output projection switched on the results are those of the given point and frame of the body: place, attitude and velocity.", "quantifier": "all navigation states away from the poles, all lever arms and mounting angles", "why_tests_cant": "all states and lever arms", "anchors": ["Src/DataFusion.cpp: DataFusion::Output"]}
{"id": "C97", "title": "Initial accuracy of the filter states", "statement": "At the start the variance of each filter state is the square of the standard deviation given for it, and the states are uncorrelated.", "quantifier": "all selections of optional states, all options", "why_tests_cant": "all selections and options", "anchors": ["Src/DataFusion.cpp: DataFusion::Initialize", "Src/RgioeDefine.h"]}
{"id": "C98", "title": "Corrections with optional states", "statement": "With each selection of optional states a correction is computed from the estimate only.", "quantifier": "all sixteen selections", "why_tests_cant": "a memory error need not show in a test", "anchors": ["Src/DataFusion.cpp: DataFusion::_feedBack", "Src/KalmanFilter.hpp: Vec1X"]}
{"id": "C99", "title": "Scale factors in the error model", "statement": "An error of a gyroscope scale factor acts on the attitude and one of an accelerometer scale factor on the velocity.", "quantifier": "all selections with scale factors, all navigation states", "why_tests_cant": "all states", "anchors": ["Src/DataFusion.cpp: DataFusion::TransferMatrix", "Src/InsCore.cpp: Ins::CompensateIMU"]}
{"id": "C100", "title": "Lever arm as a state", "statement": "The measured place depends on an error of the lever arm as the design matrix says.", "quantifier": "all navigation states, all lever arms", "why_tests_cant": "all states", "anchors": ["Src/DataFusion.cpp: DataFusion::_posH, _posZ, _feedBack"]}
{"id": "C101", "title": "Build options for optional states", "statement": "Each build option switches the state on that it is named after.", "quantifier": "all sixteen combinations of options", "why_tests_cant": "combinations", "anchors": ["App/PostDataFusion/CMakeLists.txt", "Inc/RgioeConfig.h"]}
{"id": "C102", "title": "Outage windows in machine arithmetic", "statement": "With the times kept as IEEE doubles, as the program does, a time is reported as in outage exactly when it lies in one of the mathematical windows start + k*step, however many windows there are, and the plan with a positive step is built in finite time.", "quantifier": "all float starts, stops, lengths and steps; all times; any number of windows", "why_tests_cant": "rounding of the running start must not accumulate for any plan", "anchors": ["Src/Outage.cpp: Outage::Outage, Outage::IsOutage"]}
{"id": "C103", "title": "Time statistics in machine arithmetic", "statement": "The gap between two samples and the delay of a fix that the data manager records are the exact differences of the time stamps, the largest gap is the exact maximum, and the mean gap is the mathematical mean up to rounding.", "quantifier": "all sequences of fewer than 2^32 time stamps in which no stamp is more than twice or less than half the previous one", "why_tests_cant": "unbounded sequences; rounding errors accumulate", "anchors": ["App/PostDataFusion/DataManager.cpp: DataSeqCheck::Update"]}
{"id": "C104", "title": "Precision of angles and results", "statement": "A latitude or longitude given in degrees is reported back unchanged to double precision, and narrowing velocities, attitudes and heights to single precision loses less than a stated amount and never reverses an order.", "quantifier": "all real values in the stated ranges", "why_tests_cant": "all values", "anchors": ["Src/InsCore.cpp: makeNavEpoch, Ins::Output", "Src/DataFusion.cpp: DataFusion::Output", "Src/rgioe.cpp: rgioe_get_vel, rgioe_get_atti"]}
{"id": "C105", "title": "The gyroscope bias found at rest is used", "statement": "A unit that stood still before driving off starts navigation with the gyroscope bias it showed while standing.", "quantifier": "all rates shown at rest, all configurations with alignment, all two fixes that start navigation", "why_tests_cant": "all rates and configurations", "anchors": ["Src/Alignment.cpp: AlignMoving::Update"]}
{"id": "C106", "title": "Place and heading when navigation starts", "statement": "When an alignment in motion ends, the reported place is that of the last fix reduced from the antenna to the unit with the reported attitude, and the reported heading is the direction of the reported velocity plus the installation angle; the biases and scale factors are the configured ones.", "quantifier": "all levelled histories followed by two fixes, all configurations, lever arms and installation angles", "why_tests_cant": "all places, lever arms and angles", "anchors": ["Src/Alignment.cpp: AlignMoving::Update", "Src/DataFusion.cpp: DataFusion::Initialize, DataFusion::Output"]}
{"id": "C107", "title": "Wheel speeds correct in proportion", "statement": "A wheel speed is never rejected: the correction is a gain that does not depend on the reading times the difference of what the state says about the wheel and the scaled reading; an explained reading changes nothing, a one-dimensional correction never overshoots, and sideways readings count only with the constraint on sideways motion enabled.", "quantifier": "all states with a positive semidefinite covariance, all readings, all configurations with non-zero deviations", "why_tests_cant": "all states and readings", "anchors": ["Src/DataFusion.cpp: DataFusion::MeasureUpdateVel", "Src/KalmanFilter.hpp: KalmanFilter::Update"]}
{"id": "C108", "title": "Reported accuracies", "statement": "While navigating, the accuracies reported with place, velocity and attitude are the standard deviations of the filter for them, in the units of the reported values.", "quantifier": "all navigating states", "why_tests_cant": "all states", "anchors": ["Src/DataFusion.cpp: DataFusion::Output", "Src/rgioe.cpp: rgioe_get_vel, rgioe_get_atti, rgioe_get_result"]}
{"id": "C109", "title": "The attitude-only filter levels itself at rest", "statement": "While a unit rests level the attitude-only filter (used while the library aligns itself, and exposed as a class) pulls its pitch towards zero: with samples that show no rotation and only gravity, whatever error the pitch was set with becomes smaller.", "quantifier": "every sample interval up to a second, every initial pitch up to 80 degrees, every sequence of samples of a level unit at rest of any length", "why_tests_cant": "The drift per sample is tiny; whether it goes the right way and how far it gets is a statement about unboundedly many samples and every initial error.", "anchors": ["Src/AttiAhrs.cpp:AttiAhrs::Update", "Src/AttiAhrs.cpp:AttiAhrs::SetAtti"]}
{"id": "C110", "title": "All samples are in the recording", "statement": "Built with the recorder, the library writes each IMU sample it was handed to the recording, unchanged and in the order they came; and recording changes nothing of what the calls do.", "quantifier": "every history of calls after initialisation, every state of the device, alignment included", "why_tests_cant": "Which samples are written depends on the status the device has at that moment, that is on the whole history.", "anchors": ["Src/DataFusion.cpp:DataFusion::TimeUpdate", "Src/Alignment.cpp:AlignMoving::Update", "Src/rgioe.cpp:rgioe_timeupdate"]}
{"id": "C111", "title": "Recorded biases are the reported ones", "statement": "For each IMU sample that is processed while navigating, the recording holds one entry with the time of the sample and the biases that a result read right after it reports, in the same units.", "quantifier": "every history with a given state, every sample, every result read after it", "why_tests_cant": "It relates two outputs of the library, for all internal states.", "anchors": ["Src/DataFusion.cpp:DataFusion::TimeUpdate", "Src/DataFusion.cpp:DataFusion::Output", "Src/rgioe.cpp:rgioe_get_result"]}
{"id": "C112", "title": "Recorded fixes are the fixes handed over", "statement": "The recording holds each GNSS fix with its own time, its place relative to the start and its mode.", "quantifier": "every history of calls with a given state, whatever the fixes and their times", "why_tests_cant": "The entry is written from what the filter holds, so it depends on the history and not on the fix alone.", "anchors": ["Src/DataFusion.cpp:DataFusion::MeasureUpdatePos", "Src/Recorder/RecorderType.h:gnss"]}
{"id": "C113", "title": "Recorded innovations compare the reported place with the fix", "statement": "With the antenna at the unit, each fix of a usable mode leaves exactly one innovation in the recording: the place that a result read just before it reports, minus the place of the fix, as north, east and down components at the reported place, with the time of that result and as variances the squared accuracies of the fix times the configured factor. Other fixes and other calls leave none.", "quantifier": "every history of calls with a given state, every fix, every result read before it", "why_tests_cant": "It must hold in every state the filter can get into, and compares two outputs.", "anchors": ["Src/DataFusion.cpp:DataFusion::MeasureUpdatePos", "Src/DataFusion.cpp:DataFusion::_posZ", "Src/rgioe.cpp:rgioe_get_result"]}
{"id": "C114", "title": "The recording of an alignment agrees with the results", "statement": "Each entry that a fix leaves in the recording while the device aligns itself holds the attitude that a result read then reports, and the place to the decimetre.", "quantifier": "every device that has levelled itself, every fix, every place", "why_tests_cant": "It relates two outputs for all states; the error of the place is a matter of rounding at every longitude.", "anchors": ["Src/Alignment.cpp:AlignMoving::Update", "Src/rgioe.cpp:rgioe_get_result", "Src/Recorder/RecorderType.h:align"]}
{"id": "C115", "title": "The post-processing run as a whole", "statement": "Given readable files, the program writes one result per recorded event, IMU samples and fixes worked off in the order of their time stamps behind the start time with fixes in simulated outages left out, and each result is the library's answer after exactly the calls those events stand for: nothing is lost in between, nothing is added.", "quantifier": "all configurations, all file contents of the supported formats (any length), all leftover memory, all loop bounds", "why_tests_cant": "the run composes readers, merging, outages, options and the library over unbounded files", "anchors": ["App/PostDataFusion/PostDataFusion.cpp:main", "App/PostDataFusion/DataManager.cpp", "App/AppCommon/FileIO.cpp:IMUReader::ReadNext", "App/AppCommon/FileIO.cpp:GnssReader::ReadNext", "App/AppCommon/Config.cpp:Config::GetOption"]}
{"id": "C116", "title": "The documented binary IMU format can be processed", "statement": "A file of the documented imd format (format 1, rows of seven doubles) is read and processed.", "quantifier": "all configurations with format 1, all non-empty files, all GNSS files that can be read", "why_tests_cant": "every file content; undefined behaviour is not observable by tests", "anchors": ["App/AppCommon/FileIO.cpp:IMUReader::ReadNext", "Doc/RGIOE \u6570\u636e\u683c\u5f0f\u8bf4\u660e-CN.md"]}
{"id": "C117", "title": "Units of IMU text files", "statement": "The library gets what the documentation says a line of an imutxt file means: rates in rad/s and g, converted to the increments of one sampling interval.", "quantifier": "all lines with a rotation, all rates above 1 Hz, all values of gravity, all runs over text files", "why_tests_cant": "must hold for every line and rate", "anchors": ["App/AppCommon/FileIO.cpp:IMUReader::ReadNext", "App/PostDataFusion/DataManager.cpp:ImuData_t::toRgioeData", "Doc/RGIOE \u6570\u636e\u683c\u5f0f\u8bf4\u660e-CN.md"]}
{"id": "C118", "title": "The configured stop time ends the run", "statement": "No event later than the configured stop time is processed.", "quantifier": "all configurations, all text files with events behind the stop time", "why_tests_cant": "every file and stop time", "anchors": ["App/PostDataFusion/PostDataFusion.cpp:main", "App/AppCommon/Config.h", "Doc/RGIOE \u6570\u636e\u683c\u5f0f\u8bf4\u660e-CN.md"]}
{"id": "C119", "title": "Recorded delay of a fix", "statement": "The delay of a fix in the time-check record is the time between its epoch and its delivery.", "quantifier": "all file contents, all states of the data manager, all fixes", "why_tests_cant": "every fix of every file", "anchors": ["App/PostDataFusion/DataManager.cpp:DataSeqCheck::Update", "App/AppCommon/FileIO.cpp:GnssReader::ReadNext", "App/AppCommon/FileIO.h:GnssData_t"]}
{"id": "C120", "title": "Every fix is used once (second program)", "statement": "PostDataFusion_old hands every fix it reads to the library exactly once.", "quantifier": "all configurations, all files, all rates, all leftover memory", "why_tests_cant": "all interleavings of IMU samples and fixes of any length", "anchors": ["App/PostDataFusion/PostDataFusion_old.cpp:main", "Src/rgioe.cpp:rgioe_gnssupdate"]}
{"id": "C121", "title": "Simulated outages hide fixes (second program)", "statement": "In PostDataFusion_old fixes inside an enabled outage window do not reach the filter.", "quantifier": "all configurations, plans, files and rates", "why_tests_cant": "all plans and fix times", "anchors": ["App/PostDataFusion/PostDataFusion_old.cpp:main", "Src/Outage.cpp:Outage::IsOutage"]}
{"id": "C122", "title": "Any usable files can be processed (second program)", "statement": "PostDataFusion_old processes all usable files without undefined behaviour and ends.", "quantifier": "all configurations, all files whose records are in time order, all leftover memory", "why_tests_cant": "undefined behaviour cannot be excluded by tests; all files", "anchors": ["App/PostDataFusion/PostDataFusion_old.cpp:main", "App/PostDataFusion/DataManager.cpp:DataManager::GetNextData"]}
{"id": "C123", "title": "Results of the second program", "statement": "PostDataFusion_old writes one result for every record after which the filter navigates and none before; each is the library's answer at that point, and nothing written depends on uninitialised memory of the program.", "quantifier": "all configurations, all files, all leftover memory", "why_tests_cant": "all histories", "anchors": ["App/PostDataFusion/PostDataFusion_old.cpp:main"]}
{"id": "C124", "title": "The two post-processing programs agree", "statement": "If every fix lies close behind an IMU sample and away from the next one, both programs leave the library in the same state and the second one writes the lines of the first one for which the filter navigates.", "quantifier": "all configurations without outages, all files with that property, all leftover memory", "why_tests_cant": "two whole program runs over unbounded files", "anchors": ["App/PostDataFusion/PostDataFusion_old.cpp:main", "App/PostDataFusion/PostDataFusion.cpp:main"]}
{"id": "C125", "title": "Reading up to a time", "statement": "ReadUntil(t, data) reads up to and with the first record at or behind t, stores that record in data and returns true; it returns false exactly if there is none, or the file could not be opened.", "quantifier": "all record sequences, all times, all contents of data", "why_tests_cant": "sequences of any length", "anchors": ["App/AppCommon/FileIO.cpp:ReaderBase::ReadUntil"]}
{"id": "C126", "title": "Printed sensor data", "statement": "Printing an IMU sample, a wheel measurement, a fix or a result gives a line from which the values can be read back to the printed number of decimals.", "quantifier": "all finite values", "why_tests_cant": "all numbers", "anchors": ["App/AppCommon/FileIO.cpp:operator<<"]}
{"id": "C127", "title": "Saving with SaveConfig", "statement": "SaveConfig(cfg, path) writes the same settings as Config::SaveTo, and the file can be loaded again.", "quantifier": "all configurations", "why_tests_cant": "all configurations", "anchors": ["App/AppCommon/Config.cpp:SaveConfig", "App/AppCommon/Config.cpp:Config::SaveTo"]}
{"id": "C128", "title": "Rows of the result matrix", "statement": "In the matrix format each result is a row of 21 numbers: time, place, distance east and north of the base point, velocity, attitude and the accuracies, each equal to that of the result.", "quantifier": "all results", "why_tests_cant": "all places on the earth", "anchors": ["App/AppCommon/FileIO.cpp:NavWriter::ConvertNavToDouble", "Src/Earth.cpp:Earth::distance"]}
{"id": "C129", "title": "Replay of a recording is complete", "statement": "The replay node publishes every complete record with a topic, from the first one with a positive time on, once and in file order, then the end mark, and nothing after it; at every moment what has been published is a beginning of that.", "quantifier": "all recordings (also with an incomplete record at the end), all sequences of timer events, all parameters", "why_tests_cant": "recordings of any length", "anchors": ["App/RtSimulation/src/navplay/src/navplay_node.cpp:Beats::operator()", "App/RtSimulation/src/navplay/src/NavRawReader.cpp:NavRawReader::ReadNext"]}
{"id": "C130", "title": "Pace of a replay", "statement": "The replay node publishes a record when as much time has passed since the start as in the recording, at speed_up times the speed if real time is switched off.", "quantifier": "all recordings, all clocks, all speeds", "why_tests_cant": "all clocks and time stamps", "anchors": ["App/RtSimulation/src/navplay/src/navplay_node.cpp:Beats::operator()"]}
{"id": "C131", "title": "Displayed path", "statement": "The displayed path has one pose for every whole second of the results so far.", "quantifier": "all sequences of results", "why_tests_cant": "sequences of any length", "anchors": ["App/RtSimulation/src/navplay/src/navplay_node.cpp:Beats::toPoseMsg", "App/RtSimulation/src/navplay/src/rtsim_fusion_node.cpp:publishResult"]}
{"id": "C132", "title": "Units of replayed IMU data", "statement": "The IMU data the replay hands to the library by way of the fusion node are angle and velocity increments along front, right, down.", "quantifier": "all raw samples", "why_tests_cant": "all raw values", "anchors": ["App/RtSimulation/src/navplay/src/navplay_node.cpp:Beats::toImuMsg", "App/RtSimulation/src/navplay/src/AdiHandle.cpp:ADIHandleBase::ConvertRaw2D", "App/RtSimulation/src/navplay/src/rtsim_fusion_node.cpp:OnImuMsgCallBack"]}
{"id": "C133", "title": "Real-time fusion uses what arrives", "statement": "The fusion node hands every arriving IMU sample and every usable fix to the library, in order of arrival.", "quantifier": "all sequences of arrivals and rounds of the loop", "why_tests_cant": "all schedules", "anchors": ["App/RtSimulation/src/navplay/src/rtsim_fusion_node.cpp:main", "App/RtSimulation/src/navplay/src/rtsim_fusion_node.cpp:OnImuMsgCallBack", "App/RtSimulation/src/navplay/src/rtsim_fusion_node.cpp:OnGnssMsgCallBack"]}
{"id": "C134", "title": "An update is the weighted compromise", "statement": "A measurement update yields the one state error with the least misfit, weighted with the inverse covariances, to what was believed (zero error) and to the measurement; the inverse of the covariance grows by what the measurement says, so measurements worked off in a row leave the same covariance in any order.", "quantifier": "all numbers of states and measurements, all regular covariances, all measurement matrices, noises and values, all orders", "why_tests_cant": "continuous state space and all orders", "anchors": ["Src/KalmanFilter.hpp:KalmanFilter::Update"]}
{"id": "C135", "title": "Mounting angles by the tool", "statement": "The mounting angle tool prints the one set of angles that is best in the least squares sense for the records, whatever their order; for straight travel in one direction the part of the travel that is not forward after turning by them fades with the distance driven, and a sensor mounted along the car gives zero.", "quantifier": "all sequences of navigation records", "why_tests_cant": "sequences of any length, all attitudes and velocities", "anchors": ["Tools/ObtainInstallAngle.cpp:main"]}
{"id": "C136", "title": "The summary of a recording lists what is in it", "statement": "The summary a loader delivers after a recording was loaded has one line for each data set of which there are records, in ascending order of the identifiers, with its name, its identifier, the number of its records and of its columns, and one line for each error; it is delivered for every recording the loader accepts.", "quantifier": "all loader states and file names (lines), all non-empty sequences of records of the registered sets (delivery), all recordings with 133 or more records the header does not describe (refutation)", "why_tests_cant": "a test looks at the summary of one recording; the text is printed into a fixed array whose end is only reached by particular recordings", "anchors": ["Src/Recorder/DataLoader.cpp: DataLoader::GetSummaryString", "Src/Recorder/DataLoader.cpp: DataLoader::AddData", "Src/Recorder/DataLoader.cpp: DataLoader::LoadFile"]}
{"id": "C137", "title": "The progress of loading a recording ends at 100", "statement": "While a recording is loaded the progress reported never decreases, and it is 100 when everything was read; before a file was loaded it is 0.", "quantifier": "all files (any bytes), all loader states", "why_tests_cant": "a test sees a few files; the claim is about every file, including short, damaged and missing ones", "anchors": ["Src/Recorder/DataLoader.cpp: DataLoader::GetProgress", "Src/Recorder/DataLoader.cpp: DataLoader::LoadFile"]}
{"id": "C138", "title": "The constraint on sideways motion reduces sideways motion", "statement": "With the constraint on sideways motion configured and no odometer, every 32nd sample corrects the solution so that the sideways and vertical velocity of the wheel that remains, in units of the configured deviations, is not larger than before; the correction is always defined, and without sideways velocity nothing is corrected, whatever the speed ahead.", "quantifier": "all filter states with a valid covariance, all options with non-zero deviations, all samples", "why_tests_cant": "a test drives a few tracks; the claim is about every state and covariance", "anchors": ["Src/DataFusion.cpp: DataFusion::MeasureNHC", "Src/DataFusion.cpp: DataFusion::TimeUpdate", "Src/KalmanFilter.hpp: KalmanFilter::Update"]}
{"id": "C139", "title": "At rest the velocity is reduced", "statement": "When the detector says that the unit is at rest and the zero velocity update is configured, the velocity that remains after the correction is not larger than before, and a zero velocity is not corrected.", "quantifier": "all filter states with a valid covariance, all options with non-zero deviations", "why_tests_cant": "a test sees a few stops; whether two constraints fall on the same sample depends on the number of samples", "anchors": ["Src/DataFusion.cpp: DataFusion::MeasureZeroVelocity", "Src/DataFusion.cpp: DataFusion::TimeUpdate"]}
{"id": "C140", "title": "Attitude over a long time", "statement": "Over any history of samples and corrections whose single turns are less than half a turn, the attitude of the solution is the exact composition of all turns up to the sum of (|v|/2)^8/9000 over the turns v: the error grows at most linearly with their number, and for turns of a fifth of a radian a million samples add less than 3 microradian.", "quantifier": "all initial states with a unit attitude quaternion, all histories of samples and corrections with turns below pi", "why_tests_cant": "a test integrates a few trajectories for a limited time; the bound is about every history and length", "anchors": ["Src/InsCore.cpp: Ins::_atti_update", "Src/DataFusion.cpp: DataFusion::_feedBack", "Src/Convert.cpp: Convert::rv_to_quaternion"]}
{"id": "C141", "title": "The heading error of the evaluation", "statement": "The heading error the evaluation script reports for a row is between -180 and 180 degrees and is, up to full turns, the heading of the solution minus the heading of the reference, turned steadily the shorter way between its neighbouring rows.", "quantifier": "all references with ascending times, headings of any value and number of turns, all rows of the solution within them", "why_tests_cant": "a test compares a few headings; the jumps of 360 degrees can fall on any row of either file", "anchors": ["Tools/ErrorAnalyser.py: ErrorAnalyser.analyse"]}
{"id": "C142", "title": "The errors of the evaluation", "statement": "Every row of the solution strictly between the first and last time of the reference, and no other, is compared; its errors are the solution minus the reference interpolated at the same time, positions in metres east, north and up on the ellipsoid; the spatial error is zero for the same place only; the printed rms of errors is their quadratic mean.", "quantifier": "all references with ascending times, all solutions", "why_tests_cant": "a test compares a few rows", "anchors": ["Tools/ErrorAnalyser.py: ErrorAnalyser.analyse", "Tools/Earth.py: WGS84"]}
{"id": "C143", "title": "What a passed check means", "statement": "When the check of the continuous integration succeeds, 95.44 % of the horizontal and of the spatial errors are within the given limits, up to the width of one bin of the histogram; when it fails one of the two shares is missed, up to the width of a bin.", "quantifier": "all solutions, references and limits", "why_tests_cant": "the check is itself the test: whether it can see an error is a statement about all solutions", "anchors": ["Tools/ErrorAnalyser.py: ErrorAnalyser.analyse", "Tools/ErrorAnalyser.py: Error", "Tools/ErrorAnalyse.py", "Tools/Earth.py: WGS84", "ci-test-a15.sh", "ci-test-pos830.sh"]}
{"id": "C144", "title": "A perfect solution passes the check", "statement": "A solution that is the reference at all common times passes the check with every positive limit; a solution without common times does not pass.", "quantifier": "all references with ascending times and solutions on them, all limits", "why_tests_cant": "as above", "anchors": ["Tools/ErrorAnalyser.py: ErrorAnalyser.analyse", "Tools/ErrorAnalyser.py: Error", "Tools/ErrorAnalyse.py", "Tools/Earth.py: WGS84", "ci-test-a15.sh", "ci-test-pos830.sh"]}
{"id": "C145", "title": "Corrections keep place and position quaternion in step", "statement": "A correction leaves the position quaternion in step with the reported latitude and longitude: the slip between them changes, to first order, only in proportion to itself, and one correction of any size applied where there is none tilts the east axis of the quaternion out of the plane of the equator by at most half the product of the northward and eastward angles of the correction over the cosine of the latitude.", "quantifier": "all navigation states and corrections", "why_tests_cant": "continuous domain, derivative; the two representations are never compared by the code", "anchors": ["Src/DataFusion.cpp: DataFusion::_feedBack", "Src/Convert.cpp: Convert::qne_to_lla"]}
{"id": "C146", "title": "One wheel speed for every tenth result", "statement": "From a file of results with eleven columns (week, time, place, velocity, attitude) the generator of wheel speeds writes one line for every tenth result, beginning with the first: its time, its speed ahead over the scale factor, and its speeds down and to the right.", "quantifier": "all result files and their lengths, with and without a final newline", "why_tests_cant": "all lengths of the file; the loop ends by the state of the stream", "anchors": ["Tools/DataGenerator.cpp: main", "Tools/DataGenerator.cpp: operator>>"]}
{"id": "C147", "title": "The generator reads the result files of the library", "statement": "Given a result file that the library wrote, the generator of wheel speeds writes lines with the times of results.", "quantifier": "all result files of at least six results", "why_tests_cant": "all files and contents", "anchors": ["Tools/DataGenerator.cpp: main", "Tools/DataGenerator.cpp: operator>>", "App/AppCommon/FileIO.cpp: operator<<"]}
{"id": "C148", "title": "Generated wheel speeds agree with the odometer update", "statement": "A filter that is where the result says and is given the installation angles and the scale factor of the generator finds nothing to correct in the generated speed.", "quantifier": "all states of the filter, results and speeds", "why_tests_cant": "continuous domain", "anchors": ["Tools/DataGenerator.cpp: main", "Tools/DataGenerator.cpp: operator>>", "Src/DataFusion.cpp: DataFusion::MeasureUpdateVel"]}
{"id": "C149", "title": "Optional states switched off", "statement": "With every optional state (scale factors, lever arm, odometer scale factor) switched off at compile time the filter is the fifteen-state filter: every history of samples, fixes, speeds and heights gives the same navigation state, covariance and counters.", "quantifier": "all histories, options, initial states", "why_tests_cant": "all histories of calls", "anchors": ["Src/DataFusion.cpp: DataFusion", "Src/RgioeDefine.h: STATE_CNT", "Inc/RgioeConfig.h"]}
{"id": "C150", "title": "Navigation with optional states", "statement": "A library built with one or more of the optional states goes on navigating after a fix, a speed or a non-holonomic constraint.", "quantifier": "all selections with an optional state, all histories", "why_tests_cant": "all histories; undefined behaviour need not show in a test", "anchors": ["Src/DataFusion.cpp: DataFusion", "Src/RgioeDefine.h: STATE_CNT", "Inc/RgioeConfig.h", "Src/DataFusion.cpp: DataFusion::_feedBack"]}
{"id": "C151", "title": "Pure inertial navigation with optional states", "statement": "As long as there are only samples and refused fixes and the constraints are off, the navigation state does not depend on the selection of optional states.", "quantifier": "all sixteen selections, all such histories, options, initial states", "why_tests_cant": "all histories and selections", "anchors": ["Src/DataFusion.cpp: DataFusion", "Src/RgioeDefine.h: STATE_CNT", "Inc/RgioeConfig.h"]}
{"id": "C152", "title": "The generator of wheel speeds ends", "statement": "Whatever file is named, the generator of wheel speeds comes to an end.", "quantifier": "all files, existing or not, and all contents", "why_tests_cant": "non-termination is not seen by a finite test; all texts", "anchors": ["Tools/DataGenerator.cpp: main", "Tools/DataGenerator.cpp: operator>>"]}
{"id": "C153", "title": "The Python functions agree with the library", "statement": "The earth model and the conversions of Tools/InsCore.py return what the functions of the same name in the library return, for every argument: radii, gravity, rates, ECEF coordinates, matrices, quaternions, Euler angles and rotation vectors. The matrix of a quaternion is the same exactly for quaternions of length one.", "quantifier": "all latitudes, longitudes, heights, velocities, angles, quaternions, rotation vectors, matrices", "why_tests_cant": "all real arguments, both implementations", "anchors": ["Tools/InsCore.py: WGS84", "Tools/InsCore.py: rv_to_quaternion", "Src/Convert.cpp", "Src/Earth.cpp"]}
{"id": "C154", "title": "The attitude of the Python mechanisation stays a rotation", "statement": "After any number of samples the attitude matrix of the Python mechanisation is a rotation.", "quantifier": "all initial states, all sequences of samples, all lengths", "why_tests_cant": "all histories", "anchors": ["Tools/InsCore.py: mechanization_n"]}
{"id": "C155", "title": "A step of the Python mechanisation returns a new state", "statement": "mechanization_n leaves the state that is passed to it as it was, so that the state before and the state after can be compared.", "quantifier": "all states, samples, memories", "why_tests_cant": "all states and aliasing of the objects", "anchors": ["Tools/InsCore.py: mechanization_n", "Tools/InsCore.py: get_distance"]}
{"id": "C156", "title": "A unit at rest in the Python mechanisation", "statement": "A unit at rest keeps its place, velocity and attitude in the Python mechanisation.", "quantifier": "all places away from the poles and the antimeridian, all attitudes, all sample intervals of at least 0.1 ms", "why_tests_cant": "all places, attitudes and rates", "anchors": ["Tools/InsCore.py: mechanization_n", "Tools/InsCore.py: NavData"]}
{"id": "C157", "title": "From earth-centred coordinates to latitude, longitude and height", "statement": "ecef_to_lla ends without its message and returns finite values; the point they denote is at most 1e-9 m away from the argument. This holds for all points at least 6200 km from the centre, except for those on the axis and on the meridian of 180 degrees.", "quantifier": "all points, all latitudes, longitudes and heights above -100 km", "why_tests_cant": "convergence of an iteration for all points of space", "anchors": ["Tools/Earth.py: ecef_to_lla", "Tools/InsCore.py: ecef_to_lla"]}
{"id": "C158", "title": "The lever arm of the reference", "statement": "The error analysis moves each reference position by the offset turned from the axes of the vehicle into those of the earth, to within 1e-9 m, unless the moved point lies on the axis of the earth or on the meridian of 180 degrees.", "quantifier": "all positions, attitudes, offsets", "why_tests_cant": "all real arguments", "anchors": ["Tools/ErrorAnalyser.py: compensate"]}
{"id": "C159", "title": "Samples that are not in order in the Python mechanisation", "statement": "A sample that is not later than the state leaves the Python mechanisation unchanged.", "quantifier": "all states, samples, times", "why_tests_cant": "all times", "anchors": ["Tools/InsCore.py: mechanization_n"]}
{"id": "C160", "title": "Accuracy of the biases without corrections", "statement": "While no correction arrives (only samples and refused fixes, constraints off), the variance that the filter holds for each component of the gyroscope and accelerometer bias stays what is configured: at most the square of gb_std or ab_std, and at least that square less the share that one sample interval has in the configured correlation time.", "quantifier": "every build selection of optional states (for the gyroscopes: those without their scale factors), every initial state, options with positive rate and a correlation time of at least one sample interval, and every history of samples and refused fixes on which the computation is defined", "why_tests_cant": "the variance is the result of one matrix product per sample over histories of any length; a test sees one history", "anchors": "Src/DataFusion.cpp: DataFusion::Initialize, TransferMatrix, TimeUpdate; Src/KalmanFilter.hpp: Predict; Src/RgioeDefine.h"}
{"id": "C161", "title": "Accuracy of the optional states without corrections", "statement": "While no correction arrives, the variance of an optional state stays at, or tends to, what is configured: gs_std, as_std and odo_scale_std squared for the scale factors, and the lever arm does not become more accurate.", "quantifier": "every consistent selection of optional states, every initial state and options, every history of samples and refused fixes", "why_tests_cant": "long-term behaviour: the difference shows after hours of samples only, and only by comparison with the configured values", "anchors": "Src/DataFusion.cpp: DataFusion::Initialize, TransferMatrix, TimeUpdate; Src/KalmanFilter.hpp: Predict; Src/RgioeDefine.h"}
{"id": "C162", "title": "Accuracy behind a measurement", "statement": "Behind a fix the place of the antenna is known, north, east and down, at least as well as the weighted mean of the place known before and of the fix: after any number of fixes without a sample in between the reciprocal of the variance is at least the reciprocal of the variance before plus those of all fixes, so the reported accuracy is neither worse than before nor worse than that of any of the fixes. The same holds for the speed of the wheel behind a wheel speed or the constraint on sideways motion, for the velocity behind a zero velocity update, and for the height behind a barometric height.", "quantifier": "all states with a symmetric positive semidefinite covariance, all numbers of fixes with usable modes and positive accuracies, all lever arms and configurations", "why_tests_cant": "continuous state space and any number of fixes", "anchors": ["Src/KalmanFilter.hpp: KalmanFilter::Update", "Src/DataFusion.cpp: DataFusion::MeasureUpdatePos, DataFusion::MeasureUpdateVel, DataFusion::MeasureNHC, DataFusion::MeasureZeroVelocity, DataFusion::MeasureUpdateRelativeHeight, DataFusion::_posH", "Src/rgioe.cpp: rgioe_gnssupdate, rgioe_get_result"]}
{"id": "C163", "title": "Navigation written by the Python tools", "statement": "A state written by the Python tools (write2txt, or str) is a line of numbers from which week, time, position, velocity, attitude and biases can be read back to the printed decimals, and the state that NavData makes from that line is the one that was written.", "quantifier": "all files of states with finite values; all weeks, all times", "why_tests_cant": "A test writes a few states; that no value runs into the next one or loses its decimals is a statement about all values, and that a time of seven digits joins the week or that biases are dropped is seen only with such values.", "anchors": ["Tools/InsCore.py: write2txt, NavData.__init__, NavData.__str__"]}
{"id": "C164", "title": "Parameters and distances in the Python tools", "statement": "The Python tools read a sensor parameter file to the same parameters as the programs, in SI units; the distance of two places they compute is never negative, zero only for the same place, and has north and east parts with the right signs.", "quantifier": "all parameter files; all places below the poles", "why_tests_cant": "A test compares a few files and places; the unit of each of twelve parameters and the sign and zero of a distance are statements about all numbers.", "anchors": ["Tools/InsCore.py: ImuPara, get_distance, get_distance_d", "App/AppCommon/Config.cpp: Config::LoadImuPara"]}
{"id": "C165", "title": "Variances of the filter are conservative", "statement": "If the errors at the start and the noises are on average at most as large as the filter is told, and the noises uncorrelated with the errors, then behind any sequence of predictions and measurements the mean square of every combination of the remaining errors is at most the variance the filter reports for it; with noises exactly as told it is equal.", "quantifier": "all ensembles of runs and weights, all numbers of states and measurements, all matrices, all sequences of predictions and measurements", "why_tests_cant": "A simulation checks a few scenarios within its statistical error; here every ensemble, matrix and sequence is covered.", "anchors": ["Src/KalmanFilter.hpp: KalmanFilter::Predict, KalmanFilter::Update, KalmanFilter::Reset"]}
{"id": "C166", "title": "Better data never gives a larger variance", "statement": "Of two filters with the same transition and measurement matrices, the one that starts with smaller or equal variances, is told smaller or equal noises and perhaps gets further measurements holds, for every combination of states, a variance that is at most that of the other.", "quantifier": "all numbers of states and measurements, all matrices, all sequences of predictions and measurements", "why_tests_cant": "Unbounded sequences over continuous matrices; the comparison of two runs is no single test case.", "anchors": ["Src/KalmanFilter.hpp: KalmanFilter::Predict, KalmanFilter::Update"]}
{"id": "C167", "title": "The scripts show the result files", "statement": "show_sensors.py draws, for each kind of sensor, exactly the times of the lines that have its bit; show_nav.py draws the biases and the odometer scale factor, or time and heading of two files, of every line of a result file that the library or the Python tools wrote.", "quantifier": "all texts, all lists of finite results of any length, all heights and bits", "why_tests_cant": "Unbounded files with arbitrary numbers; a picture is no test outcome.", "anchors": ["Tools/show_sensors.py: show_sensors", "Tools/show_nav.py: showBias, nav_compare", "App/AppCommon/FileIO.cpp: operator<<, PvaWriter::Write", "Tools/InsCore.py: write2txt"]}
{"id": "C168", "title": "The error file of the evaluation", "statement": "The file that the error analysis writes (target.err.csv) has one row for each row of the solution strictly between the first and the last time of the reference, with week, time and, under the name of each quantity, the error of that quantity.", "quantifier": "all solutions and references of any length with ascending times of the reference, both options", "why_tests_cant": "Unbounded files with arbitrary real numbers.", "anchors": ["Tools/ErrorAnalyser.py: ErrorAnalyser.analyse"]}
