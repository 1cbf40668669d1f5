c('C01','proved','Table variant, bitwise variant and GF(2) polynomial remainder agree on all byte strings; the table literal is the generated one.')
c('C02','proved','')
c('C03','proved','')
c('C04','proved','For all messages below 4 GiB (the length field is 32 bit).')
c('C05','proved','')
c('C06','proved','At least one record: with none the loader reads outside the buffer (C08).')
c('C07','partial','REFUTED in full: LoadFile never returns on any recording with a damaged record. Proved: it returns whenever no start mark is followed by a frame that fails its checksum.')
c('C08','partial','REFUTED in full: header-only files are read past their end. Proved for complete recordings with at least one record.')
c('C09','proved','Delivered data stems from disjoint intact frames in file order; a range hit by a burst of at most 32 bits is not intact.')
c('C10','proved','Files below 4 GiB.')
c('C11','partial','REFUTED in full: the error code is overwritten by NO_HEADER. Proved: what is reported for a missing start mark and for a checksum failure (the reason is only in the error strings).')
c('C49','partial','REFUTED: every cut strictly inside a record (more than 4 bytes before its end) makes the loader read outside the buffer.')
c('C50','partial','REFUTED: data accumulates over loads; a missing file leaves code OK and the old data.')
c('C51','partial','REFUTED in full (2^24+1 in a u32 item). Proved up to magnitude 2^24.')
c('C27','partial','REFUTED in full: switching a block off between two switched-on ones makes blocks overlap. Proved: exactly which of the selections are consistent.')
c('C39','partial','REFUTED in part: construction never ends for length = step = 0. Proved: windows exact for step > 0, disabled plans never report an outage.')
c('C40','proved','For streams in time order with times below INT_MAX seconds.')
c('C41','partial','REFUTED: with GNSS enabled no IMU sample later than the last fix is delivered. Proved: complete without GNSS.')
c('C42','partial','REFUTED: results still queued at stop() can be lost, and the queue is inspected without the lock (data race). Proved under every schedule: prefix, order, no deadlock, stop returns, only queued results are missing.')
c('C43','partial','REFUTED: no saved configuration can be loaded again. Proved: what comes back when the missing keys are added by hand.')
c('C44','proved','Exact arithmetic; pi exact.')
c('C46','partial','Velocity decoding proved. Checksum REFUTED: it accepts exactly the all-zero frame.')
c('C52','partial','REFUTED: the first sample at or after the start time is consumed too. Proved: exactly which samples are consumed.')
c('C53','partial','REFUTED for the mean (divides by one too many). Proved: counter, largest interval, and what the mean is.')
c('C54','partial','Proved for non-empty IMU streams; REFUTED for empty ones (division by zero).')
c('C55','partial','REFUTED: every file yields one extra sample of indeterminate values. Proved: all complete records are delivered in order, reading ends.')
c('C56','partial','REFUTED: extra sample behind a final line end; endless reading on a token that is not a number. Proved: files without a final line end.')
c('C57','partial','REFUTED: undefined behaviour at a final line end; a line without fix hides the rest; GNSS_10_LINES uses a null pointer. Proved: files of usable lines without a final line end.')
c('C58','partial','REFUTED: the mode is replaced by SPP. Proved: the rest of the fix is passed on.')
c('C59','proved','')
c('C60','partial','REFUTED: static-detection, barometer and antenna settings and the initial accuracies are not passed on. Proved: the rest is.')
c('C28','proved','Exact real arithmetic (no rounding). Closed branch exactly unit; series branch within explicit bounds.')
c('C29','proved','Exact real arithmetic.')
c('C30','proved','Exact real arithmetic.')
c('C31','partial','Round trip proved for |pitch| < pi/2. REFUTED: at vertical attitudes the conversion back yields 0/0 (nose down) or a fixed heading.')
c('C32','partial','Proved for |lat| < pi/2 and |lon| < pi. REFUTED at the antimeridian (lon = pi comes back as another number).')
c('C33','proved','Exact real arithmetic, WGS84 constants as in the source.')
c('C34','proved','Exact real arithmetic, WGS84 constants as in the source.')
c('C35','partial','Zero for equal points and the sign law of the three components proved. REFUTED: north and east are counted from the second to the first point while the third component is positive upwards, so it is a displacement in neither direction; the variant without heights is not zero for equal points.')
c('C61','partial','REFUTED at the zero vector (0/0). Proved for every other rotation vector.')
c('C36','proved','Exact real arithmetic; for histories without NaN or infinity, started from a given navigation state.')
c('C37','partial','Proved for up to 2^31-1 samples. REFUTED beyond: the sample counter overflows.')
c('C38','proved','Exact real arithmetic, up to 2^31-1 samples.')
c('C45','partial','Proved for the update used by the library. REFUTED: SetAtti(quaternion) leaves the read-out at the old attitude; the magnetometer update does not normalise.')
c('C47','partial','REFUTED exactly: a velocity of the order (omega_e dt)^2 g dt / 4 appears. Proved: it is bounded by that, and a sample within that bound of the true one rests exactly for ever.')
c('C20','proved','Over the reals, for every dimension; an update is undefined exactly when the innovation covariance is singular, excluded for positive definite noise.')
c('C21','proved','Joseph form with an arbitrary gain against the filter gain; [corrected] is the covariance of the error of a linear estimate with that gain.')
c('C19','proved','Exact real arithmetic, all call sequences.')
c('C22','partial','REFUTED: the process noise (Phi Q + Q Phi^T) dt / 2 is not positive semidefinite; a fix with a variance below dt^3 vrw^2 / 4 leads to a negative velocity variance. Proved: the loss per epoch is bounded.')
c('C23','proved','')
c('C24','partial','REFUTED: a second fix before the next sample erases the correction of the first; with ZUPT-A switched on the zero-velocity part is ignored.')
c('C25','proved','')
c('C26','proved','')
c('C48','partial','REFUTED: without any fix the sixth height is used with the reference -2147483648 m. Proved: the behaviour after a fix.')
c('C62','proved','Exact real arithmetic.')
c('C63','proved','Exact real arithmetic.')
c('C64','partial','REFUTED: the remainder is dropped. Proved: what happens at a start without fix (window of 1000 samples).')
c('C65','proved','Exact real arithmetic.')
c('C66','proved','Exact real arithmetic; while all numbers stay finite.')
c('C67','partial','REFUTED: the measured rate is compared with zero, so at rest the earth rate is taken for a gyroscope bias. Proved: the innovation at rest is the earth rate.')
c('C12','proved','Up to 2^31-1 samples (then the sample counter overflows, which is undefined behaviour).')
c('C13','partial','REFUTED: a displacement (even a purely vertical one) before levelling also counts as heading. Proved: NAVIGATION is entered only with a given state or after both events, and it is entered two samples after them.')
c('C14','proved','')
c('C15','proved','')
c('C16','proved','Angles in degrees; NaN and infinity are visible as such.')
c('C17','partial','REFUTED: rgioe_get_pos answers with the standard deviation of the attitude; it can be zero while the position accuracy is not.')
c('C18','partial','REFUTED: a NULL option pointer is dereferenced before it is tested; after FAULT_CONFIG the old status stays. Proved: outcome for other arguments, and equal answers afterwards whatever happened before (but for one uninitialised vector of the alignment).')
c('C68','proved','The shared gravity variable is overwritten by the calls of the other device; every call recomputes it before use.')
c('C69','proved','Exact real arithmetic; the samples are those for which the discrete mechanisation rests exactly (see C47); while all numbers stay finite, which is proved with the constraints switched off.')
c('C70','partial','REFUTED: the roll is asin(sin r cos p), right only if roll or pitch is zero; an inverted unit gets the opposite pitch. Proved: the pitch of an upright unit.')
c('C71','partial','REFUTED: every fix from the second on turns the heading by the installation angle, also when the unit does not move.')
c('C72','partial','REFUTED: the accuracy is 0.3 divided by the accuracy of the fix.')
c('C73','partial','REFUTED: three halves of the displacement whatever time it took, vertical part upwards, minus half of an uninitialised vector.')
c('C74','partial','REFUTED: the option is never read.')
c('C75','proved','Exact first-order movement for every state the library reaches; the part proportional to the slip is explicit, zero for a quaternion made from the place (C75_place_in_step), and cannot be dropped (C75_slip_matters). Rotations and places in exact arithmetic.')
c('C76','proved','As C75; the remainder (lever arm times distance divided by earth radius and cosine of the latitude) is explicit and bounded. C76_fix_after_correction covers a second observation of the same epoch, where the matrix of the local axes is the old one.')
c('C77','proved','For every state the library reaches. The remainders are explicit; the angle increment of the last sample is not corrected by the code, so the bias part is stated for the corrected increment.')
c('C78','proved','Exact real arithmetic.')
c('C79','partial','REFUTED for the statistics: Reset rewinds the files and not the counters. Proved: the same samples in the same order.')
c('C80','proved','Streams ordered in time with fewer than 2^31 samples. File formats: C55-C57; what the writer thread does with the results: C42.')
c('C81','proved','')
c('C82','partial','REFUTED: the structure is not initialised and place and velocity are not written before NAVIGATION. Proved: with a given state all results from the first IMU sample on depend on the input only.')
c('C83','proved','')
c('C84','partial','REFUTED: the GNSS flag stays until the next rejected fix, the odometer flag for ever; the IMU flag is that of the given state; every eighth result repeats the zero-velocity flag. Proved: exactly what each flag says. The non-holonomic flag is C26.')
c('C85','partial','REFUTED: no call takes a wheel speed; switching the odometer on has the sole effect of switching the non-holonomic constraint off, accuracy and scale factor change no answer but the reported factor, which is the one of the options.')
c('C86','partial','REFUTED: the statistic is weighted with the covariance itself (inverted twice) and no measurement is ever rejected. Proved: the value of the statistic; one gain for all innovations, for fixes too.')
c('C87','partial','Proved: one step is consistent with the equations to first order in the interval, in earth-fixed axes and in latitude, longitude, height. Missing: a bound of the error accumulated over a trajectory, and rounding.')
c('C88','proved','Over the reals.')
c('C89','partial','REFUTED for format numbers other than 0 and 1: nothing is written and nothing reported. Proved for both formats.')
c('C90','partial','REFUTED: NavAscii and NavDoubleMatrix have the same value, so with the text format (the default) the queueing writer writes binary numbers. Proved for the binary format.')
c('C91','partial','REFUTED: six significant digits are written, so times of week from 100000 s on lose their fraction: recordings at different rates give the same file. Proved: header, rows, and every cell to six significant digits.')
c('C92','partial','REFUTED: the month is that before (00 in January); program names of more than 107 characters overrun the buffer. Proved: the order, and the rest of the date.')
c('C93','partial','REFUTED: it can be a reflection, the turn about the direction of travel is arbitrary, and it leads from body to vehicle frame where the documentation says the opposite. Proved: orthogonal, and the direction of travel goes to the forward axis.')
c('C94','partial','REFUTED without wheel speeds: the sum of the velocities times 1e30. Proved with wheel speeds.')
c('C95','partial','REFUTED: degrees are passed for radians, so north is 56 to 61 times too large; the origin is a static variable of the process, shared by all devices. Proved: time, velocity, attitude and height.')
c('C96','partial','REFUTED for the velocity: it is that of the unit, wrong whenever the unit turns about an axis that does not pass through the point. Proved: attitude exactly (away from the vertical), place to first order in the lever arm.')
c('C97','partial','REFUTED for the optional states: scale factors start with the fourth power, the odometer with 1e-18 whatever is given. Proved for place, velocity, attitude and biases, and no correlations.')
c('C98','partial','REFUTED: the estimate is passed as a row and read as a column, outside its memory, with every selection that has an optional state. Proved: exactly the selection without optional states is safe.')
c('C99','partial','REFUTED: gyroscope scale factors act on the estimated biases and not on the attitude, accelerometer scale factors on the attitude and not on the velocity. Proved: what the error does to the increments.')
c('C100','partial','REFUTED: horizontal rows are more than six million times too small (radians for metres), the vertical row has the wrong sign. Proved: what the innovation depends on.')
c('C101','partial','REFUTED: EST_ODO_SCALE switches the accelerometer scale factors on; no option switches the odometer scale factor on. Proved: the other three.')
c('C102','partial','REFUTED for termination: a positive step below the resolution of the start time (step <= start * 2^-54) never moves the start, so the constructor loops for ever. Proved: for starts, lengths and steps of zero or at least 1/1024 s and times up to 2^20 s every sum is exact and the answer is right for every time.')
c('C103','proved','Rounding of each double operation is modelled. The mean is within 4 (n+1) 2^-53 times the largest gap.')
c('C104','proved','Only the conversions at the interface are rounded in this model; the navigation in between is not part of it.')
c('C105','partial','REFUTED: the fix that ends the alignment overwrites the bias found by levelling with the configured initial bias; the reported bias never depends on the measured rates.')
c('C106','partial','Proved for a level unit, in exact arithmetic. REFUTED in one respect: the lever arm is turned before the installation angle is applied, that is not by the reported heading.')
c('C107','proved','Exact real arithmetic.')
c('C108','partial','REFUTED for the attitude: it is reported in degrees and its accuracy in radians. Proved for place and velocity: the roots of the variances, defined whenever the covariance is positive semidefinite.')
c('C109','partial',"REFUTED for the library's own axes (third axis down, as everywhere else in the library): the pitch grows at every sample, past any angle up to 7/5 rad. Proved: with the third axis up the pitch becomes smaller at every sample, until it is below any positive angle, and does not fall below -0.15 rad.")
c('C110','partial','REFUTED for a device that aligns itself: up to and with the call that starts navigation no sample and no fix is recorded. Proved for a device started with a given state, and for every navigating device; proved that the recorder changes no answer and stops no call.')
c('C111','proved','In exact arithmetic; the fields of the recording are single-precision.')
c('C112','partial','REFUTED for the time: the entry has the time of the last sample, and for any other times of the fixes the recording (and all the rest) is the same; fixes before the first sample are not recorded; of the mode only eight bits are. Proved: from the first sample on each fix is recorded in order, used or not, with its displacement from the given place.')
c('C113','proved','In exact arithmetic, without output projection and with a zero lever arm (C63 has the lever arm).')
c('C114','partial','REFUTED: the attitude is recorded in radians and reported in degrees; the place is recorded in radians as a float, and beyond two radians of longitude all places within 2^-23 rad (0.76 m on the equator) of a float are recorded alike. Proved: the error of the recorded place is at most 2^-23 rad.')
c('C115','partial',"REFUTED for files with a final line end (C115_final_line_end_refuted: a sample that is in neither file, with a time that was never set, is handed to the library) and for binary files (one extra record). Proved: text files without final line end, binary files up to the extra record, order and completeness of the events, and that from a given state every line from the first sample on is the library's answer. Missing: GGA and ten-line GNSS files (C57), files that cannot be opened.")
c('C116','partial','REFUTED: C116_imd_files_refuted. The reader reads the bytes into the smart pointer instead of the sample it points to: undefined behaviour for every file that is not empty.')
c('C117','partial','REFUTED: C117_rates_refuted, C117_program_refuted. Text lines are handed over unconverted (they have to be increments in rad and m/s), the rate is not used. That increments are handed over unchanged is C115.')
c('C118','partial','REFUTED: C118_stop_time_refuted (every event behind the stop time gets its result line as well), C118_stop_time_ignored (the run does not depend on the stop time).')
c('C119','partial','REFUTED: C119_delay_refuted. No reader fills in the epoch, so the recorded delay is the time stamp itself (seconds of the week).')
c('C120','partial','REFUTED: C120_used_twice_refuted: at exactly the configured rate a fix in the middle fifth of a sampling interval is handed over twice (the filter then counts it as two independent measurements). Proved: the exact number of hand-overs (C120_uses_of_a_fix_partial), and at least one if the samples around the fix are less than 1.2 intervals apart (C120_used_partial).')
c('C121','partial','REFUTED: the break behind the test leaves the switch only, the fix is handed over below it. C121_outages_ignored_refuted: the run is the same for every plan; C121_fix_in_outage_refuted: a fix in an enabled window reaches the filter, which the first program holds back.')
c('C122','partial','REFUTED: C122_first_record_refuted: undefined (null pointer) exactly if the first record delivered is a fix; proved: in all other cases it ends.')
c('C123','proved',"C123_given_state: from a given state there is a line for every record and no line depends on memory the library found either (in moving alignment the library's own start does, C73).")
c('C124','proved','without the condition the programs differ (C120)')
c('C125','partial','REFUTED: C125_data_refuted: only time and type are stored, the measurement never is (assignment through the base class). Proved: position, return value, time and type.')
c('C126','partial','REFUTED for fixes: C126_fix_refuted: printing any fix throws an exception (nine replacement fields, eight arguments). Proved for samples, wheel measurements and results.')
c('C127','partial','REFUTED: the ZUPTA switch gets the value of the ZUPT switch (C127_zupta_refuted), exactly seven keys are missing (C127_missing_refuted), the file can never be loaded (C127_load_refuted). Proved: all other keys have the values SaveTo writes.')
c('C128','partial','REFUTED for the distance east: it is the equatorial radius times latitude minus longitude (C128_east_refuted), not zero on the base meridian. Proved: the other twenty.')
c('C129','proved','')
c('C130','partial','REFUTED: C130_pace_refuted: one record for every event of the 1 ms timer; C130_speed_ignored_refuted: independent of clock, mode and speed (the comparison is commented out).')
c('C131','partial','REFUTED: C131_cleared_refuted: with the 10001st pose the path is emptied, its length is the number of poses modulo 10001; several poses for a second from 100 Hz on (C131_whole_seconds). Proved: complete up to 10000 poses.')
c('C132','partial','REFUTED: C132_rates_for_increments_refuted: the conversion to increments is never called; rates are handed over, 125 times too large, and accelerations in units of gravity. Proved: axes and scale of the message, and that the conversion that is not called is right.')
c('C133','partial','REFUTED: C133_fixes_refuted: after the alignment no fix is ever handed over (the test for an empty queue is inverted); C133_undefined_refuted: undefined exactly if the loop runs before a fix has arrived. Proved: samples in order (their time moved by one second, that of fixes not), complete if never more than ten wait.')
c('C134','proved','')
c('C135','proved','The reader the tool calls is commented out in the code; the records are given. The reference to a temporary in line 48 is taken as the value.')
c('C136','partial','REFUTED: with 133 records of unknown identifiers the summary is written behind the end of its 4096 byte array (C136_overrun_refuted); the size of the header shown is four bytes too small (C136_registered). Proved: what the lines of every delivered summary say (C136_lists), and that it is delivered with exactly the recorded sets for every recording of registered sets (C136_registered).')
c('C137','partial','REFUTED: before a file was opened (or after a missing or empty one) the progress is a division by zero (C137_undefined_refuted); a file without header counts as not begun (C137_no_header_refuted). Proved: it never decreases, and at the end it is at least 100 and exactly 100 for files of more than 500 bytes (C137_monotone, C137_complete_partial).')
c('C138','proved','On the state after feedback and mechanisation of an epoch (C138_epoch), whose covariance must be positive semidefinite: C22 shows that the prediction does not always keep it so. The remaining velocity is meant to first order in the estimate (C78).')
c('C139','partial','REFUTED: when the constraint on sideways motion is due in the same epoch (every 32nd sample) it overwrites the correction of the zero velocity update: a vehicle said to be at rest keeps any speed ahead (C139_overwritten_refuted); the same happens with the heading rate constraint (C24). Proved for the other epochs (C139_still_partial).')
c('C140','proved','Exact arithmetic; the turns are those the code forms from the samples (rotation vector with coning correction, rotation of the local axes), so the statement is about the composition, not about the accuracy of the sensors or of the coning formula.')
c('C141','proved',"Exact arithmetic; scipy's interp1d is modelled as documented.")
c('C142','partial','REFUTED: a reference on the meridian of 180 degrees and a solution at the same place given as -180 degrees have an error of the circumference of the earth, and between two reference rows on either side of it the reference is interpolated through the meridian of Greenwich (C142_antimeridian_refuted). Proved for longitudes without that jump, where zero error means equal coordinates. The first two errors are east and north: the error file (not modelled) has them under the names lat and lon, the printed table has them as x and y beside velocities that are north and east.')
c('C143','partial','REFUTED: when more than 68.26 % of the errors are in the first of the 100 (or more) bins, the interpolation raises, both sigmas are reported as 0, and the check succeeds whatever the errors (C143_blind_refuted): errors of 10, 10, 10 and 1000 m pass the limit of 8 cm (C143_refuted). Proved in all other cases (C143_share_partial, C143_fails).')
c('C144','partial','REFUTED: for limits below 9.5 mm: errors that are all equal are given a histogram one metre wide, and the second sigma is 9.544 mm above the error (C144_refuted). Proved for limits of at least a centimetre, as in the scripts.')
c('C145','proved','The growth of the slip by the mechanisation between corrections is not bounded; its effect is in C75 for any size.')
c('C146','partial','REFUTED for files that end with a newline and hold a multiple of ten results: the last result is read twice and a line too many is written (C146_newline_REFUTED). Proved exactly for files that end with the last digit (C146_last_digit_partial); with a newline the output is that of the file with its last result repeated (C146_newline_partial). Lines are real numbers, printing with four decimals is left out.')
c('C147','partial',"REFUTED: the library writes nineteen columns, the generator reads eleven numbers per turn and goes on in the same line; the second line of its output has as time the decimals of the velocity to the east of the sixth result (C147_own_files_REFUTED), which is no result's time (C147_no_result_REFUTED).")
c('C148','partial','REFUTED for the installation angles (3, 2, 4 degrees) the generator names: it negates them, the filter does not, so a vehicle that moves straight ahead seems to differ by more than 0.8 % of its speed (C148_labelled_REFUTED). Proved for the negated angles (C148_negated_partial), a wheel at the unit and without the non-holonomic constraint.')
c('C149','proved','Relates the model of the whole class with optional states to the one as shipped, about which the other filter theorems are.')
c('C150','partial','REFUTED: with any optional state every history with an accepted fix or a speed and, anywhere later, a sample is undefined (the feedback reads outside the estimate, C98): C150_correction_REFUTED; with the non-holonomic constraint alone every history of two samples: C150_constraint_REFUTED. What is left is C151.')
c('C151','proved','')
c('C152','partial','REFUTED: it ends exactly on files that can be opened and whose words can all be read (C152_ends_partial). On a missing file it reports this and then loops for ever (C152_missing_file_REFUTED), as it does on a file with a heading (C152_heading_REFUTED); after a word that is no number each turn repeats one result made of two lines and a zero, and every tenth turn writes a line, so the output grows without bound (C152_repeats_REFUTED, C152_grows_REFUTED).')
c('C153','proved','')
c('C154','partial','REFUTED: line 600 stores the quaternion that was not normalised over the normalised one, so the matrix is a rotation times the squared length of a quaternion that shrinks with every turn; already one sample of a unit at rest on the earth is enough. Proved: the form of the matrix, the quaternion never grows, and a lower bound for its length after n samples.')
c('C155','partial','REFUTED: current_epoch is last_epoch itself, so the object passed in is changed and returned and the distance between the two is zero whatever the motion. Proved: no other object is changed.')
c('C156','partial','REFUTED: the first sample keeps place and velocity and scales the attitude matrix; because of that the second one lets the unit fall. Proved: both, exactly.')
c('C157','proved','The exceptions are real: on the meridian of 180 degrees the result is on the other side of the earth, and on the axis there is no finite result (the two _refuted theorems).')
c('C158','proved','')
c('C159','partial','REFUTED: the check is commented out; samples that are 0.1 ms or more before the state are integrated backwards and set its time back. Proved: samples within 0.1 ms change nothing, all others set the time.')
c('C160','proved','')
c('C161','partial',"REFUTED for the lever arm and the odometer: the variance of the lever arm shrinks with every sample, without limit (C161_arm_REFUTED; a decay with a correlation time of ten hours and no noise), and the one of the odometer's scale factor tends to ten times the configured square (noise for 3600 s, decay for 36000 s: C161_odometer_REFUTED); C161_waiting_REFUTED exhibits a history of a resting unit. Proved: the scale factors of gyroscopes and accelerometers tend to the configured squares (C161_scale_partial), starting from the fourth power as C97 says.")
c('C162','proved','Exact arithmetic. That the covariance is positive semidefinite is a hypothesis, because the process noise can destroy it (C22). The deviation used for a barometric height is the one configured for zero turn rates (opt.zupta_std).')
c('C163','partial',"REFUTED: C163_biases_refuted: NavData never takes the biases from the line, they start at zero. C163_long_time_refuted: a time from 1000000 s on fills its field of thirteen characters, which has no blank in front, and is joined to the week, so the line has sixteen numbers. The rest is proved: C163_file (every line of a file reads back to the printed decimals for times of the week), C163_state_partial (time, position, velocity, attitude of the state), C163_start (matrix, quaternions and angles of the state agree), C163_str (the eleven cells of str). Not modelled: numpy's conversion of the values to degrees before printing.")
c('C164','proved','C164_parameters and C164_same_file: all twelve parameters, each axis. C164_distance: sign law, zero and the plane distance; C164_metric: north and east as arcs; C164_space: with heights. Exact arithmetic; the programs keep the parameters in single precision, Python in double.')
c('C165','proved','C165_conservative, C165_exact, by induction over the sequence. For the class KalmanFilter with the transition and measurement matrices of the true errors: that the matrices of the running filter are those of its errors is C76 to C78; that they are the same in all runs is an assumption (they depend on the trajectory).')
c('C166','proved',"C166_better, by induction over the two runs; the gain of the second filter used in the first is no better than the first one's own.")
c('C167','partial','REFUTED: the result file of the library has thirteen columns and that of the Python tools seventeen, but show_sensors.py reads column 24 and showBias column 19, so both stop with an exception on every such file (C167_library_REFUTED, C167_python_REFUTED); a file with one result is not shown either (C167_one_result_REFUTED). Proved: for a table with 25 columns or more exactly the times with the bit are drawn (C167_sensors), for one with 20 or more the bias columns of every line (C167_bias); nav_compare shows time and heading of every result to six decimals, for files with at least two results (C167_compare_partial). Model of numpy.loadtxt as documented; window, labels and counts are not modelled.')
c('C168','partial','REFUTED: the east error stands under lat and the north error under lon (C168_exchanged_REFUTED; a solution one degree too far north has latitude error 0 in the file, C168_latitude_REFUTED), and the week is always 0 (C168_week_REFUTED). Proved: rows and times (C168_rows, C168_written), height, speeds, attitude, horizontal and spatial errors (C168_cells_partial); a horizontal or spatial error that was not asked for is no number (C168_not_asked). How pandas prints numbers is not modelled.')
