(** Generated from utility/utf8/grapheme_cluster_break.hpp:244-871 (grapheme_cluster_break_table), all 1878 rows: (first, last, meta). *)
From Coq Require Import List NArith.
Import ListNotations.
Local Open Scope N_scope.

(** grapheme_cluster_break_table rows 0-249 (utility/utf8/grapheme_cluster_break.hpp:244-871). *)
Definition grapheme_cluster_break_table_0 : list (N * N * N) :=
  [
   (0, 9, 3); (10, 10, 2); (11, 12, 3); (13, 13, 1); (14, 31, 3); (127, 159, 3); (169, 169, 14);
   (173, 173, 3); (174, 174, 14); (768, 879, 4); (1155, 1159, 4); (1160, 1161, 4);
   (1425, 1469, 4); (1471, 1471, 4); (1473, 1474, 4); (1476, 1477, 4); (1479, 1479, 4);
   (1536, 1541, 7); (1552, 1562, 4); (1564, 1564, 3); (1611, 1631, 4); (1648, 1648, 4);
   (1750, 1756, 4); (1757, 1757, 7); (1759, 1764, 4); (1767, 1768, 4); (1770, 1773, 4);
   (1807, 1807, 7); (1809, 1809, 4); (1840, 1866, 4); (1958, 1968, 4); (2027, 2035, 4);
   (2045, 2045, 4); (2070, 2073, 4); (2075, 2083, 4); (2085, 2087, 4); (2089, 2093, 4);
   (2137, 2139, 4); (2192, 2193, 7); (2200, 2207, 4); (2250, 2273, 4); (2274, 2274, 7);
   (2275, 2306, 4); (2307, 2307, 8); (2362, 2362, 4); (2363, 2363, 8); (2364, 2364, 4);
   (2366, 2368, 8); (2369, 2376, 4); (2377, 2380, 8); (2381, 2381, 4); (2382, 2383, 8);
   (2385, 2391, 4); (2402, 2403, 4); (2433, 2433, 4); (2434, 2435, 8); (2492, 2492, 4);
   (2494, 2494, 4); (2495, 2496, 8); (2497, 2500, 4); (2503, 2504, 8); (2507, 2508, 8);
   (2509, 2509, 4); (2519, 2519, 4); (2530, 2531, 4); (2558, 2558, 4); (2561, 2562, 4);
   (2563, 2563, 8); (2620, 2620, 4); (2622, 2624, 8); (2625, 2626, 4); (2631, 2632, 4);
   (2635, 2637, 4); (2641, 2641, 4); (2672, 2673, 4); (2677, 2677, 4); (2689, 2690, 4);
   (2691, 2691, 8); (2748, 2748, 4); (2750, 2752, 8); (2753, 2757, 4); (2759, 2760, 4);
   (2761, 2761, 8); (2763, 2764, 8); (2765, 2765, 4); (2786, 2787, 4); (2810, 2815, 4);
   (2817, 2817, 4); (2818, 2819, 8); (2876, 2876, 4); (2878, 2878, 4); (2879, 2879, 4);
   (2880, 2880, 8); (2881, 2884, 4); (2887, 2888, 8); (2891, 2892, 8); (2893, 2893, 4);
   (2901, 2902, 4); (2903, 2903, 4); (2914, 2915, 4); (2946, 2946, 4); (3006, 3006, 4);
   (3007, 3007, 8); (3008, 3008, 4); (3009, 3010, 8); (3014, 3016, 8); (3018, 3020, 8);
   (3021, 3021, 4); (3031, 3031, 4); (3072, 3072, 4); (3073, 3075, 8); (3076, 3076, 4);
   (3132, 3132, 4); (3134, 3136, 4); (3137, 3140, 8); (3142, 3144, 4); (3146, 3149, 4);
   (3157, 3158, 4); (3170, 3171, 4); (3201, 3201, 4); (3202, 3203, 8); (3260, 3260, 4);
   (3262, 3262, 8); (3263, 3263, 4); (3264, 3265, 8); (3266, 3266, 4); (3267, 3268, 8);
   (3270, 3270, 4); (3271, 3272, 8); (3274, 3275, 8); (3276, 3277, 4); (3285, 3286, 4);
   (3298, 3299, 4); (3328, 3329, 4); (3330, 3331, 8); (3387, 3388, 4); (3390, 3390, 4);
   (3391, 3392, 8); (3393, 3396, 4); (3398, 3400, 8); (3402, 3404, 8); (3405, 3405, 4);
   (3406, 3406, 7); (3415, 3415, 4); (3426, 3427, 4); (3457, 3457, 4); (3458, 3459, 8);
   (3530, 3530, 4); (3535, 3535, 4); (3536, 3537, 8); (3538, 3540, 4); (3542, 3542, 4);
   (3544, 3550, 8); (3551, 3551, 4); (3570, 3571, 8); (3633, 3633, 4); (3635, 3635, 8);
   (3636, 3642, 4); (3655, 3662, 4); (3761, 3761, 4); (3763, 3763, 8); (3764, 3772, 4);
   (3784, 3789, 4); (3864, 3865, 4); (3893, 3893, 4); (3895, 3895, 4); (3897, 3897, 4);
   (3902, 3903, 8); (3953, 3966, 4); (3967, 3967, 8); (3968, 3972, 4); (3974, 3975, 4);
   (3981, 3991, 4); (3993, 4028, 4); (4038, 4038, 4); (4141, 4144, 4); (4145, 4145, 8);
   (4146, 4151, 4); (4153, 4154, 4); (4155, 4156, 8); (4157, 4158, 4); (4182, 4183, 8);
   (4184, 4185, 4); (4190, 4192, 4); (4209, 4212, 4); (4226, 4226, 4); (4228, 4228, 8);
   (4229, 4230, 4); (4237, 4237, 4); (4253, 4253, 4); (4352, 4447, 9); (4448, 4519, 10);
   (4520, 4607, 11); (4957, 4959, 4); (5906, 5908, 4); (5909, 5909, 8); (5938, 5939, 4);
   (5940, 5940, 8); (5970, 5971, 4); (6002, 6003, 4); (6068, 6069, 4); (6070, 6070, 8);
   (6071, 6077, 4); (6078, 6085, 8); (6086, 6086, 4); (6087, 6088, 8); (6089, 6099, 4);
   (6109, 6109, 4); (6155, 6157, 4); (6158, 6158, 3); (6159, 6159, 4); (6277, 6278, 4);
   (6313, 6313, 4); (6432, 6434, 4); (6435, 6438, 8); (6439, 6440, 4); (6441, 6443, 8);
   (6448, 6449, 8); (6450, 6450, 4); (6451, 6456, 8); (6457, 6459, 4); (6679, 6680, 4);
   (6681, 6682, 8); (6683, 6683, 4); (6741, 6741, 8); (6742, 6742, 4); (6743, 6743, 8);
   (6744, 6750, 4); (6752, 6752, 4); (6754, 6754, 4); (6757, 6764, 4); (6765, 6770, 8);
   (6771, 6780, 4); (6783, 6783, 4); (6832, 6845, 4); (6846, 6846, 4); (6847, 6862, 4);
   (6912, 6915, 4); (6916, 6916, 8); (6964, 6964, 4); (6965, 6965, 4); (6966, 6970, 4);
   (6971, 6971, 8); (6972, 6972, 4); (6973, 6977, 8); (6978, 6978, 4); (6979, 6980, 8);
   (7019, 7027, 4); (7040, 7041, 4); (7042, 7042, 8)
  ].

(** grapheme_cluster_break_table rows 250-499 (utility/utf8/grapheme_cluster_break.hpp:244-871). *)
Definition grapheme_cluster_break_table_1 : list (N * N * N) :=
  [
   (7073, 7073, 8); (7074, 7077, 4); (7078, 7079, 8); (7080, 7081, 4); (7082, 7082, 8);
   (7083, 7085, 4); (7142, 7142, 4); (7143, 7143, 8); (7144, 7145, 4); (7146, 7148, 8);
   (7149, 7149, 4); (7150, 7150, 8); (7151, 7153, 4); (7154, 7155, 8); (7204, 7211, 8);
   (7212, 7219, 4); (7220, 7221, 8); (7222, 7223, 4); (7376, 7378, 4); (7380, 7392, 4);
   (7393, 7393, 8); (7394, 7400, 4); (7405, 7405, 4); (7412, 7412, 4); (7415, 7415, 8);
   (7416, 7417, 4); (7616, 7679, 4); (8203, 8203, 3); (8204, 8204, 4); (8205, 8205, 5);
   (8206, 8207, 3); (8232, 8232, 3); (8233, 8233, 3); (8234, 8238, 3); (8252, 8252, 14);
   (8265, 8265, 14); (8288, 8292, 3); (8293, 8293, 3); (8294, 8303, 3); (8400, 8412, 4);
   (8413, 8416, 4); (8417, 8417, 4); (8418, 8420, 4); (8421, 8432, 4); (8482, 8482, 14);
   (8505, 8505, 14); (8596, 8601, 14); (8617, 8618, 14); (8986, 8987, 14); (9000, 9000, 14);
   (9096, 9096, 14); (9167, 9167, 14); (9193, 9196, 14); (9197, 9198, 14); (9199, 9199, 14);
   (9200, 9200, 14); (9201, 9202, 14); (9203, 9203, 14); (9208, 9210, 14); (9410, 9410, 14);
   (9642, 9643, 14); (9654, 9654, 14); (9664, 9664, 14); (9723, 9726, 14); (9728, 9729, 14);
   (9730, 9731, 14); (9732, 9732, 14); (9733, 9733, 14); (9735, 9741, 14); (9742, 9742, 14);
   (9743, 9744, 14); (9745, 9745, 14); (9746, 9746, 14); (9748, 9749, 14); (9750, 9751, 14);
   (9752, 9752, 14); (9753, 9756, 14); (9757, 9757, 14); (9758, 9759, 14); (9760, 9760, 14);
   (9761, 9761, 14); (9762, 9763, 14); (9764, 9765, 14); (9766, 9766, 14); (9767, 9769, 14);
   (9770, 9770, 14); (9771, 9773, 14); (9774, 9774, 14); (9775, 9775, 14); (9776, 9783, 14);
   (9784, 9785, 14); (9786, 9786, 14); (9787, 9791, 14); (9792, 9792, 14); (9793, 9793, 14);
   (9794, 9794, 14); (9795, 9799, 14); (9800, 9811, 14); (9812, 9822, 14); (9823, 9823, 14);
   (9824, 9824, 14); (9825, 9826, 14); (9827, 9827, 14); (9828, 9828, 14); (9829, 9830, 14);
   (9831, 9831, 14); (9832, 9832, 14); (9833, 9850, 14); (9851, 9851, 14); (9852, 9853, 14);
   (9854, 9854, 14); (9855, 9855, 14); (9856, 9861, 14); (9872, 9873, 14); (9874, 9874, 14);
   (9875, 9875, 14); (9876, 9876, 14); (9877, 9877, 14); (9878, 9879, 14); (9880, 9880, 14);
   (9881, 9881, 14); (9882, 9882, 14); (9883, 9884, 14); (9885, 9887, 14); (9888, 9889, 14);
   (9890, 9894, 14); (9895, 9895, 14); (9896, 9897, 14); (9898, 9899, 14); (9900, 9903, 14);
   (9904, 9905, 14); (9906, 9916, 14); (9917, 9918, 14); (9919, 9923, 14); (9924, 9925, 14);
   (9926, 9927, 14); (9928, 9928, 14); (9929, 9933, 14); (9934, 9934, 14); (9935, 9935, 14);
   (9936, 9936, 14); (9937, 9937, 14); (9938, 9938, 14); (9939, 9939, 14); (9940, 9940, 14);
   (9941, 9960, 14); (9961, 9961, 14); (9962, 9962, 14); (9963, 9967, 14); (9968, 9969, 14);
   (9970, 9971, 14); (9972, 9972, 14); (9973, 9973, 14); (9974, 9974, 14); (9975, 9977, 14);
   (9978, 9978, 14); (9979, 9980, 14); (9981, 9981, 14); (9982, 9985, 14); (9986, 9986, 14);
   (9987, 9988, 14); (9989, 9989, 14); (9992, 9996, 14); (9997, 9997, 14); (9998, 9998, 14);
   (9999, 9999, 14); (10000, 10001, 14); (10002, 10002, 14); (10004, 10004, 14);
   (10006, 10006, 14); (10013, 10013, 14); (10017, 10017, 14); (10024, 10024, 14);
   (10035, 10036, 14); (10052, 10052, 14); (10055, 10055, 14); (10060, 10060, 14);
   (10062, 10062, 14); (10067, 10069, 14); (10071, 10071, 14); (10083, 10083, 14);
   (10084, 10084, 14); (10085, 10087, 14); (10133, 10135, 14); (10145, 10145, 14);
   (10160, 10160, 14); (10175, 10175, 14); (10548, 10549, 14); (11013, 11015, 14);
   (11035, 11036, 14); (11088, 11088, 14); (11093, 11093, 14); (11503, 11505, 4);
   (11647, 11647, 4); (11744, 11775, 4); (12330, 12333, 4); (12334, 12335, 4);
   (12336, 12336, 14); (12349, 12349, 14); (12441, 12442, 4); (12951, 12951, 14);
   (12953, 12953, 14); (42607, 42607, 4); (42608, 42610, 4); (42612, 42621, 4);
   (42654, 42655, 4); (42736, 42737, 4); (43010, 43010, 4); (43014, 43014, 4); (43019, 43019, 4);
   (43043, 43044, 8); (43045, 43046, 4); (43047, 43047, 8); (43052, 43052, 4); (43136, 43137, 8);
   (43188, 43203, 8); (43204, 43205, 4); (43232, 43249, 4); (43263, 43263, 4); (43302, 43309, 4);
   (43335, 43345, 4); (43346, 43347, 8); (43360, 43388, 9); (43392, 43394, 4); (43395, 43395, 8);
   (43443, 43443, 4); (43444, 43445, 8); (43446, 43449, 4); (43450, 43451, 8); (43452, 43453, 4);
   (43454, 43456, 8); (43493, 43493, 4); (43561, 43566, 4); (43567, 43568, 8); (43569, 43570, 4);
   (43571, 43572, 8); (43573, 43574, 4); (43587, 43587, 4); (43596, 43596, 4); (43597, 43597, 8);
   (43644, 43644, 4); (43696, 43696, 4); (43698, 43700, 4); (43703, 43704, 4); (43710, 43711, 4);
   (43713, 43713, 4); (43755, 43755, 8); (43756, 43757, 4); (43758, 43759, 8); (43765, 43765, 8)
  ].

(** grapheme_cluster_break_table rows 500-749 (utility/utf8/grapheme_cluster_break.hpp:244-871). *)
Definition grapheme_cluster_break_table_2 : list (N * N * N) :=
  [
   (43766, 43766, 4); (44003, 44004, 8); (44005, 44005, 4); (44006, 44007, 8); (44008, 44008, 4);
   (44009, 44010, 8); (44012, 44012, 8); (44013, 44013, 4); (44032, 44032, 12);
   (44033, 44059, 13); (44060, 44060, 12); (44061, 44087, 13); (44088, 44088, 12);
   (44089, 44115, 13); (44116, 44116, 12); (44117, 44143, 13); (44144, 44144, 12);
   (44145, 44171, 13); (44172, 44172, 12); (44173, 44199, 13); (44200, 44200, 12);
   (44201, 44227, 13); (44228, 44228, 12); (44229, 44255, 13); (44256, 44256, 12);
   (44257, 44283, 13); (44284, 44284, 12); (44285, 44311, 13); (44312, 44312, 12);
   (44313, 44339, 13); (44340, 44340, 12); (44341, 44367, 13); (44368, 44368, 12);
   (44369, 44395, 13); (44396, 44396, 12); (44397, 44423, 13); (44424, 44424, 12);
   (44425, 44451, 13); (44452, 44452, 12); (44453, 44479, 13); (44480, 44480, 12);
   (44481, 44507, 13); (44508, 44508, 12); (44509, 44535, 13); (44536, 44536, 12);
   (44537, 44563, 13); (44564, 44564, 12); (44565, 44591, 13); (44592, 44592, 12);
   (44593, 44619, 13); (44620, 44620, 12); (44621, 44647, 13); (44648, 44648, 12);
   (44649, 44675, 13); (44676, 44676, 12); (44677, 44703, 13); (44704, 44704, 12);
   (44705, 44731, 13); (44732, 44732, 12); (44733, 44759, 13); (44760, 44760, 12);
   (44761, 44787, 13); (44788, 44788, 12); (44789, 44815, 13); (44816, 44816, 12);
   (44817, 44843, 13); (44844, 44844, 12); (44845, 44871, 13); (44872, 44872, 12);
   (44873, 44899, 13); (44900, 44900, 12); (44901, 44927, 13); (44928, 44928, 12);
   (44929, 44955, 13); (44956, 44956, 12); (44957, 44983, 13); (44984, 44984, 12);
   (44985, 45011, 13); (45012, 45012, 12); (45013, 45039, 13); (45040, 45040, 12);
   (45041, 45067, 13); (45068, 45068, 12); (45069, 45095, 13); (45096, 45096, 12);
   (45097, 45123, 13); (45124, 45124, 12); (45125, 45151, 13); (45152, 45152, 12);
   (45153, 45179, 13); (45180, 45180, 12); (45181, 45207, 13); (45208, 45208, 12);
   (45209, 45235, 13); (45236, 45236, 12); (45237, 45263, 13); (45264, 45264, 12);
   (45265, 45291, 13); (45292, 45292, 12); (45293, 45319, 13); (45320, 45320, 12);
   (45321, 45347, 13); (45348, 45348, 12); (45349, 45375, 13); (45376, 45376, 12);
   (45377, 45403, 13); (45404, 45404, 12); (45405, 45431, 13); (45432, 45432, 12);
   (45433, 45459, 13); (45460, 45460, 12); (45461, 45487, 13); (45488, 45488, 12);
   (45489, 45515, 13); (45516, 45516, 12); (45517, 45543, 13); (45544, 45544, 12);
   (45545, 45571, 13); (45572, 45572, 12); (45573, 45599, 13); (45600, 45600, 12);
   (45601, 45627, 13); (45628, 45628, 12); (45629, 45655, 13); (45656, 45656, 12);
   (45657, 45683, 13); (45684, 45684, 12); (45685, 45711, 13); (45712, 45712, 12);
   (45713, 45739, 13); (45740, 45740, 12); (45741, 45767, 13); (45768, 45768, 12);
   (45769, 45795, 13); (45796, 45796, 12); (45797, 45823, 13); (45824, 45824, 12);
   (45825, 45851, 13); (45852, 45852, 12); (45853, 45879, 13); (45880, 45880, 12);
   (45881, 45907, 13); (45908, 45908, 12); (45909, 45935, 13); (45936, 45936, 12);
   (45937, 45963, 13); (45964, 45964, 12); (45965, 45991, 13); (45992, 45992, 12);
   (45993, 46019, 13); (46020, 46020, 12); (46021, 46047, 13); (46048, 46048, 12);
   (46049, 46075, 13); (46076, 46076, 12); (46077, 46103, 13); (46104, 46104, 12);
   (46105, 46131, 13); (46132, 46132, 12); (46133, 46159, 13); (46160, 46160, 12);
   (46161, 46187, 13); (46188, 46188, 12); (46189, 46215, 13); (46216, 46216, 12);
   (46217, 46243, 13); (46244, 46244, 12); (46245, 46271, 13); (46272, 46272, 12);
   (46273, 46299, 13); (46300, 46300, 12); (46301, 46327, 13); (46328, 46328, 12);
   (46329, 46355, 13); (46356, 46356, 12); (46357, 46383, 13); (46384, 46384, 12);
   (46385, 46411, 13); (46412, 46412, 12); (46413, 46439, 13); (46440, 46440, 12);
   (46441, 46467, 13); (46468, 46468, 12); (46469, 46495, 13); (46496, 46496, 12);
   (46497, 46523, 13); (46524, 46524, 12); (46525, 46551, 13); (46552, 46552, 12);
   (46553, 46579, 13); (46580, 46580, 12); (46581, 46607, 13); (46608, 46608, 12);
   (46609, 46635, 13); (46636, 46636, 12); (46637, 46663, 13); (46664, 46664, 12);
   (46665, 46691, 13); (46692, 46692, 12); (46693, 46719, 13); (46720, 46720, 12);
   (46721, 46747, 13); (46748, 46748, 12); (46749, 46775, 13); (46776, 46776, 12);
   (46777, 46803, 13); (46804, 46804, 12); (46805, 46831, 13); (46832, 46832, 12);
   (46833, 46859, 13); (46860, 46860, 12); (46861, 46887, 13); (46888, 46888, 12);
   (46889, 46915, 13); (46916, 46916, 12); (46917, 46943, 13); (46944, 46944, 12);
   (46945, 46971, 13); (46972, 46972, 12); (46973, 46999, 13); (47000, 47000, 12);
   (47001, 47027, 13); (47028, 47028, 12); (47029, 47055, 13); (47056, 47056, 12);
   (47057, 47083, 13); (47084, 47084, 12); (47085, 47111, 13); (47112, 47112, 12);
   (47113, 47139, 13); (47140, 47140, 12); (47141, 47167, 13); (47168, 47168, 12);
   (47169, 47195, 13); (47196, 47196, 12); (47197, 47223, 13); (47224, 47224, 12);
   (47225, 47251, 13); (47252, 47252, 12); (47253, 47279, 13); (47280, 47280, 12);
   (47281, 47307, 13); (47308, 47308, 12); (47309, 47335, 13); (47336, 47336, 12);
   (47337, 47363, 13); (47364, 47364, 12); (47365, 47391, 13); (47392, 47392, 12);
   (47393, 47419, 13)
  ].

(** grapheme_cluster_break_table rows 750-999 (utility/utf8/grapheme_cluster_break.hpp:244-871). *)
Definition grapheme_cluster_break_table_3 : list (N * N * N) :=
  [
   (47420, 47420, 12); (47421, 47447, 13); (47448, 47448, 12); (47449, 47475, 13);
   (47476, 47476, 12); (47477, 47503, 13); (47504, 47504, 12); (47505, 47531, 13);
   (47532, 47532, 12); (47533, 47559, 13); (47560, 47560, 12); (47561, 47587, 13);
   (47588, 47588, 12); (47589, 47615, 13); (47616, 47616, 12); (47617, 47643, 13);
   (47644, 47644, 12); (47645, 47671, 13); (47672, 47672, 12); (47673, 47699, 13);
   (47700, 47700, 12); (47701, 47727, 13); (47728, 47728, 12); (47729, 47755, 13);
   (47756, 47756, 12); (47757, 47783, 13); (47784, 47784, 12); (47785, 47811, 13);
   (47812, 47812, 12); (47813, 47839, 13); (47840, 47840, 12); (47841, 47867, 13);
   (47868, 47868, 12); (47869, 47895, 13); (47896, 47896, 12); (47897, 47923, 13);
   (47924, 47924, 12); (47925, 47951, 13); (47952, 47952, 12); (47953, 47979, 13);
   (47980, 47980, 12); (47981, 48007, 13); (48008, 48008, 12); (48009, 48035, 13);
   (48036, 48036, 12); (48037, 48063, 13); (48064, 48064, 12); (48065, 48091, 13);
   (48092, 48092, 12); (48093, 48119, 13); (48120, 48120, 12); (48121, 48147, 13);
   (48148, 48148, 12); (48149, 48175, 13); (48176, 48176, 12); (48177, 48203, 13);
   (48204, 48204, 12); (48205, 48231, 13); (48232, 48232, 12); (48233, 48259, 13);
   (48260, 48260, 12); (48261, 48287, 13); (48288, 48288, 12); (48289, 48315, 13);
   (48316, 48316, 12); (48317, 48343, 13); (48344, 48344, 12); (48345, 48371, 13);
   (48372, 48372, 12); (48373, 48399, 13); (48400, 48400, 12); (48401, 48427, 13);
   (48428, 48428, 12); (48429, 48455, 13); (48456, 48456, 12); (48457, 48483, 13);
   (48484, 48484, 12); (48485, 48511, 13); (48512, 48512, 12); (48513, 48539, 13);
   (48540, 48540, 12); (48541, 48567, 13); (48568, 48568, 12); (48569, 48595, 13);
   (48596, 48596, 12); (48597, 48623, 13); (48624, 48624, 12); (48625, 48651, 13);
   (48652, 48652, 12); (48653, 48679, 13); (48680, 48680, 12); (48681, 48707, 13);
   (48708, 48708, 12); (48709, 48735, 13); (48736, 48736, 12); (48737, 48763, 13);
   (48764, 48764, 12); (48765, 48791, 13); (48792, 48792, 12); (48793, 48819, 13);
   (48820, 48820, 12); (48821, 48847, 13); (48848, 48848, 12); (48849, 48875, 13);
   (48876, 48876, 12); (48877, 48903, 13); (48904, 48904, 12); (48905, 48931, 13);
   (48932, 48932, 12); (48933, 48959, 13); (48960, 48960, 12); (48961, 48987, 13);
   (48988, 48988, 12); (48989, 49015, 13); (49016, 49016, 12); (49017, 49043, 13);
   (49044, 49044, 12); (49045, 49071, 13); (49072, 49072, 12); (49073, 49099, 13);
   (49100, 49100, 12); (49101, 49127, 13); (49128, 49128, 12); (49129, 49155, 13);
   (49156, 49156, 12); (49157, 49183, 13); (49184, 49184, 12); (49185, 49211, 13);
   (49212, 49212, 12); (49213, 49239, 13); (49240, 49240, 12); (49241, 49267, 13);
   (49268, 49268, 12); (49269, 49295, 13); (49296, 49296, 12); (49297, 49323, 13);
   (49324, 49324, 12); (49325, 49351, 13); (49352, 49352, 12); (49353, 49379, 13);
   (49380, 49380, 12); (49381, 49407, 13); (49408, 49408, 12); (49409, 49435, 13);
   (49436, 49436, 12); (49437, 49463, 13); (49464, 49464, 12); (49465, 49491, 13);
   (49492, 49492, 12); (49493, 49519, 13); (49520, 49520, 12); (49521, 49547, 13);
   (49548, 49548, 12); (49549, 49575, 13); (49576, 49576, 12); (49577, 49603, 13);
   (49604, 49604, 12); (49605, 49631, 13); (49632, 49632, 12); (49633, 49659, 13);
   (49660, 49660, 12); (49661, 49687, 13); (49688, 49688, 12); (49689, 49715, 13);
   (49716, 49716, 12); (49717, 49743, 13); (49744, 49744, 12); (49745, 49771, 13);
   (49772, 49772, 12); (49773, 49799, 13); (49800, 49800, 12); (49801, 49827, 13);
   (49828, 49828, 12); (49829, 49855, 13); (49856, 49856, 12); (49857, 49883, 13);
   (49884, 49884, 12); (49885, 49911, 13); (49912, 49912, 12); (49913, 49939, 13);
   (49940, 49940, 12); (49941, 49967, 13); (49968, 49968, 12); (49969, 49995, 13);
   (49996, 49996, 12); (49997, 50023, 13); (50024, 50024, 12); (50025, 50051, 13);
   (50052, 50052, 12); (50053, 50079, 13); (50080, 50080, 12); (50081, 50107, 13);
   (50108, 50108, 12); (50109, 50135, 13); (50136, 50136, 12); (50137, 50163, 13);
   (50164, 50164, 12); (50165, 50191, 13); (50192, 50192, 12); (50193, 50219, 13);
   (50220, 50220, 12); (50221, 50247, 13); (50248, 50248, 12); (50249, 50275, 13);
   (50276, 50276, 12); (50277, 50303, 13); (50304, 50304, 12); (50305, 50331, 13);
   (50332, 50332, 12); (50333, 50359, 13); (50360, 50360, 12); (50361, 50387, 13);
   (50388, 50388, 12); (50389, 50415, 13); (50416, 50416, 12); (50417, 50443, 13);
   (50444, 50444, 12); (50445, 50471, 13); (50472, 50472, 12); (50473, 50499, 13);
   (50500, 50500, 12); (50501, 50527, 13); (50528, 50528, 12); (50529, 50555, 13);
   (50556, 50556, 12); (50557, 50583, 13); (50584, 50584, 12); (50585, 50611, 13);
   (50612, 50612, 12); (50613, 50639, 13); (50640, 50640, 12); (50641, 50667, 13);
   (50668, 50668, 12); (50669, 50695, 13); (50696, 50696, 12); (50697, 50723, 13);
   (50724, 50724, 12); (50725, 50751, 13); (50752, 50752, 12); (50753, 50779, 13);
   (50780, 50780, 12); (50781, 50807, 13); (50808, 50808, 12); (50809, 50835, 13);
   (50836, 50836, 12); (50837, 50863, 13); (50864, 50864, 12); (50865, 50891, 13);
   (50892, 50892, 12); (50893, 50919, 13)
  ].

(** grapheme_cluster_break_table rows 1000-1249 (utility/utf8/grapheme_cluster_break.hpp:244-871). *)
Definition grapheme_cluster_break_table_4 : list (N * N * N) :=
  [
   (50920, 50920, 12); (50921, 50947, 13); (50948, 50948, 12); (50949, 50975, 13);
   (50976, 50976, 12); (50977, 51003, 13); (51004, 51004, 12); (51005, 51031, 13);
   (51032, 51032, 12); (51033, 51059, 13); (51060, 51060, 12); (51061, 51087, 13);
   (51088, 51088, 12); (51089, 51115, 13); (51116, 51116, 12); (51117, 51143, 13);
   (51144, 51144, 12); (51145, 51171, 13); (51172, 51172, 12); (51173, 51199, 13);
   (51200, 51200, 12); (51201, 51227, 13); (51228, 51228, 12); (51229, 51255, 13);
   (51256, 51256, 12); (51257, 51283, 13); (51284, 51284, 12); (51285, 51311, 13);
   (51312, 51312, 12); (51313, 51339, 13); (51340, 51340, 12); (51341, 51367, 13);
   (51368, 51368, 12); (51369, 51395, 13); (51396, 51396, 12); (51397, 51423, 13);
   (51424, 51424, 12); (51425, 51451, 13); (51452, 51452, 12); (51453, 51479, 13);
   (51480, 51480, 12); (51481, 51507, 13); (51508, 51508, 12); (51509, 51535, 13);
   (51536, 51536, 12); (51537, 51563, 13); (51564, 51564, 12); (51565, 51591, 13);
   (51592, 51592, 12); (51593, 51619, 13); (51620, 51620, 12); (51621, 51647, 13);
   (51648, 51648, 12); (51649, 51675, 13); (51676, 51676, 12); (51677, 51703, 13);
   (51704, 51704, 12); (51705, 51731, 13); (51732, 51732, 12); (51733, 51759, 13);
   (51760, 51760, 12); (51761, 51787, 13); (51788, 51788, 12); (51789, 51815, 13);
   (51816, 51816, 12); (51817, 51843, 13); (51844, 51844, 12); (51845, 51871, 13);
   (51872, 51872, 12); (51873, 51899, 13); (51900, 51900, 12); (51901, 51927, 13);
   (51928, 51928, 12); (51929, 51955, 13); (51956, 51956, 12); (51957, 51983, 13);
   (51984, 51984, 12); (51985, 52011, 13); (52012, 52012, 12); (52013, 52039, 13);
   (52040, 52040, 12); (52041, 52067, 13); (52068, 52068, 12); (52069, 52095, 13);
   (52096, 52096, 12); (52097, 52123, 13); (52124, 52124, 12); (52125, 52151, 13);
   (52152, 52152, 12); (52153, 52179, 13); (52180, 52180, 12); (52181, 52207, 13);
   (52208, 52208, 12); (52209, 52235, 13); (52236, 52236, 12); (52237, 52263, 13);
   (52264, 52264, 12); (52265, 52291, 13); (52292, 52292, 12); (52293, 52319, 13);
   (52320, 52320, 12); (52321, 52347, 13); (52348, 52348, 12); (52349, 52375, 13);
   (52376, 52376, 12); (52377, 52403, 13); (52404, 52404, 12); (52405, 52431, 13);
   (52432, 52432, 12); (52433, 52459, 13); (52460, 52460, 12); (52461, 52487, 13);
   (52488, 52488, 12); (52489, 52515, 13); (52516, 52516, 12); (52517, 52543, 13);
   (52544, 52544, 12); (52545, 52571, 13); (52572, 52572, 12); (52573, 52599, 13);
   (52600, 52600, 12); (52601, 52627, 13); (52628, 52628, 12); (52629, 52655, 13);
   (52656, 52656, 12); (52657, 52683, 13); (52684, 52684, 12); (52685, 52711, 13);
   (52712, 52712, 12); (52713, 52739, 13); (52740, 52740, 12); (52741, 52767, 13);
   (52768, 52768, 12); (52769, 52795, 13); (52796, 52796, 12); (52797, 52823, 13);
   (52824, 52824, 12); (52825, 52851, 13); (52852, 52852, 12); (52853, 52879, 13);
   (52880, 52880, 12); (52881, 52907, 13); (52908, 52908, 12); (52909, 52935, 13);
   (52936, 52936, 12); (52937, 52963, 13); (52964, 52964, 12); (52965, 52991, 13);
   (52992, 52992, 12); (52993, 53019, 13); (53020, 53020, 12); (53021, 53047, 13);
   (53048, 53048, 12); (53049, 53075, 13); (53076, 53076, 12); (53077, 53103, 13);
   (53104, 53104, 12); (53105, 53131, 13); (53132, 53132, 12); (53133, 53159, 13);
   (53160, 53160, 12); (53161, 53187, 13); (53188, 53188, 12); (53189, 53215, 13);
   (53216, 53216, 12); (53217, 53243, 13); (53244, 53244, 12); (53245, 53271, 13);
   (53272, 53272, 12); (53273, 53299, 13); (53300, 53300, 12); (53301, 53327, 13);
   (53328, 53328, 12); (53329, 53355, 13); (53356, 53356, 12); (53357, 53383, 13);
   (53384, 53384, 12); (53385, 53411, 13); (53412, 53412, 12); (53413, 53439, 13);
   (53440, 53440, 12); (53441, 53467, 13); (53468, 53468, 12); (53469, 53495, 13);
   (53496, 53496, 12); (53497, 53523, 13); (53524, 53524, 12); (53525, 53551, 13);
   (53552, 53552, 12); (53553, 53579, 13); (53580, 53580, 12); (53581, 53607, 13);
   (53608, 53608, 12); (53609, 53635, 13); (53636, 53636, 12); (53637, 53663, 13);
   (53664, 53664, 12); (53665, 53691, 13); (53692, 53692, 12); (53693, 53719, 13);
   (53720, 53720, 12); (53721, 53747, 13); (53748, 53748, 12); (53749, 53775, 13);
   (53776, 53776, 12); (53777, 53803, 13); (53804, 53804, 12); (53805, 53831, 13);
   (53832, 53832, 12); (53833, 53859, 13); (53860, 53860, 12); (53861, 53887, 13);
   (53888, 53888, 12); (53889, 53915, 13); (53916, 53916, 12); (53917, 53943, 13);
   (53944, 53944, 12); (53945, 53971, 13); (53972, 53972, 12); (53973, 53999, 13);
   (54000, 54000, 12); (54001, 54027, 13); (54028, 54028, 12); (54029, 54055, 13);
   (54056, 54056, 12); (54057, 54083, 13); (54084, 54084, 12); (54085, 54111, 13);
   (54112, 54112, 12); (54113, 54139, 13); (54140, 54140, 12); (54141, 54167, 13);
   (54168, 54168, 12); (54169, 54195, 13); (54196, 54196, 12); (54197, 54223, 13);
   (54224, 54224, 12); (54225, 54251, 13); (54252, 54252, 12); (54253, 54279, 13);
   (54280, 54280, 12); (54281, 54307, 13); (54308, 54308, 12); (54309, 54335, 13);
   (54336, 54336, 12); (54337, 54363, 13); (54364, 54364, 12); (54365, 54391, 13);
   (54392, 54392, 12); (54393, 54419, 13)
  ].

(** grapheme_cluster_break_table rows 1250-1499 (utility/utf8/grapheme_cluster_break.hpp:244-871). *)
Definition grapheme_cluster_break_table_5 : list (N * N * N) :=
  [
   (54420, 54420, 12); (54421, 54447, 13); (54448, 54448, 12); (54449, 54475, 13);
   (54476, 54476, 12); (54477, 54503, 13); (54504, 54504, 12); (54505, 54531, 13);
   (54532, 54532, 12); (54533, 54559, 13); (54560, 54560, 12); (54561, 54587, 13);
   (54588, 54588, 12); (54589, 54615, 13); (54616, 54616, 12); (54617, 54643, 13);
   (54644, 54644, 12); (54645, 54671, 13); (54672, 54672, 12); (54673, 54699, 13);
   (54700, 54700, 12); (54701, 54727, 13); (54728, 54728, 12); (54729, 54755, 13);
   (54756, 54756, 12); (54757, 54783, 13); (54784, 54784, 12); (54785, 54811, 13);
   (54812, 54812, 12); (54813, 54839, 13); (54840, 54840, 12); (54841, 54867, 13);
   (54868, 54868, 12); (54869, 54895, 13); (54896, 54896, 12); (54897, 54923, 13);
   (54924, 54924, 12); (54925, 54951, 13); (54952, 54952, 12); (54953, 54979, 13);
   (54980, 54980, 12); (54981, 55007, 13); (55008, 55008, 12); (55009, 55035, 13);
   (55036, 55036, 12); (55037, 55063, 13); (55064, 55064, 12); (55065, 55091, 13);
   (55092, 55092, 12); (55093, 55119, 13); (55120, 55120, 12); (55121, 55147, 13);
   (55148, 55148, 12); (55149, 55175, 13); (55176, 55176, 12); (55177, 55203, 13);
   (55216, 55238, 10); (55243, 55291, 11); (64286, 64286, 4); (65024, 65039, 4);
   (65056, 65071, 4); (65279, 65279, 3); (65438, 65439, 4); (65520, 65528, 3); (65529, 65531, 3);
   (66045, 66045, 4); (66272, 66272, 4); (66422, 66426, 4); (68097, 68099, 4); (68101, 68102, 4);
   (68108, 68111, 4); (68152, 68154, 4); (68159, 68159, 4); (68325, 68326, 4); (68900, 68903, 4);
   (69291, 69292, 4); (69446, 69456, 4); (69506, 69509, 4); (69632, 69632, 8); (69633, 69633, 4);
   (69634, 69634, 8); (69688, 69702, 4); (69744, 69744, 4); (69747, 69748, 4); (69759, 69761, 4);
   (69762, 69762, 8); (69808, 69810, 8); (69811, 69814, 4); (69815, 69816, 8); (69817, 69818, 4);
   (69821, 69821, 7); (69826, 69826, 4); (69837, 69837, 7); (69888, 69890, 4); (69927, 69931, 4);
   (69932, 69932, 8); (69933, 69940, 4); (69957, 69958, 8); (70003, 70003, 4); (70016, 70017, 4);
   (70018, 70018, 8); (70067, 70069, 8); (70070, 70078, 4); (70079, 70080, 8); (70082, 70083, 7);
   (70089, 70092, 4); (70094, 70094, 8); (70095, 70095, 4); (70188, 70190, 8); (70191, 70193, 4);
   (70194, 70195, 8); (70196, 70196, 4); (70197, 70197, 8); (70198, 70199, 4); (70206, 70206, 4);
   (70367, 70367, 4); (70368, 70370, 8); (70371, 70378, 4); (70400, 70401, 4); (70402, 70403, 8);
   (70459, 70460, 4); (70462, 70462, 4); (70463, 70463, 8); (70464, 70464, 4); (70465, 70468, 8);
   (70471, 70472, 8); (70475, 70477, 8); (70487, 70487, 4); (70498, 70499, 8); (70502, 70508, 4);
   (70512, 70516, 4); (70709, 70711, 8); (70712, 70719, 4); (70720, 70721, 8); (70722, 70724, 4);
   (70725, 70725, 8); (70726, 70726, 4); (70750, 70750, 4); (70832, 70832, 4); (70833, 70834, 8);
   (70835, 70840, 4); (70841, 70841, 8); (70842, 70842, 4); (70843, 70844, 8); (70845, 70845, 4);
   (70846, 70846, 8); (70847, 70848, 4); (70849, 70849, 8); (70850, 70851, 4); (71087, 71087, 4);
   (71088, 71089, 8); (71090, 71093, 4); (71096, 71099, 8); (71100, 71101, 4); (71102, 71102, 8);
   (71103, 71104, 4); (71132, 71133, 4); (71216, 71218, 8); (71219, 71226, 4); (71227, 71228, 8);
   (71229, 71229, 4); (71230, 71230, 8); (71231, 71232, 4); (71339, 71339, 4); (71340, 71340, 8);
   (71341, 71341, 4); (71342, 71343, 8); (71344, 71349, 4); (71350, 71350, 8); (71351, 71351, 4);
   (71453, 71455, 4); (71458, 71461, 4); (71462, 71462, 8); (71463, 71467, 4); (71724, 71726, 8);
   (71727, 71735, 4); (71736, 71736, 8); (71737, 71738, 4); (71984, 71984, 4); (71985, 71989, 8);
   (71991, 71992, 8); (71995, 71996, 4); (71997, 71997, 8); (71998, 71998, 4); (71999, 71999, 7);
   (72000, 72000, 8); (72001, 72001, 7); (72002, 72002, 8); (72003, 72003, 4); (72145, 72147, 8);
   (72148, 72151, 4); (72154, 72155, 4); (72156, 72159, 8); (72160, 72160, 4); (72164, 72164, 8);
   (72193, 72202, 4); (72243, 72248, 4); (72249, 72249, 8); (72250, 72250, 7); (72251, 72254, 4);
   (72263, 72263, 4); (72273, 72278, 4); (72279, 72280, 8); (72281, 72283, 4); (72324, 72329, 7);
   (72330, 72342, 4); (72343, 72343, 8); (72344, 72345, 4); (72751, 72751, 8); (72752, 72758, 4);
   (72760, 72765, 4); (72766, 72766, 8); (72767, 72767, 4); (72850, 72871, 4); (72873, 72873, 8);
   (72874, 72880, 4); (72881, 72881, 8); (72882, 72883, 4); (72884, 72884, 8); (72885, 72886, 4);
   (73009, 73014, 4); (73018, 73018, 4); (73020, 73021, 4); (73023, 73029, 4); (73030, 73030, 7);
   (73031, 73031, 4); (73098, 73102, 8); (73104, 73105, 4); (73107, 73108, 8); (73109, 73109, 4);
   (73110, 73110, 8); (73111, 73111, 4); (73459, 73460, 4); (73461, 73462, 8); (78896, 78904, 3);
   (92912, 92916, 4); (92976, 92982, 4); (94031, 94031, 4); (94033, 94087, 8); (94095, 94098, 4);
   (94180, 94180, 4); (94192, 94193, 8); (113821, 113822, 4); (113824, 113827, 3);
   (118528, 118573, 4); (118576, 118598, 4); (119141, 119141, 4); (119142, 119142, 8);
   (119143, 119145, 4); (119149, 119149, 8)
  ].

(** grapheme_cluster_break_table rows 1500-1749 (utility/utf8/grapheme_cluster_break.hpp:244-871). *)
Definition grapheme_cluster_break_table_6 : list (N * N * N) :=
  [
   (119150, 119154, 4); (119155, 119162, 3); (119163, 119170, 4); (119173, 119179, 4);
   (119210, 119213, 4); (119362, 119364, 4); (121344, 121398, 4); (121403, 121452, 4);
   (121461, 121461, 4); (121476, 121476, 4); (121499, 121503, 4); (121505, 121519, 4);
   (122880, 122886, 4); (122888, 122904, 4); (122907, 122913, 4); (122915, 122916, 4);
   (122918, 122922, 4); (123184, 123190, 4); (123566, 123566, 4); (123628, 123631, 4);
   (125136, 125142, 4); (125252, 125258, 4); (126976, 126979, 14); (126980, 126980, 14);
   (126981, 127182, 14); (127183, 127183, 14); (127184, 127231, 14); (127245, 127247, 14);
   (127279, 127279, 14); (127340, 127343, 14); (127344, 127345, 14); (127358, 127359, 14);
   (127374, 127374, 14); (127377, 127386, 14); (127405, 127461, 14); (127462, 127487, 6);
   (127489, 127490, 14); (127491, 127503, 14); (127514, 127514, 14); (127535, 127535, 14);
   (127538, 127546, 14); (127548, 127551, 14); (127561, 127567, 14); (127568, 127569, 14);
   (127570, 127743, 14); (127744, 127756, 14); (127757, 127758, 14); (127759, 127759, 14);
   (127760, 127760, 14); (127761, 127761, 14); (127762, 127762, 14); (127763, 127765, 14);
   (127766, 127768, 14); (127769, 127769, 14); (127770, 127770, 14); (127771, 127771, 14);
   (127772, 127772, 14); (127773, 127774, 14); (127775, 127776, 14); (127777, 127777, 14);
   (127778, 127779, 14); (127780, 127788, 14); (127789, 127791, 14); (127792, 127793, 14);
   (127794, 127795, 14); (127796, 127797, 14); (127798, 127798, 14); (127799, 127818, 14);
   (127819, 127819, 14); (127820, 127823, 14); (127824, 127824, 14); (127825, 127867, 14);
   (127868, 127868, 14); (127869, 127869, 14); (127870, 127871, 14); (127872, 127891, 14);
   (127892, 127893, 14); (127894, 127895, 14); (127896, 127896, 14); (127897, 127899, 14);
   (127900, 127901, 14); (127902, 127903, 14); (127904, 127940, 14); (127941, 127941, 14);
   (127942, 127942, 14); (127943, 127943, 14); (127944, 127944, 14); (127945, 127945, 14);
   (127946, 127946, 14); (127947, 127950, 14); (127951, 127955, 14); (127956, 127967, 14);
   (127968, 127971, 14); (127972, 127972, 14); (127973, 127984, 14); (127985, 127986, 14);
   (127987, 127987, 14); (127988, 127988, 14); (127989, 127989, 14); (127990, 127990, 14);
   (127991, 127991, 14); (127992, 127994, 14); (127995, 127999, 4); (128000, 128007, 14);
   (128008, 128008, 14); (128009, 128011, 14); (128012, 128014, 14); (128015, 128016, 14);
   (128017, 128018, 14); (128019, 128019, 14); (128020, 128020, 14); (128021, 128021, 14);
   (128022, 128022, 14); (128023, 128041, 14); (128042, 128042, 14); (128043, 128062, 14);
   (128063, 128063, 14); (128064, 128064, 14); (128065, 128065, 14); (128066, 128100, 14);
   (128101, 128101, 14); (128102, 128107, 14); (128108, 128109, 14); (128110, 128172, 14);
   (128173, 128173, 14); (128174, 128181, 14); (128182, 128183, 14); (128184, 128235, 14);
   (128236, 128237, 14); (128238, 128238, 14); (128239, 128239, 14); (128240, 128244, 14);
   (128245, 128245, 14); (128246, 128247, 14); (128248, 128248, 14); (128249, 128252, 14);
   (128253, 128253, 14); (128254, 128254, 14); (128255, 128258, 14); (128259, 128259, 14);
   (128260, 128263, 14); (128264, 128264, 14); (128265, 128265, 14); (128266, 128276, 14);
   (128277, 128277, 14); (128278, 128299, 14); (128300, 128301, 14); (128302, 128317, 14);
   (128326, 128328, 14); (128329, 128330, 14); (128331, 128334, 14); (128335, 128335, 14);
   (128336, 128347, 14); (128348, 128359, 14); (128360, 128366, 14); (128367, 128368, 14);
   (128369, 128370, 14); (128371, 128377, 14); (128378, 128378, 14); (128379, 128390, 14);
   (128391, 128391, 14); (128392, 128393, 14); (128394, 128397, 14); (128398, 128399, 14);
   (128400, 128400, 14); (128401, 128404, 14); (128405, 128406, 14); (128407, 128419, 14);
   (128420, 128420, 14); (128421, 128421, 14); (128422, 128423, 14); (128424, 128424, 14);
   (128425, 128432, 14); (128433, 128434, 14); (128435, 128443, 14); (128444, 128444, 14);
   (128445, 128449, 14); (128450, 128452, 14); (128453, 128464, 14); (128465, 128467, 14);
   (128468, 128475, 14); (128476, 128478, 14); (128479, 128480, 14); (128481, 128481, 14);
   (128482, 128482, 14); (128483, 128483, 14); (128484, 128487, 14); (128488, 128488, 14);
   (128489, 128494, 14); (128495, 128495, 14); (128496, 128498, 14); (128499, 128499, 14);
   (128500, 128505, 14); (128506, 128506, 14); (128507, 128511, 14); (128512, 128512, 14);
   (128513, 128518, 14); (128519, 128520, 14); (128521, 128525, 14); (128526, 128526, 14);
   (128527, 128527, 14); (128528, 128528, 14); (128529, 128529, 14); (128530, 128532, 14);
   (128533, 128533, 14); (128534, 128534, 14); (128535, 128535, 14); (128536, 128536, 14);
   (128537, 128537, 14); (128538, 128538, 14); (128539, 128539, 14); (128540, 128542, 14);
   (128543, 128543, 14); (128544, 128549, 14); (128550, 128551, 14); (128552, 128555, 14);
   (128556, 128556, 14); (128557, 128557, 14); (128558, 128559, 14); (128560, 128563, 14);
   (128564, 128564, 14); (128565, 128565, 14); (128566, 128566, 14); (128567, 128576, 14);
   (128577, 128580, 14); (128581, 128591, 14); (128640, 128640, 14); (128641, 128642, 14);
   (128643, 128645, 14); (128646, 128646, 14); (128647, 128647, 14); (128648, 128648, 14);
   (128649, 128649, 14); (128650, 128651, 14); (128652, 128652, 14); (128653, 128653, 14);
   (128654, 128654, 14); (128655, 128655, 14); (128656, 128656, 14); (128657, 128659, 14);
   (128660, 128660, 14); (128661, 128661, 14); (128662, 128662, 14); (128663, 128663, 14);
   (128664, 128664, 14); (128665, 128666, 14); (128667, 128673, 14); (128674, 128674, 14);
   (128675, 128675, 14); (128676, 128677, 14)
  ].

(** grapheme_cluster_break_table rows 1750-1877 (utility/utf8/grapheme_cluster_break.hpp:244-871). *)
Definition grapheme_cluster_break_table_7 : list (N * N * N) :=
  [
   (128678, 128678, 14); (128679, 128685, 14); (128686, 128689, 14); (128690, 128690, 14);
   (128691, 128693, 14); (128694, 128694, 14); (128695, 128696, 14); (128697, 128702, 14);
   (128703, 128703, 14); (128704, 128704, 14); (128705, 128709, 14); (128710, 128714, 14);
   (128715, 128715, 14); (128716, 128716, 14); (128717, 128719, 14); (128720, 128720, 14);
   (128721, 128722, 14); (128723, 128724, 14); (128725, 128725, 14); (128726, 128727, 14);
   (128728, 128732, 14); (128733, 128735, 14); (128736, 128741, 14); (128742, 128744, 14);
   (128745, 128745, 14); (128746, 128746, 14); (128747, 128748, 14); (128749, 128751, 14);
   (128752, 128752, 14); (128753, 128754, 14); (128755, 128755, 14); (128756, 128758, 14);
   (128759, 128760, 14); (128761, 128761, 14); (128762, 128762, 14); (128763, 128764, 14);
   (128765, 128767, 14); (128884, 128895, 14); (128981, 128991, 14); (128992, 129003, 14);
   (129004, 129007, 14); (129008, 129008, 14); (129009, 129023, 14); (129036, 129039, 14);
   (129096, 129103, 14); (129114, 129119, 14); (129160, 129167, 14); (129198, 129279, 14);
   (129292, 129292, 14); (129293, 129295, 14); (129296, 129304, 14); (129305, 129310, 14);
   (129311, 129311, 14); (129312, 129319, 14); (129320, 129327, 14); (129328, 129328, 14);
   (129329, 129330, 14); (129331, 129338, 14); (129340, 129342, 14); (129343, 129343, 14);
   (129344, 129349, 14); (129351, 129355, 14); (129356, 129356, 14); (129357, 129359, 14);
   (129360, 129374, 14); (129375, 129387, 14); (129388, 129392, 14); (129393, 129393, 14);
   (129394, 129394, 14); (129395, 129398, 14); (129399, 129400, 14); (129401, 129401, 14);
   (129402, 129402, 14); (129403, 129403, 14); (129404, 129407, 14); (129408, 129412, 14);
   (129413, 129425, 14); (129426, 129431, 14); (129432, 129442, 14); (129443, 129444, 14);
   (129445, 129450, 14); (129451, 129453, 14); (129454, 129455, 14); (129456, 129465, 14);
   (129466, 129471, 14); (129472, 129472, 14); (129473, 129474, 14); (129475, 129482, 14);
   (129483, 129483, 14); (129484, 129484, 14); (129485, 129487, 14); (129488, 129510, 14);
   (129511, 129535, 14); (129536, 129647, 14); (129648, 129651, 14); (129652, 129652, 14);
   (129653, 129655, 14); (129656, 129658, 14); (129659, 129660, 14); (129661, 129663, 14);
   (129664, 129666, 14); (129667, 129670, 14); (129671, 129679, 14); (129680, 129685, 14);
   (129686, 129704, 14); (129705, 129708, 14); (129709, 129711, 14); (129712, 129718, 14);
   (129719, 129722, 14); (129723, 129727, 14); (129728, 129730, 14); (129731, 129733, 14);
   (129734, 129743, 14); (129744, 129750, 14); (129751, 129753, 14); (129754, 129759, 14);
   (129760, 129767, 14); (129768, 129775, 14); (129776, 129782, 14); (129783, 129791, 14);
   (130048, 131069, 14); (917504, 917504, 3); (917505, 917505, 3); (917506, 917535, 3);
   (917536, 917631, 4); (917632, 917759, 3); (917760, 917999, 4); (918000, 921599, 3)
  ].

(** The whole table grapheme_cluster_break_table (utility/utf8/grapheme_cluster_break.hpp:244-871). *)
Definition grapheme_cluster_break_table_rows : list (N * N * N) :=
  grapheme_cluster_break_table_0 ++ grapheme_cluster_break_table_1 ++ grapheme_cluster_break_table_2 ++ grapheme_cluster_break_table_3 ++ grapheme_cluster_break_table_4 ++ grapheme_cluster_break_table_5 ++ grapheme_cluster_break_table_6 ++ grapheme_cluster_break_table_7.
