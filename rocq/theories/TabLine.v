(** Generated from utility/utf8/line_break.hpp:700-1868 (line_break_table), all 3500 rows: (first, last, meta). *)
From Coq Require Import List NArith.
Import ListNotations.
Local Open Scope N_scope.

(** line_break_table rows 0-249 (utility/utf8/line_break.hpp:700-1868). *)
Definition line_break_table_0 : list (N * N * N) :=
  [
   (0, 8, 8); (9, 9, 2); (10, 10, 25); (11, 12, 5); (13, 13, 10); (14, 31, 8); (32, 32, 34);
   (33, 33, 13); (34, 34, 32); (35, 35, 1); (36, 36, 31); (37, 37, 30); (38, 38, 1);
   (39, 39, 32); (40, 40, 29); (41, 41, 9); (42, 42, 1); (43, 43, 31); (44, 44, 21);
   (45, 45, 17); (46, 46, 21); (47, 47, 35); (48, 57, 28); (58, 59, 21); (60, 62, 1);
   (63, 63, 13); (64, 64, 1); (65, 90, 1); (91, 91, 29); (92, 92, 31); (93, 93, 9); (94, 94, 1);
   (95, 95, 1); (96, 96, 1); (97, 122, 1); (123, 123, 29); (124, 124, 2); (125, 125, 7);
   (126, 126, 1); (127, 127, 8); (128, 132, 8); (133, 133, 26); (134, 159, 8); (160, 160, 14);
   (161, 161, 29); (162, 162, 30); (163, 165, 31); (166, 166, 1); (167, 167, 1); (168, 168, 1);
   (169, 169, 1); (170, 170, 1); (171, 171, 32); (172, 172, 1); (173, 173, 2); (174, 174, 1);
   (175, 175, 1); (176, 176, 30); (177, 177, 31); (178, 179, 1); (180, 180, 3); (181, 181, 1);
   (182, 183, 1); (184, 184, 1); (185, 185, 1); (186, 186, 1); (187, 187, 32); (188, 190, 1);
   (191, 191, 29); (192, 214, 1); (215, 215, 1); (216, 246, 1); (247, 247, 1); (248, 255, 1);
   (256, 383, 1); (384, 442, 1); (443, 443, 1); (444, 447, 1); (448, 451, 1); (452, 591, 1);
   (592, 659, 1); (660, 660, 1); (661, 687, 1); (688, 705, 1); (706, 709, 1); (710, 710, 1);
   (711, 711, 1); (712, 712, 3); (713, 715, 1); (716, 716, 3); (717, 717, 1); (718, 719, 1);
   (720, 720, 1); (721, 721, 1); (722, 727, 1); (728, 731, 1); (732, 732, 1); (733, 733, 1);
   (734, 734, 1); (735, 735, 3); (736, 740, 1); (741, 747, 1); (748, 748, 1); (749, 749, 1);
   (750, 750, 1); (751, 767, 1); (768, 846, 8); (847, 847, 14); (848, 859, 8); (860, 866, 14);
   (867, 879, 8); (880, 883, 1); (884, 884, 1); (885, 885, 1); (886, 887, 1); (890, 890, 1);
   (891, 893, 1); (894, 894, 21); (895, 895, 1); (900, 901, 1); (902, 902, 1); (903, 903, 1);
   (904, 906, 1); (908, 908, 1); (910, 929, 1); (931, 1013, 1); (1014, 1014, 1); (1015, 1023, 1);
   (1024, 1153, 1); (1154, 1154, 1); (1155, 1159, 8); (1160, 1161, 8); (1162, 1279, 1);
   (1280, 1327, 1); (1329, 1366, 1); (1369, 1369, 1); (1370, 1375, 1); (1376, 1416, 1);
   (1417, 1417, 21); (1418, 1418, 2); (1421, 1422, 1); (1423, 1423, 31); (1425, 1469, 8);
   (1470, 1470, 2); (1471, 1471, 8); (1472, 1472, 1); (1473, 1474, 8); (1475, 1475, 1);
   (1476, 1477, 8); (1478, 1478, 13); (1479, 1479, 8); (1488, 1514, 19); (1519, 1522, 19);
   (1523, 1524, 1); (1536, 1541, 1); (1542, 1544, 1); (1545, 1546, 30); (1547, 1547, 30);
   (1548, 1549, 21); (1550, 1551, 1); (1552, 1562, 8); (1563, 1563, 13); (1564, 1564, 8);
   (1565, 1567, 13); (1568, 1599, 1); (1600, 1600, 1); (1601, 1610, 1); (1611, 1631, 8);
   (1632, 1641, 28); (1642, 1642, 30); (1643, 1644, 28); (1645, 1645, 1); (1646, 1647, 1);
   (1648, 1648, 8); (1649, 1747, 1); (1748, 1748, 13); (1749, 1749, 1); (1750, 1756, 8);
   (1757, 1757, 1); (1758, 1758, 1); (1759, 1764, 8); (1765, 1766, 1); (1767, 1768, 8);
   (1769, 1769, 1); (1770, 1773, 8); (1774, 1775, 1); (1776, 1785, 28); (1786, 1788, 1);
   (1789, 1790, 1); (1791, 1791, 1); (1792, 1805, 1); (1807, 1807, 1); (1808, 1808, 1);
   (1809, 1809, 8); (1810, 1839, 1); (1840, 1866, 8); (1869, 1871, 1); (1872, 1919, 1);
   (1920, 1957, 1); (1958, 1968, 8); (1969, 1969, 1); (1984, 1993, 28); (1994, 2026, 1);
   (2027, 2035, 8); (2036, 2037, 1); (2038, 2038, 1); (2039, 2039, 1); (2040, 2040, 21);
   (2041, 2041, 13); (2042, 2042, 1); (2045, 2045, 8); (2046, 2047, 31); (2048, 2069, 1);
   (2070, 2073, 8); (2074, 2074, 1); (2075, 2083, 8); (2084, 2084, 1); (2085, 2087, 8);
   (2088, 2088, 1); (2089, 2093, 8); (2096, 2110, 1); (2112, 2136, 1); (2137, 2139, 8);
   (2142, 2142, 1); (2144, 2154, 1); (2160, 2183, 1); (2184, 2184, 1); (2185, 2190, 1);
   (2192, 2193, 1); (2200, 2207, 8); (2208, 2248, 1); (2249, 2249, 1); (2250, 2273, 8);
   (2274, 2274, 1); (2275, 2303, 8); (2304, 2306, 8); (2307, 2307, 8); (2308, 2361, 1);
   (2362, 2362, 8); (2363, 2363, 8); (2364, 2364, 8); (2365, 2365, 1); (2366, 2368, 8);
   (2369, 2376, 8); (2377, 2380, 8); (2381, 2381, 8); (2382, 2383, 8); (2384, 2384, 1);
   (2385, 2391, 8); (2392, 2401, 1)
  ].

(** line_break_table rows 250-499 (utility/utf8/line_break.hpp:700-1868). *)
Definition line_break_table_1 : list (N * N * N) :=
  [
   (2402, 2403, 8); (2404, 2405, 2); (2406, 2415, 28); (2416, 2416, 1); (2417, 2417, 1);
   (2418, 2431, 1); (2432, 2432, 1); (2433, 2433, 8); (2434, 2435, 8); (2437, 2444, 1);
   (2447, 2448, 1); (2451, 2472, 1); (2474, 2480, 1); (2482, 2482, 1); (2486, 2489, 1);
   (2492, 2492, 8); (2493, 2493, 1); (2494, 2496, 8); (2497, 2500, 8); (2503, 2504, 8);
   (2507, 2508, 8); (2509, 2509, 8); (2510, 2510, 1); (2519, 2519, 8); (2524, 2525, 1);
   (2527, 2529, 1); (2530, 2531, 8); (2534, 2543, 28); (2544, 2545, 1); (2546, 2547, 30);
   (2548, 2552, 1); (2553, 2553, 30); (2554, 2554, 1); (2555, 2555, 31); (2556, 2556, 1);
   (2557, 2557, 1); (2558, 2558, 8); (2561, 2562, 8); (2563, 2563, 8); (2565, 2570, 1);
   (2575, 2576, 1); (2579, 2600, 1); (2602, 2608, 1); (2610, 2611, 1); (2613, 2614, 1);
   (2616, 2617, 1); (2620, 2620, 8); (2622, 2624, 8); (2625, 2626, 8); (2631, 2632, 8);
   (2635, 2637, 8); (2641, 2641, 8); (2649, 2652, 1); (2654, 2654, 1); (2662, 2671, 28);
   (2672, 2673, 8); (2674, 2676, 1); (2677, 2677, 8); (2678, 2678, 1); (2689, 2690, 8);
   (2691, 2691, 8); (2693, 2701, 1); (2703, 2705, 1); (2707, 2728, 1); (2730, 2736, 1);
   (2738, 2739, 1); (2741, 2745, 1); (2748, 2748, 8); (2749, 2749, 1); (2750, 2752, 8);
   (2753, 2757, 8); (2759, 2760, 8); (2761, 2761, 8); (2763, 2764, 8); (2765, 2765, 8);
   (2768, 2768, 1); (2784, 2785, 1); (2786, 2787, 8); (2790, 2799, 28); (2800, 2800, 1);
   (2801, 2801, 31); (2809, 2809, 1); (2810, 2815, 8); (2817, 2817, 8); (2818, 2819, 8);
   (2821, 2828, 1); (2831, 2832, 1); (2835, 2856, 1); (2858, 2864, 1); (2866, 2867, 1);
   (2869, 2873, 1); (2876, 2876, 8); (2877, 2877, 1); (2878, 2878, 8); (2879, 2879, 8);
   (2880, 2880, 8); (2881, 2884, 8); (2887, 2888, 8); (2891, 2892, 8); (2893, 2893, 8);
   (2901, 2902, 8); (2903, 2903, 8); (2908, 2909, 1); (2911, 2913, 1); (2914, 2915, 8);
   (2918, 2927, 28); (2928, 2928, 1); (2929, 2929, 1); (2930, 2935, 1); (2946, 2946, 8);
   (2947, 2947, 1); (2949, 2954, 1); (2958, 2960, 1); (2962, 2965, 1); (2969, 2970, 1);
   (2972, 2972, 1); (2974, 2975, 1); (2979, 2980, 1); (2984, 2986, 1); (2990, 3001, 1);
   (3006, 3007, 8); (3008, 3008, 8); (3009, 3010, 8); (3014, 3016, 8); (3018, 3020, 8);
   (3021, 3021, 8); (3024, 3024, 1); (3031, 3031, 8); (3046, 3055, 28); (3056, 3058, 1);
   (3059, 3064, 1); (3065, 3065, 31); (3066, 3066, 1); (3072, 3072, 8); (3073, 3075, 8);
   (3076, 3076, 8); (3077, 3084, 1); (3086, 3088, 1); (3090, 3112, 1); (3114, 3129, 1);
   (3132, 3132, 8); (3133, 3133, 1); (3134, 3136, 8); (3137, 3140, 8); (3142, 3144, 8);
   (3146, 3149, 8); (3157, 3158, 8); (3160, 3162, 1); (3165, 3165, 1); (3168, 3169, 1);
   (3170, 3171, 8); (3174, 3183, 28); (3191, 3191, 3); (3192, 3198, 1); (3199, 3199, 1);
   (3200, 3200, 1); (3201, 3201, 8); (3202, 3203, 8); (3204, 3204, 3); (3205, 3212, 1);
   (3214, 3216, 1); (3218, 3240, 1); (3242, 3251, 1); (3253, 3257, 1); (3260, 3260, 8);
   (3261, 3261, 1); (3262, 3262, 8); (3263, 3263, 8); (3264, 3268, 8); (3270, 3270, 8);
   (3271, 3272, 8); (3274, 3275, 8); (3276, 3277, 8); (3285, 3286, 8); (3293, 3294, 1);
   (3296, 3297, 1); (3298, 3299, 8); (3302, 3311, 28); (3313, 3314, 1); (3328, 3329, 8);
   (3330, 3331, 8); (3332, 3340, 1); (3342, 3344, 1); (3346, 3386, 1); (3387, 3388, 8);
   (3389, 3389, 1); (3390, 3392, 8); (3393, 3396, 8); (3398, 3400, 8); (3402, 3404, 8);
   (3405, 3405, 8); (3406, 3406, 1); (3407, 3407, 1); (3412, 3414, 1); (3415, 3415, 8);
   (3416, 3422, 1); (3423, 3425, 1); (3426, 3427, 8); (3430, 3439, 28); (3440, 3448, 1);
   (3449, 3449, 30); (3450, 3455, 1); (3457, 3457, 8); (3458, 3459, 8); (3461, 3478, 1);
   (3482, 3505, 1); (3507, 3515, 1); (3517, 3517, 1); (3520, 3526, 1); (3530, 3530, 8);
   (3535, 3537, 8); (3538, 3540, 8); (3542, 3542, 8); (3544, 3551, 8); (3558, 3567, 28);
   (3570, 3571, 8); (3572, 3572, 1); (3585, 3632, 1); (3633, 3633, 8); (3634, 3635, 1);
   (3636, 3642, 8); (3647, 3647, 31); (3648, 3653, 1); (3654, 3654, 1); (3655, 3662, 8);
   (3663, 3663, 1); (3664, 3673, 28); (3674, 3675, 2); (3713, 3714, 1); (3716, 3716, 1);
   (3718, 3722, 1); (3724, 3747, 1); (3749, 3749, 1); (3751, 3760, 1); (3761, 3761, 8);
   (3762, 3763, 1); (3764, 3772, 8); (3773, 3773, 1); (3776, 3780, 1); (3782, 3782, 1);
   (3784, 3789, 8); (3792, 3801, 28); (3804, 3807, 1); (3840, 3840, 1); (3841, 3843, 3);
   (3844, 3844, 3); (3845, 3845, 1); (3846, 3847, 3); (3848, 3848, 14); (3849, 3850, 3)
  ].

(** line_break_table rows 500-749 (utility/utf8/line_break.hpp:700-1868). *)
Definition line_break_table_2 : list (N * N * N) :=
  [
   (3851, 3851, 2); (3852, 3852, 14); (3853, 3857, 13); (3858, 3858, 14); (3859, 3859, 1);
   (3860, 3860, 13); (3861, 3863, 1); (3864, 3865, 8); (3866, 3871, 1); (3872, 3881, 28);
   (3882, 3891, 1); (3892, 3892, 2); (3893, 3893, 8); (3894, 3894, 1); (3895, 3895, 8);
   (3896, 3896, 1); (3897, 3897, 8); (3898, 3898, 29); (3899, 3899, 7); (3900, 3900, 29);
   (3901, 3901, 7); (3902, 3903, 8); (3904, 3911, 1); (3913, 3948, 1); (3953, 3966, 8);
   (3967, 3967, 2); (3968, 3972, 8); (3973, 3973, 2); (3974, 3975, 8); (3976, 3980, 1);
   (3981, 3991, 8); (3993, 4028, 8); (4030, 4031, 2); (4032, 4037, 1); (4038, 4038, 8);
   (4039, 4044, 1); (4046, 4047, 1); (4048, 4049, 3); (4050, 4050, 2); (4051, 4051, 3);
   (4052, 4052, 1); (4053, 4056, 1); (4057, 4058, 14); (4096, 4138, 1); (4139, 4140, 8);
   (4141, 4144, 8); (4145, 4145, 8); (4146, 4151, 8); (4152, 4152, 8); (4153, 4154, 8);
   (4155, 4156, 8); (4157, 4158, 8); (4159, 4159, 1); (4160, 4169, 28); (4170, 4171, 2);
   (4172, 4175, 1); (4176, 4181, 1); (4182, 4183, 8); (4184, 4185, 8); (4186, 4189, 1);
   (4190, 4192, 8); (4193, 4193, 1); (4194, 4196, 8); (4197, 4198, 1); (4199, 4205, 8);
   (4206, 4208, 1); (4209, 4212, 8); (4213, 4225, 1); (4226, 4226, 8); (4227, 4228, 8);
   (4229, 4230, 8); (4231, 4236, 8); (4237, 4237, 8); (4238, 4238, 1); (4239, 4239, 8);
   (4240, 4249, 28); (4250, 4252, 8); (4253, 4253, 8); (4254, 4255, 1); (4256, 4293, 1);
   (4295, 4295, 1); (4301, 4301, 1); (4304, 4346, 1); (4347, 4347, 1); (4348, 4348, 1);
   (4349, 4351, 1); (4352, 4447, 22); (4448, 4519, 24); (4520, 4607, 23); (4608, 4680, 1);
   (4682, 4685, 1); (4688, 4694, 1); (4696, 4696, 1); (4698, 4701, 1); (4704, 4744, 1);
   (4746, 4749, 1); (4752, 4784, 1); (4786, 4789, 1); (4792, 4798, 1); (4800, 4800, 1);
   (4802, 4805, 1); (4808, 4822, 1); (4824, 4880, 1); (4882, 4885, 1); (4888, 4954, 1);
   (4957, 4959, 8); (4960, 4960, 1); (4961, 4961, 2); (4962, 4968, 1); (4969, 4988, 1);
   (4992, 5007, 1); (5008, 5017, 1); (5024, 5109, 1); (5112, 5117, 1); (5120, 5120, 2);
   (5121, 5740, 1); (5741, 5741, 1); (5742, 5742, 1); (5743, 5759, 1); (5760, 5760, 2);
   (5761, 5786, 1); (5787, 5787, 29); (5788, 5788, 7); (5792, 5866, 1); (5867, 5869, 2);
   (5870, 5872, 1); (5873, 5880, 1); (5888, 5905, 1); (5906, 5908, 8); (5909, 5909, 8);
   (5919, 5919, 1); (5920, 5937, 1); (5938, 5939, 8); (5940, 5940, 8); (5941, 5942, 2);
   (5952, 5969, 1); (5970, 5971, 8); (5984, 5996, 1); (5998, 6000, 1); (6002, 6003, 8);
   (6016, 6067, 1); (6068, 6069, 8); (6070, 6070, 8); (6071, 6077, 8); (6078, 6085, 8);
   (6086, 6086, 8); (6087, 6088, 8); (6089, 6099, 8); (6100, 6101, 2); (6102, 6102, 27);
   (6103, 6103, 1); (6104, 6104, 2); (6105, 6105, 1); (6106, 6106, 2); (6107, 6107, 31);
   (6108, 6108, 1); (6109, 6109, 8); (6112, 6121, 28); (6128, 6137, 1); (6144, 6145, 1);
   (6146, 6147, 13); (6148, 6149, 2); (6150, 6150, 3); (6151, 6151, 1); (6152, 6153, 13);
   (6154, 6154, 1); (6155, 6157, 8); (6158, 6158, 14); (6159, 6159, 8); (6160, 6169, 28);
   (6176, 6210, 1); (6211, 6211, 1); (6212, 6264, 1); (6272, 6276, 1); (6277, 6278, 8);
   (6279, 6312, 1); (6313, 6313, 8); (6314, 6314, 1); (6320, 6389, 1); (6400, 6430, 1);
   (6432, 6434, 8); (6435, 6438, 8); (6439, 6440, 8); (6441, 6443, 8); (6448, 6449, 8);
   (6450, 6450, 8); (6451, 6456, 8); (6457, 6459, 8); (6464, 6464, 1); (6468, 6469, 13);
   (6470, 6479, 28); (6480, 6509, 1); (6512, 6516, 1); (6528, 6571, 1); (6576, 6601, 1);
   (6608, 6617, 28); (6618, 6618, 1); (6622, 6623, 1); (6624, 6655, 1); (6656, 6678, 1);
   (6679, 6680, 8); (6681, 6682, 8); (6683, 6683, 8); (6686, 6687, 1); (6688, 6740, 1);
   (6741, 6741, 8); (6742, 6742, 8); (6743, 6743, 8); (6744, 6750, 8); (6752, 6752, 8);
   (6753, 6753, 8); (6754, 6754, 8); (6755, 6756, 8); (6757, 6764, 8); (6765, 6770, 8);
   (6771, 6780, 8); (6783, 6783, 8); (6784, 6793, 28); (6800, 6809, 28); (6816, 6822, 1);
   (6823, 6823, 1); (6824, 6829, 1); (6832, 6845, 8); (6846, 6846, 8); (6847, 6862, 8);
   (6912, 6915, 8); (6916, 6916, 8); (6917, 6963, 1); (6964, 6964, 8); (6965, 6965, 8);
   (6966, 6970, 8); (6971, 6971, 8); (6972, 6972, 8); (6973, 6977, 8); (6978, 6978, 8);
   (6979, 6980, 8); (6981, 6988, 1); (6992, 7001, 28); (7002, 7003, 2); (7004, 7004, 1);
   (7005, 7008, 2); (7009, 7018, 1); (7019, 7027, 8); (7028, 7036, 1); (7037, 7038, 2);
   (7040, 7041, 8); (7042, 7042, 8); (7043, 7072, 1); (7073, 7073, 8); (7074, 7077, 8)
  ].

(** line_break_table rows 750-999 (utility/utf8/line_break.hpp:700-1868). *)
Definition line_break_table_3 : list (N * N * N) :=
  [
   (7078, 7079, 8); (7080, 7081, 8); (7082, 7082, 8); (7083, 7085, 8); (7086, 7087, 1);
   (7088, 7097, 28); (7098, 7103, 1); (7104, 7141, 1); (7142, 7142, 8); (7143, 7143, 8);
   (7144, 7145, 8); (7146, 7148, 8); (7149, 7149, 8); (7150, 7150, 8); (7151, 7153, 8);
   (7154, 7155, 8); (7164, 7167, 1); (7168, 7203, 1); (7204, 7211, 8); (7212, 7219, 8);
   (7220, 7221, 8); (7222, 7223, 8); (7227, 7231, 2); (7232, 7241, 28); (7245, 7247, 1);
   (7248, 7257, 28); (7258, 7287, 1); (7288, 7293, 1); (7294, 7295, 2); (7296, 7304, 1);
   (7312, 7354, 1); (7357, 7359, 1); (7360, 7367, 1); (7376, 7378, 8); (7379, 7379, 1);
   (7380, 7392, 8); (7393, 7393, 8); (7394, 7400, 8); (7401, 7404, 1); (7405, 7405, 8);
   (7406, 7411, 1); (7412, 7412, 8); (7413, 7414, 1); (7415, 7415, 8); (7416, 7417, 8);
   (7418, 7418, 1); (7424, 7467, 1); (7468, 7530, 1); (7531, 7543, 1); (7544, 7544, 1);
   (7545, 7551, 1); (7552, 7578, 1); (7579, 7615, 1); (7616, 7679, 8); (7680, 7935, 1);
   (7936, 7957, 1); (7960, 7965, 1); (7968, 8005, 1); (8008, 8013, 1); (8016, 8023, 1);
   (8025, 8025, 1); (8027, 8027, 1); (8029, 8029, 1); (8031, 8061, 1); (8064, 8116, 1);
   (8118, 8124, 1); (8125, 8125, 1); (8126, 8126, 1); (8127, 8129, 1); (8130, 8132, 1);
   (8134, 8140, 1); (8141, 8143, 1); (8144, 8147, 1); (8150, 8155, 1); (8157, 8159, 1);
   (8160, 8172, 1); (8173, 8175, 1); (8178, 8180, 1); (8182, 8188, 1); (8189, 8189, 3);
   (8190, 8190, 1); (8192, 8198, 2); (8199, 8199, 14); (8200, 8202, 2); (8203, 8203, 37);
   (8204, 8204, 8); (8205, 8205, 38); (8206, 8207, 8); (8208, 8208, 2); (8209, 8209, 14);
   (8210, 8211, 2); (8212, 8212, 4); (8213, 8213, 1); (8214, 8214, 1); (8215, 8215, 1);
   (8216, 8216, 32); (8217, 8217, 32); (8218, 8218, 29); (8219, 8220, 32); (8221, 8221, 32);
   (8222, 8222, 29); (8223, 8223, 32); (8224, 8225, 1); (8226, 8227, 1); (8228, 8230, 20);
   (8231, 8231, 2); (8232, 8232, 5); (8233, 8233, 5); (8234, 8238, 8); (8239, 8239, 14);
   (8240, 8247, 30); (8248, 8248, 1); (8249, 8249, 32); (8250, 8250, 32); (8251, 8251, 1);
   (8252, 8253, 27); (8254, 8254, 1); (8255, 8256, 1); (8257, 8259, 1); (8260, 8260, 21);
   (8261, 8261, 29); (8262, 8262, 7); (8263, 8265, 27); (8266, 8273, 1); (8274, 8274, 1);
   (8275, 8275, 1); (8276, 8276, 1); (8277, 8277, 1); (8278, 8278, 2); (8279, 8279, 1);
   (8280, 8283, 2); (8284, 8284, 1); (8285, 8286, 2); (8287, 8287, 2); (8288, 8288, 36);
   (8289, 8292, 1); (8294, 8303, 8); (8304, 8304, 1); (8305, 8305, 1); (8308, 8308, 1);
   (8309, 8313, 1); (8314, 8316, 1); (8317, 8317, 29); (8318, 8318, 7); (8319, 8319, 1);
   (8320, 8320, 1); (8321, 8324, 1); (8325, 8329, 1); (8330, 8332, 1); (8333, 8333, 29);
   (8334, 8334, 7); (8336, 8348, 1); (8352, 8358, 31); (8359, 8359, 30); (8360, 8373, 31);
   (8374, 8374, 30); (8375, 8378, 31); (8379, 8379, 30); (8380, 8381, 31); (8382, 8382, 30);
   (8383, 8383, 31); (8384, 8384, 30); (8385, 8399, 31); (8400, 8412, 8); (8413, 8416, 8);
   (8417, 8417, 8); (8418, 8420, 8); (8421, 8432, 8); (8448, 8449, 1); (8450, 8450, 1);
   (8451, 8451, 30); (8452, 8452, 1); (8453, 8453, 1); (8454, 8454, 1); (8455, 8455, 1);
   (8456, 8456, 1); (8457, 8457, 30); (8458, 8466, 1); (8467, 8467, 1); (8468, 8468, 1);
   (8469, 8469, 1); (8470, 8470, 31); (8471, 8471, 1); (8472, 8472, 1); (8473, 8477, 1);
   (8478, 8480, 1); (8481, 8482, 1); (8483, 8483, 1); (8484, 8484, 1); (8485, 8485, 1);
   (8486, 8486, 1); (8487, 8487, 1); (8488, 8488, 1); (8489, 8489, 1); (8490, 8490, 1);
   (8491, 8491, 1); (8492, 8493, 1); (8494, 8494, 1); (8495, 8500, 1); (8501, 8504, 1);
   (8505, 8505, 1); (8506, 8507, 1); (8508, 8511, 1); (8512, 8516, 1); (8517, 8521, 1);
   (8522, 8522, 1); (8523, 8523, 1); (8524, 8525, 1); (8526, 8526, 1); (8527, 8527, 1);
   (8528, 8531, 1); (8532, 8533, 1); (8534, 8538, 1); (8539, 8539, 1); (8540, 8541, 1);
   (8542, 8542, 1); (8543, 8543, 1); (8544, 8555, 1); (8556, 8559, 1); (8560, 8569, 1);
   (8570, 8578, 1); (8579, 8580, 1); (8581, 8584, 1); (8585, 8585, 1); (8586, 8587, 1);
   (8592, 8596, 1); (8597, 8601, 1); (8602, 8603, 1); (8604, 8607, 1); (8608, 8608, 1);
   (8609, 8610, 1); (8611, 8611, 1); (8612, 8613, 1); (8614, 8614, 1); (8615, 8621, 1);
   (8622, 8622, 1); (8623, 8653, 1); (8654, 8655, 1); (8656, 8657, 1); (8658, 8658, 1);
   (8659, 8659, 1); (8660, 8660, 1); (8661, 8691, 1); (8692, 8703, 1); (8704, 8704, 1);
   (8705, 8705, 1); (8706, 8707, 1); (8708, 8710, 1); (8711, 8712, 1); (8713, 8714, 1)
  ].

(** line_break_table rows 1000-1249 (utility/utf8/line_break.hpp:700-1868). *)
Definition line_break_table_4 : list (N * N * N) :=
  [
   (8715, 8715, 1); (8716, 8718, 1); (8719, 8719, 1); (8720, 8720, 1); (8721, 8721, 1);
   (8722, 8723, 31); (8724, 8724, 1); (8725, 8725, 1); (8726, 8729, 1); (8730, 8730, 1);
   (8731, 8732, 1); (8733, 8736, 1); (8737, 8738, 1); (8739, 8739, 1); (8740, 8740, 1);
   (8741, 8741, 1); (8742, 8742, 1); (8743, 8748, 1); (8749, 8749, 1); (8750, 8750, 1);
   (8751, 8755, 1); (8756, 8759, 1); (8760, 8763, 1); (8764, 8765, 1); (8766, 8775, 1);
   (8776, 8776, 1); (8777, 8779, 1); (8780, 8780, 1); (8781, 8785, 1); (8786, 8786, 1);
   (8787, 8799, 1); (8800, 8801, 1); (8802, 8803, 1); (8804, 8807, 1); (8808, 8809, 1);
   (8810, 8811, 1); (8812, 8813, 1); (8814, 8815, 1); (8816, 8833, 1); (8834, 8835, 1);
   (8836, 8837, 1); (8838, 8839, 1); (8840, 8852, 1); (8853, 8853, 1); (8854, 8856, 1);
   (8857, 8857, 1); (8858, 8868, 1); (8869, 8869, 1); (8870, 8894, 1); (8895, 8895, 1);
   (8896, 8942, 1); (8943, 8943, 20); (8944, 8959, 1); (8960, 8967, 1); (8968, 8968, 29);
   (8969, 8969, 7); (8970, 8970, 29); (8971, 8971, 7); (8972, 8977, 1); (8978, 8978, 1);
   (8979, 8985, 1); (8986, 8987, 18); (8988, 8991, 1); (8992, 8993, 1); (8994, 9000, 1);
   (9001, 9001, 29); (9002, 9002, 7); (9003, 9083, 1); (9084, 9084, 1); (9085, 9114, 1);
   (9115, 9139, 1); (9140, 9179, 1); (9180, 9185, 1); (9186, 9199, 1); (9200, 9203, 18);
   (9204, 9215, 1); (9216, 9254, 1); (9280, 9290, 1); (9312, 9371, 1); (9372, 9449, 1);
   (9450, 9470, 1); (9471, 9471, 1); (9472, 9547, 1); (9548, 9551, 1); (9552, 9588, 1);
   (9589, 9599, 1); (9600, 9615, 1); (9616, 9617, 1); (9618, 9621, 1); (9622, 9631, 1);
   (9632, 9633, 1); (9634, 9634, 1); (9635, 9641, 1); (9642, 9649, 1); (9650, 9651, 1);
   (9652, 9653, 1); (9654, 9654, 1); (9655, 9655, 1); (9656, 9659, 1); (9660, 9661, 1);
   (9662, 9663, 1); (9664, 9664, 1); (9665, 9665, 1); (9666, 9669, 1); (9670, 9672, 1);
   (9673, 9674, 1); (9675, 9675, 1); (9676, 9677, 1); (9678, 9681, 1); (9682, 9697, 1);
   (9698, 9701, 1); (9702, 9710, 1); (9711, 9711, 1); (9712, 9719, 1); (9720, 9727, 1);
   (9728, 9731, 18); (9732, 9732, 1); (9733, 9734, 1); (9735, 9736, 1); (9737, 9737, 1);
   (9738, 9741, 1); (9742, 9743, 1); (9744, 9747, 1); (9748, 9749, 18); (9750, 9751, 1);
   (9752, 9752, 18); (9753, 9753, 1); (9754, 9756, 18); (9757, 9757, 11); (9758, 9759, 18);
   (9760, 9784, 1); (9785, 9787, 18); (9788, 9791, 1); (9792, 9792, 1); (9793, 9793, 1);
   (9794, 9794, 1); (9795, 9823, 1); (9824, 9825, 1); (9826, 9826, 1); (9827, 9829, 1);
   (9830, 9830, 1); (9831, 9831, 1); (9832, 9832, 18); (9833, 9834, 1); (9835, 9835, 1);
   (9836, 9837, 1); (9838, 9838, 1); (9839, 9839, 1); (9840, 9854, 1); (9855, 9855, 18);
   (9856, 9885, 1); (9886, 9887, 1); (9888, 9916, 1); (9917, 9928, 18); (9929, 9932, 1);
   (9933, 9933, 18); (9934, 9934, 1); (9935, 9937, 18); (9938, 9938, 1); (9939, 9940, 18);
   (9941, 9943, 1); (9944, 9945, 18); (9946, 9947, 1); (9948, 9948, 18); (9949, 9950, 1);
   (9951, 9953, 18); (9954, 9954, 1); (9955, 9955, 1); (9956, 9959, 1); (9960, 9961, 1);
   (9962, 9962, 18); (9963, 9968, 1); (9969, 9973, 18); (9974, 9974, 1); (9975, 9976, 18);
   (9977, 9977, 11); (9978, 9978, 18); (9979, 9980, 1); (9981, 9983, 18); (9984, 9988, 18);
   (9989, 9991, 1); (9992, 9993, 18); (9994, 9997, 11); (9998, 10070, 1); (10071, 10071, 1);
   (10072, 10074, 1); (10075, 10080, 32); (10081, 10081, 1); (10082, 10083, 13);
   (10084, 10084, 18); (10085, 10087, 1); (10088, 10088, 29); (10089, 10089, 7);
   (10090, 10090, 29); (10091, 10091, 7); (10092, 10092, 29); (10093, 10093, 7);
   (10094, 10094, 29); (10095, 10095, 7); (10096, 10096, 29); (10097, 10097, 7);
   (10098, 10098, 29); (10099, 10099, 7); (10100, 10100, 29); (10101, 10101, 7);
   (10102, 10131, 1); (10132, 10175, 1); (10176, 10180, 1); (10181, 10181, 29);
   (10182, 10182, 7); (10183, 10213, 1); (10214, 10214, 29); (10215, 10215, 7);
   (10216, 10216, 29); (10217, 10217, 7); (10218, 10218, 29); (10219, 10219, 7);
   (10220, 10220, 29); (10221, 10221, 7); (10222, 10222, 29); (10223, 10223, 7);
   (10224, 10239, 1); (10240, 10495, 1); (10496, 10623, 1); (10624, 10626, 1);
   (10627, 10627, 29); (10628, 10628, 7); (10629, 10629, 29); (10630, 10630, 7);
   (10631, 10631, 29); (10632, 10632, 7); (10633, 10633, 29); (10634, 10634, 7);
   (10635, 10635, 29); (10636, 10636, 7); (10637, 10637, 29); (10638, 10638, 7);
   (10639, 10639, 29); (10640, 10640, 7); (10641, 10641, 29); (10642, 10642, 7);
   (10643, 10643, 29); (10644, 10644, 7); (10645, 10645, 29); (10646, 10646, 7);
   (10647, 10647, 29); (10648, 10648, 7); (10649, 10711, 1); (10712, 10712, 29); (10713, 10713, 7)
  ].

(** line_break_table rows 1250-1499 (utility/utf8/line_break.hpp:700-1868). *)
Definition line_break_table_5 : list (N * N * N) :=
  [
   (10714, 10714, 29); (10715, 10715, 7); (10716, 10747, 1); (10748, 10748, 29);
   (10749, 10749, 7); (10750, 10751, 1); (10752, 11007, 1); (11008, 11055, 1); (11056, 11076, 1);
   (11077, 11078, 1); (11079, 11084, 1); (11085, 11092, 1); (11093, 11097, 1); (11098, 11123, 1);
   (11126, 11157, 1); (11159, 11263, 1); (11264, 11359, 1); (11360, 11387, 1); (11388, 11389, 1);
   (11390, 11391, 1); (11392, 11492, 1); (11493, 11498, 1); (11499, 11502, 1); (11503, 11505, 8);
   (11506, 11507, 1); (11513, 11513, 13); (11514, 11516, 2); (11517, 11517, 1);
   (11518, 11518, 13); (11519, 11519, 2); (11520, 11557, 1); (11559, 11559, 1);
   (11565, 11565, 1); (11568, 11623, 1); (11631, 11631, 1); (11632, 11632, 2); (11647, 11647, 8);
   (11648, 11670, 1); (11680, 11686, 1); (11688, 11694, 1); (11696, 11702, 1); (11704, 11710, 1);
   (11712, 11718, 1); (11720, 11726, 1); (11728, 11734, 1); (11736, 11742, 1); (11744, 11775, 8);
   (11776, 11777, 32); (11778, 11778, 32); (11779, 11779, 32); (11780, 11780, 32);
   (11781, 11781, 32); (11782, 11784, 32); (11785, 11785, 32); (11786, 11786, 32);
   (11787, 11787, 32); (11788, 11788, 32); (11789, 11789, 32); (11790, 11797, 2);
   (11798, 11798, 1); (11799, 11799, 2); (11800, 11800, 29); (11801, 11801, 2);
   (11802, 11802, 1); (11803, 11803, 1); (11804, 11804, 32); (11805, 11805, 32);
   (11806, 11807, 1); (11808, 11808, 32); (11809, 11809, 32); (11810, 11810, 29);
   (11811, 11811, 7); (11812, 11812, 29); (11813, 11813, 7); (11814, 11814, 29);
   (11815, 11815, 7); (11816, 11816, 29); (11817, 11817, 7); (11818, 11821, 2);
   (11822, 11822, 13); (11823, 11823, 1); (11824, 11825, 2); (11826, 11826, 1);
   (11827, 11828, 2); (11829, 11833, 1); (11834, 11835, 4); (11836, 11838, 2); (11839, 11839, 1);
   (11840, 11840, 2); (11841, 11841, 2); (11842, 11842, 29); (11843, 11850, 2);
   (11851, 11851, 1); (11852, 11852, 2); (11853, 11853, 1); (11854, 11855, 2); (11856, 11857, 1);
   (11858, 11858, 1); (11859, 11860, 13); (11861, 11861, 29); (11862, 11862, 7);
   (11863, 11863, 29); (11864, 11864, 7); (11865, 11865, 29); (11866, 11866, 7);
   (11867, 11867, 29); (11868, 11868, 7); (11869, 11869, 2); (11904, 11929, 18);
   (11931, 12019, 18); (12032, 12245, 18); (12272, 12283, 18); (12288, 12288, 2);
   (12289, 12290, 7); (12291, 12291, 18); (12292, 12292, 18); (12293, 12293, 27);
   (12294, 12294, 18); (12295, 12295, 18); (12296, 12296, 29); (12297, 12297, 7);
   (12298, 12298, 29); (12299, 12299, 7); (12300, 12300, 29); (12301, 12301, 7);
   (12302, 12302, 29); (12303, 12303, 7); (12304, 12304, 29); (12305, 12305, 7);
   (12306, 12307, 18); (12308, 12308, 29); (12309, 12309, 7); (12310, 12310, 29);
   (12311, 12311, 7); (12312, 12312, 29); (12313, 12313, 7); (12314, 12314, 29);
   (12315, 12315, 7); (12316, 12316, 27); (12317, 12317, 29); (12318, 12319, 7);
   (12320, 12320, 18); (12321, 12329, 18); (12330, 12333, 8); (12334, 12335, 8);
   (12336, 12336, 18); (12337, 12340, 18); (12341, 12341, 8); (12342, 12343, 18);
   (12344, 12346, 18); (12347, 12347, 27); (12348, 12348, 27); (12349, 12349, 18);
   (12350, 12351, 18); (12353, 12353, 27); (12354, 12354, 18); (12355, 12355, 27);
   (12356, 12356, 18); (12357, 12357, 27); (12358, 12358, 18); (12359, 12359, 27);
   (12360, 12360, 18); (12361, 12361, 27); (12362, 12386, 18); (12387, 12387, 27);
   (12388, 12418, 18); (12419, 12419, 27); (12420, 12420, 18); (12421, 12421, 27);
   (12422, 12422, 18); (12423, 12423, 27); (12424, 12429, 18); (12430, 12430, 27);
   (12431, 12436, 18); (12437, 12438, 27); (12441, 12442, 8); (12443, 12444, 27);
   (12445, 12446, 27); (12447, 12447, 18); (12448, 12448, 27); (12449, 12449, 27);
   (12450, 12450, 18); (12451, 12451, 27); (12452, 12452, 18); (12453, 12453, 27);
   (12454, 12454, 18); (12455, 12455, 27); (12456, 12456, 18); (12457, 12457, 27);
   (12458, 12482, 18); (12483, 12483, 27); (12484, 12514, 18); (12515, 12515, 27);
   (12516, 12516, 18); (12517, 12517, 27); (12518, 12518, 18); (12519, 12519, 27);
   (12520, 12525, 18); (12526, 12526, 27); (12527, 12532, 18); (12533, 12534, 27);
   (12535, 12538, 18); (12539, 12539, 27); (12540, 12540, 27); (12541, 12542, 27);
   (12543, 12543, 18); (12549, 12591, 18); (12593, 12686, 18); (12688, 12689, 18);
   (12690, 12693, 18); (12694, 12703, 18); (12704, 12735, 18); (12736, 12771, 18);
   (12784, 12799, 27); (12800, 12830, 18); (12832, 12841, 18); (12842, 12871, 18);
   (12872, 12879, 1); (12880, 12880, 18); (12881, 12895, 18); (12896, 12927, 18);
   (12928, 12937, 18); (12938, 12976, 18); (12977, 12991, 18); (12992, 13055, 18);
   (13056, 13311, 18); (13312, 19903, 18); (19904, 19967, 1); (19968, 40959, 18);
   (40960, 40980, 18); (40981, 40981, 27); (40982, 42124, 18); (42128, 42182, 18);
   (42192, 42231, 1); (42232, 42237, 1); (42238, 42239, 2); (42240, 42507, 1); (42508, 42508, 1);
   (42509, 42509, 2); (42510, 42510, 13); (42511, 42511, 2); (42512, 42527, 1);
   (42528, 42537, 28); (42538, 42539, 1); (42560, 42605, 1); (42606, 42606, 1);
   (42607, 42607, 8); (42608, 42610, 8); (42611, 42611, 1); (42612, 42621, 8)
  ].

(** line_break_table rows 1500-1749 (utility/utf8/line_break.hpp:700-1868). *)
Definition line_break_table_6 : list (N * N * N) :=
  [
   (42622, 42622, 1); (42623, 42623, 1); (42624, 42651, 1); (42652, 42653, 1); (42654, 42655, 8);
   (42656, 42725, 1); (42726, 42735, 1); (42736, 42737, 8); (42738, 42738, 1); (42739, 42743, 2);
   (42752, 42774, 1); (42775, 42783, 1); (42784, 42785, 1); (42786, 42863, 1); (42864, 42864, 1);
   (42865, 42887, 1); (42888, 42888, 1); (42889, 42890, 1); (42891, 42894, 1); (42895, 42895, 1);
   (42896, 42954, 1); (42960, 42961, 1); (42963, 42963, 1); (42965, 42969, 1); (42994, 42996, 1);
   (42997, 42998, 1); (42999, 42999, 1); (43000, 43001, 1); (43002, 43002, 1); (43003, 43007, 1);
   (43008, 43009, 1); (43010, 43010, 8); (43011, 43013, 1); (43014, 43014, 8); (43015, 43018, 1);
   (43019, 43019, 8); (43020, 43042, 1); (43043, 43044, 8); (43045, 43046, 8); (43047, 43047, 8);
   (43048, 43051, 1); (43052, 43052, 8); (43056, 43061, 1); (43062, 43063, 1);
   (43064, 43064, 30); (43065, 43065, 1); (43072, 43123, 1); (43124, 43125, 3);
   (43126, 43127, 13); (43136, 43137, 8); (43138, 43187, 1); (43188, 43203, 8);
   (43204, 43205, 8); (43214, 43215, 2); (43216, 43225, 28); (43232, 43249, 8);
   (43250, 43255, 1); (43256, 43258, 1); (43259, 43259, 1); (43260, 43260, 3); (43261, 43262, 1);
   (43263, 43263, 8); (43264, 43273, 28); (43274, 43301, 1); (43302, 43309, 8);
   (43310, 43311, 2); (43312, 43334, 1); (43335, 43345, 8); (43346, 43347, 8); (43359, 43359, 1);
   (43360, 43388, 22); (43392, 43394, 8); (43395, 43395, 8); (43396, 43442, 1);
   (43443, 43443, 8); (43444, 43445, 8); (43446, 43449, 8); (43450, 43451, 8); (43452, 43453, 8);
   (43454, 43456, 8); (43457, 43462, 1); (43463, 43465, 2); (43466, 43469, 1); (43471, 43471, 1);
   (43472, 43481, 28); (43486, 43487, 1); (43488, 43492, 1); (43493, 43493, 8);
   (43494, 43494, 1); (43495, 43503, 1); (43504, 43513, 28); (43514, 43518, 1);
   (43520, 43560, 1); (43561, 43566, 8); (43567, 43568, 8); (43569, 43570, 8); (43571, 43572, 8);
   (43573, 43574, 8); (43584, 43586, 1); (43587, 43587, 8); (43588, 43595, 1); (43596, 43596, 8);
   (43597, 43597, 8); (43600, 43609, 28); (43612, 43612, 1); (43613, 43615, 2);
   (43616, 43631, 1); (43632, 43632, 1); (43633, 43638, 1); (43639, 43641, 1); (43642, 43642, 1);
   (43643, 43643, 8); (43644, 43644, 8); (43645, 43645, 8); (43646, 43647, 1); (43648, 43695, 1);
   (43696, 43696, 8); (43697, 43697, 1); (43698, 43700, 8); (43701, 43702, 1); (43703, 43704, 8);
   (43705, 43709, 1); (43710, 43711, 8); (43712, 43712, 1); (43713, 43713, 8); (43714, 43714, 1);
   (43739, 43740, 1); (43741, 43741, 1); (43742, 43743, 1); (43744, 43754, 1); (43755, 43755, 8);
   (43756, 43757, 8); (43758, 43759, 8); (43760, 43761, 2); (43762, 43762, 1); (43763, 43764, 1);
   (43765, 43765, 8); (43766, 43766, 8); (43777, 43782, 1); (43785, 43790, 1); (43793, 43798, 1);
   (43808, 43814, 1); (43816, 43822, 1); (43824, 43866, 1); (43867, 43867, 1); (43868, 43871, 1);
   (43872, 43880, 1); (43881, 43881, 1); (43882, 43883, 1); (43888, 43967, 1); (43968, 44002, 1);
   (44003, 44004, 8); (44005, 44005, 8); (44006, 44007, 8); (44008, 44008, 8); (44009, 44010, 8);
   (44011, 44011, 2); (44012, 44012, 8); (44013, 44013, 8); (44016, 44025, 28);
   (44032, 44032, 15); (44033, 44059, 16); (44060, 44060, 15); (44061, 44087, 16);
   (44088, 44088, 15); (44089, 44115, 16); (44116, 44116, 15); (44117, 44143, 16);
   (44144, 44144, 15); (44145, 44171, 16); (44172, 44172, 15); (44173, 44199, 16);
   (44200, 44200, 15); (44201, 44227, 16); (44228, 44228, 15); (44229, 44255, 16);
   (44256, 44256, 15); (44257, 44283, 16); (44284, 44284, 15); (44285, 44311, 16);
   (44312, 44312, 15); (44313, 44339, 16); (44340, 44340, 15); (44341, 44367, 16);
   (44368, 44368, 15); (44369, 44395, 16); (44396, 44396, 15); (44397, 44423, 16);
   (44424, 44424, 15); (44425, 44451, 16); (44452, 44452, 15); (44453, 44479, 16);
   (44480, 44480, 15); (44481, 44507, 16); (44508, 44508, 15); (44509, 44535, 16);
   (44536, 44536, 15); (44537, 44563, 16); (44564, 44564, 15); (44565, 44591, 16);
   (44592, 44592, 15); (44593, 44619, 16); (44620, 44620, 15); (44621, 44647, 16);
   (44648, 44648, 15); (44649, 44675, 16); (44676, 44676, 15); (44677, 44703, 16);
   (44704, 44704, 15); (44705, 44731, 16); (44732, 44732, 15); (44733, 44759, 16);
   (44760, 44760, 15); (44761, 44787, 16); (44788, 44788, 15); (44789, 44815, 16);
   (44816, 44816, 15); (44817, 44843, 16); (44844, 44844, 15); (44845, 44871, 16);
   (44872, 44872, 15); (44873, 44899, 16); (44900, 44900, 15); (44901, 44927, 16);
   (44928, 44928, 15); (44929, 44955, 16); (44956, 44956, 15); (44957, 44983, 16);
   (44984, 44984, 15); (44985, 45011, 16); (45012, 45012, 15); (45013, 45039, 16);
   (45040, 45040, 15); (45041, 45067, 16); (45068, 45068, 15); (45069, 45095, 16);
   (45096, 45096, 15); (45097, 45123, 16); (45124, 45124, 15); (45125, 45151, 16);
   (45152, 45152, 15); (45153, 45179, 16); (45180, 45180, 15); (45181, 45207, 16);
   (45208, 45208, 15); (45209, 45235, 16); (45236, 45236, 15); (45237, 45263, 16);
   (45264, 45264, 15); (45265, 45291, 16)
  ].

(** line_break_table rows 1750-1999 (utility/utf8/line_break.hpp:700-1868). *)
Definition line_break_table_7 : list (N * N * N) :=
  [
   (45292, 45292, 15); (45293, 45319, 16); (45320, 45320, 15); (45321, 45347, 16);
   (45348, 45348, 15); (45349, 45375, 16); (45376, 45376, 15); (45377, 45403, 16);
   (45404, 45404, 15); (45405, 45431, 16); (45432, 45432, 15); (45433, 45459, 16);
   (45460, 45460, 15); (45461, 45487, 16); (45488, 45488, 15); (45489, 45515, 16);
   (45516, 45516, 15); (45517, 45543, 16); (45544, 45544, 15); (45545, 45571, 16);
   (45572, 45572, 15); (45573, 45599, 16); (45600, 45600, 15); (45601, 45627, 16);
   (45628, 45628, 15); (45629, 45655, 16); (45656, 45656, 15); (45657, 45683, 16);
   (45684, 45684, 15); (45685, 45711, 16); (45712, 45712, 15); (45713, 45739, 16);
   (45740, 45740, 15); (45741, 45767, 16); (45768, 45768, 15); (45769, 45795, 16);
   (45796, 45796, 15); (45797, 45823, 16); (45824, 45824, 15); (45825, 45851, 16);
   (45852, 45852, 15); (45853, 45879, 16); (45880, 45880, 15); (45881, 45907, 16);
   (45908, 45908, 15); (45909, 45935, 16); (45936, 45936, 15); (45937, 45963, 16);
   (45964, 45964, 15); (45965, 45991, 16); (45992, 45992, 15); (45993, 46019, 16);
   (46020, 46020, 15); (46021, 46047, 16); (46048, 46048, 15); (46049, 46075, 16);
   (46076, 46076, 15); (46077, 46103, 16); (46104, 46104, 15); (46105, 46131, 16);
   (46132, 46132, 15); (46133, 46159, 16); (46160, 46160, 15); (46161, 46187, 16);
   (46188, 46188, 15); (46189, 46215, 16); (46216, 46216, 15); (46217, 46243, 16);
   (46244, 46244, 15); (46245, 46271, 16); (46272, 46272, 15); (46273, 46299, 16);
   (46300, 46300, 15); (46301, 46327, 16); (46328, 46328, 15); (46329, 46355, 16);
   (46356, 46356, 15); (46357, 46383, 16); (46384, 46384, 15); (46385, 46411, 16);
   (46412, 46412, 15); (46413, 46439, 16); (46440, 46440, 15); (46441, 46467, 16);
   (46468, 46468, 15); (46469, 46495, 16); (46496, 46496, 15); (46497, 46523, 16);
   (46524, 46524, 15); (46525, 46551, 16); (46552, 46552, 15); (46553, 46579, 16);
   (46580, 46580, 15); (46581, 46607, 16); (46608, 46608, 15); (46609, 46635, 16);
   (46636, 46636, 15); (46637, 46663, 16); (46664, 46664, 15); (46665, 46691, 16);
   (46692, 46692, 15); (46693, 46719, 16); (46720, 46720, 15); (46721, 46747, 16);
   (46748, 46748, 15); (46749, 46775, 16); (46776, 46776, 15); (46777, 46803, 16);
   (46804, 46804, 15); (46805, 46831, 16); (46832, 46832, 15); (46833, 46859, 16);
   (46860, 46860, 15); (46861, 46887, 16); (46888, 46888, 15); (46889, 46915, 16);
   (46916, 46916, 15); (46917, 46943, 16); (46944, 46944, 15); (46945, 46971, 16);
   (46972, 46972, 15); (46973, 46999, 16); (47000, 47000, 15); (47001, 47027, 16);
   (47028, 47028, 15); (47029, 47055, 16); (47056, 47056, 15); (47057, 47083, 16);
   (47084, 47084, 15); (47085, 47111, 16); (47112, 47112, 15); (47113, 47139, 16);
   (47140, 47140, 15); (47141, 47167, 16); (47168, 47168, 15); (47169, 47195, 16);
   (47196, 47196, 15); (47197, 47223, 16); (47224, 47224, 15); (47225, 47251, 16);
   (47252, 47252, 15); (47253, 47279, 16); (47280, 47280, 15); (47281, 47307, 16);
   (47308, 47308, 15); (47309, 47335, 16); (47336, 47336, 15); (47337, 47363, 16);
   (47364, 47364, 15); (47365, 47391, 16); (47392, 47392, 15); (47393, 47419, 16);
   (47420, 47420, 15); (47421, 47447, 16); (47448, 47448, 15); (47449, 47475, 16);
   (47476, 47476, 15); (47477, 47503, 16); (47504, 47504, 15); (47505, 47531, 16);
   (47532, 47532, 15); (47533, 47559, 16); (47560, 47560, 15); (47561, 47587, 16);
   (47588, 47588, 15); (47589, 47615, 16); (47616, 47616, 15); (47617, 47643, 16);
   (47644, 47644, 15); (47645, 47671, 16); (47672, 47672, 15); (47673, 47699, 16);
   (47700, 47700, 15); (47701, 47727, 16); (47728, 47728, 15); (47729, 47755, 16);
   (47756, 47756, 15); (47757, 47783, 16); (47784, 47784, 15); (47785, 47811, 16);
   (47812, 47812, 15); (47813, 47839, 16); (47840, 47840, 15); (47841, 47867, 16);
   (47868, 47868, 15); (47869, 47895, 16); (47896, 47896, 15); (47897, 47923, 16);
   (47924, 47924, 15); (47925, 47951, 16); (47952, 47952, 15); (47953, 47979, 16);
   (47980, 47980, 15); (47981, 48007, 16); (48008, 48008, 15); (48009, 48035, 16);
   (48036, 48036, 15); (48037, 48063, 16); (48064, 48064, 15); (48065, 48091, 16);
   (48092, 48092, 15); (48093, 48119, 16); (48120, 48120, 15); (48121, 48147, 16);
   (48148, 48148, 15); (48149, 48175, 16); (48176, 48176, 15); (48177, 48203, 16);
   (48204, 48204, 15); (48205, 48231, 16); (48232, 48232, 15); (48233, 48259, 16);
   (48260, 48260, 15); (48261, 48287, 16); (48288, 48288, 15); (48289, 48315, 16);
   (48316, 48316, 15); (48317, 48343, 16); (48344, 48344, 15); (48345, 48371, 16);
   (48372, 48372, 15); (48373, 48399, 16); (48400, 48400, 15); (48401, 48427, 16);
   (48428, 48428, 15); (48429, 48455, 16); (48456, 48456, 15); (48457, 48483, 16);
   (48484, 48484, 15); (48485, 48511, 16); (48512, 48512, 15); (48513, 48539, 16);
   (48540, 48540, 15); (48541, 48567, 16); (48568, 48568, 15); (48569, 48595, 16);
   (48596, 48596, 15); (48597, 48623, 16); (48624, 48624, 15); (48625, 48651, 16);
   (48652, 48652, 15); (48653, 48679, 16); (48680, 48680, 15); (48681, 48707, 16);
   (48708, 48708, 15); (48709, 48735, 16); (48736, 48736, 15); (48737, 48763, 16);
   (48764, 48764, 15); (48765, 48791, 16)
  ].

(** line_break_table rows 2000-2249 (utility/utf8/line_break.hpp:700-1868). *)
Definition line_break_table_8 : list (N * N * N) :=
  [
   (48792, 48792, 15); (48793, 48819, 16); (48820, 48820, 15); (48821, 48847, 16);
   (48848, 48848, 15); (48849, 48875, 16); (48876, 48876, 15); (48877, 48903, 16);
   (48904, 48904, 15); (48905, 48931, 16); (48932, 48932, 15); (48933, 48959, 16);
   (48960, 48960, 15); (48961, 48987, 16); (48988, 48988, 15); (48989, 49015, 16);
   (49016, 49016, 15); (49017, 49043, 16); (49044, 49044, 15); (49045, 49071, 16);
   (49072, 49072, 15); (49073, 49099, 16); (49100, 49100, 15); (49101, 49127, 16);
   (49128, 49128, 15); (49129, 49155, 16); (49156, 49156, 15); (49157, 49183, 16);
   (49184, 49184, 15); (49185, 49211, 16); (49212, 49212, 15); (49213, 49239, 16);
   (49240, 49240, 15); (49241, 49267, 16); (49268, 49268, 15); (49269, 49295, 16);
   (49296, 49296, 15); (49297, 49323, 16); (49324, 49324, 15); (49325, 49351, 16);
   (49352, 49352, 15); (49353, 49379, 16); (49380, 49380, 15); (49381, 49407, 16);
   (49408, 49408, 15); (49409, 49435, 16); (49436, 49436, 15); (49437, 49463, 16);
   (49464, 49464, 15); (49465, 49491, 16); (49492, 49492, 15); (49493, 49519, 16);
   (49520, 49520, 15); (49521, 49547, 16); (49548, 49548, 15); (49549, 49575, 16);
   (49576, 49576, 15); (49577, 49603, 16); (49604, 49604, 15); (49605, 49631, 16);
   (49632, 49632, 15); (49633, 49659, 16); (49660, 49660, 15); (49661, 49687, 16);
   (49688, 49688, 15); (49689, 49715, 16); (49716, 49716, 15); (49717, 49743, 16);
   (49744, 49744, 15); (49745, 49771, 16); (49772, 49772, 15); (49773, 49799, 16);
   (49800, 49800, 15); (49801, 49827, 16); (49828, 49828, 15); (49829, 49855, 16);
   (49856, 49856, 15); (49857, 49883, 16); (49884, 49884, 15); (49885, 49911, 16);
   (49912, 49912, 15); (49913, 49939, 16); (49940, 49940, 15); (49941, 49967, 16);
   (49968, 49968, 15); (49969, 49995, 16); (49996, 49996, 15); (49997, 50023, 16);
   (50024, 50024, 15); (50025, 50051, 16); (50052, 50052, 15); (50053, 50079, 16);
   (50080, 50080, 15); (50081, 50107, 16); (50108, 50108, 15); (50109, 50135, 16);
   (50136, 50136, 15); (50137, 50163, 16); (50164, 50164, 15); (50165, 50191, 16);
   (50192, 50192, 15); (50193, 50219, 16); (50220, 50220, 15); (50221, 50247, 16);
   (50248, 50248, 15); (50249, 50275, 16); (50276, 50276, 15); (50277, 50303, 16);
   (50304, 50304, 15); (50305, 50331, 16); (50332, 50332, 15); (50333, 50359, 16);
   (50360, 50360, 15); (50361, 50387, 16); (50388, 50388, 15); (50389, 50415, 16);
   (50416, 50416, 15); (50417, 50443, 16); (50444, 50444, 15); (50445, 50471, 16);
   (50472, 50472, 15); (50473, 50499, 16); (50500, 50500, 15); (50501, 50527, 16);
   (50528, 50528, 15); (50529, 50555, 16); (50556, 50556, 15); (50557, 50583, 16);
   (50584, 50584, 15); (50585, 50611, 16); (50612, 50612, 15); (50613, 50639, 16);
   (50640, 50640, 15); (50641, 50667, 16); (50668, 50668, 15); (50669, 50695, 16);
   (50696, 50696, 15); (50697, 50723, 16); (50724, 50724, 15); (50725, 50751, 16);
   (50752, 50752, 15); (50753, 50779, 16); (50780, 50780, 15); (50781, 50807, 16);
   (50808, 50808, 15); (50809, 50835, 16); (50836, 50836, 15); (50837, 50863, 16);
   (50864, 50864, 15); (50865, 50891, 16); (50892, 50892, 15); (50893, 50919, 16);
   (50920, 50920, 15); (50921, 50947, 16); (50948, 50948, 15); (50949, 50975, 16);
   (50976, 50976, 15); (50977, 51003, 16); (51004, 51004, 15); (51005, 51031, 16);
   (51032, 51032, 15); (51033, 51059, 16); (51060, 51060, 15); (51061, 51087, 16);
   (51088, 51088, 15); (51089, 51115, 16); (51116, 51116, 15); (51117, 51143, 16);
   (51144, 51144, 15); (51145, 51171, 16); (51172, 51172, 15); (51173, 51199, 16);
   (51200, 51200, 15); (51201, 51227, 16); (51228, 51228, 15); (51229, 51255, 16);
   (51256, 51256, 15); (51257, 51283, 16); (51284, 51284, 15); (51285, 51311, 16);
   (51312, 51312, 15); (51313, 51339, 16); (51340, 51340, 15); (51341, 51367, 16);
   (51368, 51368, 15); (51369, 51395, 16); (51396, 51396, 15); (51397, 51423, 16);
   (51424, 51424, 15); (51425, 51451, 16); (51452, 51452, 15); (51453, 51479, 16);
   (51480, 51480, 15); (51481, 51507, 16); (51508, 51508, 15); (51509, 51535, 16);
   (51536, 51536, 15); (51537, 51563, 16); (51564, 51564, 15); (51565, 51591, 16);
   (51592, 51592, 15); (51593, 51619, 16); (51620, 51620, 15); (51621, 51647, 16);
   (51648, 51648, 15); (51649, 51675, 16); (51676, 51676, 15); (51677, 51703, 16);
   (51704, 51704, 15); (51705, 51731, 16); (51732, 51732, 15); (51733, 51759, 16);
   (51760, 51760, 15); (51761, 51787, 16); (51788, 51788, 15); (51789, 51815, 16);
   (51816, 51816, 15); (51817, 51843, 16); (51844, 51844, 15); (51845, 51871, 16);
   (51872, 51872, 15); (51873, 51899, 16); (51900, 51900, 15); (51901, 51927, 16);
   (51928, 51928, 15); (51929, 51955, 16); (51956, 51956, 15); (51957, 51983, 16);
   (51984, 51984, 15); (51985, 52011, 16); (52012, 52012, 15); (52013, 52039, 16);
   (52040, 52040, 15); (52041, 52067, 16); (52068, 52068, 15); (52069, 52095, 16);
   (52096, 52096, 15); (52097, 52123, 16); (52124, 52124, 15); (52125, 52151, 16);
   (52152, 52152, 15); (52153, 52179, 16); (52180, 52180, 15); (52181, 52207, 16);
   (52208, 52208, 15); (52209, 52235, 16); (52236, 52236, 15); (52237, 52263, 16);
   (52264, 52264, 15); (52265, 52291, 16)
  ].

(** line_break_table rows 2250-2499 (utility/utf8/line_break.hpp:700-1868). *)
Definition line_break_table_9 : list (N * N * N) :=
  [
   (52292, 52292, 15); (52293, 52319, 16); (52320, 52320, 15); (52321, 52347, 16);
   (52348, 52348, 15); (52349, 52375, 16); (52376, 52376, 15); (52377, 52403, 16);
   (52404, 52404, 15); (52405, 52431, 16); (52432, 52432, 15); (52433, 52459, 16);
   (52460, 52460, 15); (52461, 52487, 16); (52488, 52488, 15); (52489, 52515, 16);
   (52516, 52516, 15); (52517, 52543, 16); (52544, 52544, 15); (52545, 52571, 16);
   (52572, 52572, 15); (52573, 52599, 16); (52600, 52600, 15); (52601, 52627, 16);
   (52628, 52628, 15); (52629, 52655, 16); (52656, 52656, 15); (52657, 52683, 16);
   (52684, 52684, 15); (52685, 52711, 16); (52712, 52712, 15); (52713, 52739, 16);
   (52740, 52740, 15); (52741, 52767, 16); (52768, 52768, 15); (52769, 52795, 16);
   (52796, 52796, 15); (52797, 52823, 16); (52824, 52824, 15); (52825, 52851, 16);
   (52852, 52852, 15); (52853, 52879, 16); (52880, 52880, 15); (52881, 52907, 16);
   (52908, 52908, 15); (52909, 52935, 16); (52936, 52936, 15); (52937, 52963, 16);
   (52964, 52964, 15); (52965, 52991, 16); (52992, 52992, 15); (52993, 53019, 16);
   (53020, 53020, 15); (53021, 53047, 16); (53048, 53048, 15); (53049, 53075, 16);
   (53076, 53076, 15); (53077, 53103, 16); (53104, 53104, 15); (53105, 53131, 16);
   (53132, 53132, 15); (53133, 53159, 16); (53160, 53160, 15); (53161, 53187, 16);
   (53188, 53188, 15); (53189, 53215, 16); (53216, 53216, 15); (53217, 53243, 16);
   (53244, 53244, 15); (53245, 53271, 16); (53272, 53272, 15); (53273, 53299, 16);
   (53300, 53300, 15); (53301, 53327, 16); (53328, 53328, 15); (53329, 53355, 16);
   (53356, 53356, 15); (53357, 53383, 16); (53384, 53384, 15); (53385, 53411, 16);
   (53412, 53412, 15); (53413, 53439, 16); (53440, 53440, 15); (53441, 53467, 16);
   (53468, 53468, 15); (53469, 53495, 16); (53496, 53496, 15); (53497, 53523, 16);
   (53524, 53524, 15); (53525, 53551, 16); (53552, 53552, 15); (53553, 53579, 16);
   (53580, 53580, 15); (53581, 53607, 16); (53608, 53608, 15); (53609, 53635, 16);
   (53636, 53636, 15); (53637, 53663, 16); (53664, 53664, 15); (53665, 53691, 16);
   (53692, 53692, 15); (53693, 53719, 16); (53720, 53720, 15); (53721, 53747, 16);
   (53748, 53748, 15); (53749, 53775, 16); (53776, 53776, 15); (53777, 53803, 16);
   (53804, 53804, 15); (53805, 53831, 16); (53832, 53832, 15); (53833, 53859, 16);
   (53860, 53860, 15); (53861, 53887, 16); (53888, 53888, 15); (53889, 53915, 16);
   (53916, 53916, 15); (53917, 53943, 16); (53944, 53944, 15); (53945, 53971, 16);
   (53972, 53972, 15); (53973, 53999, 16); (54000, 54000, 15); (54001, 54027, 16);
   (54028, 54028, 15); (54029, 54055, 16); (54056, 54056, 15); (54057, 54083, 16);
   (54084, 54084, 15); (54085, 54111, 16); (54112, 54112, 15); (54113, 54139, 16);
   (54140, 54140, 15); (54141, 54167, 16); (54168, 54168, 15); (54169, 54195, 16);
   (54196, 54196, 15); (54197, 54223, 16); (54224, 54224, 15); (54225, 54251, 16);
   (54252, 54252, 15); (54253, 54279, 16); (54280, 54280, 15); (54281, 54307, 16);
   (54308, 54308, 15); (54309, 54335, 16); (54336, 54336, 15); (54337, 54363, 16);
   (54364, 54364, 15); (54365, 54391, 16); (54392, 54392, 15); (54393, 54419, 16);
   (54420, 54420, 15); (54421, 54447, 16); (54448, 54448, 15); (54449, 54475, 16);
   (54476, 54476, 15); (54477, 54503, 16); (54504, 54504, 15); (54505, 54531, 16);
   (54532, 54532, 15); (54533, 54559, 16); (54560, 54560, 15); (54561, 54587, 16);
   (54588, 54588, 15); (54589, 54615, 16); (54616, 54616, 15); (54617, 54643, 16);
   (54644, 54644, 15); (54645, 54671, 16); (54672, 54672, 15); (54673, 54699, 16);
   (54700, 54700, 15); (54701, 54727, 16); (54728, 54728, 15); (54729, 54755, 16);
   (54756, 54756, 15); (54757, 54783, 16); (54784, 54784, 15); (54785, 54811, 16);
   (54812, 54812, 15); (54813, 54839, 16); (54840, 54840, 15); (54841, 54867, 16);
   (54868, 54868, 15); (54869, 54895, 16); (54896, 54896, 15); (54897, 54923, 16);
   (54924, 54924, 15); (54925, 54951, 16); (54952, 54952, 15); (54953, 54979, 16);
   (54980, 54980, 15); (54981, 55007, 16); (55008, 55008, 15); (55009, 55035, 16);
   (55036, 55036, 15); (55037, 55063, 16); (55064, 55064, 15); (55065, 55091, 16);
   (55092, 55092, 15); (55093, 55119, 16); (55120, 55120, 15); (55121, 55147, 16);
   (55148, 55148, 15); (55149, 55175, 16); (55176, 55176, 15); (55177, 55203, 16);
   (55216, 55238, 24); (55243, 55291, 23); (55296, 56191, 1); (56192, 56319, 1);
   (56320, 57343, 1); (57344, 63743, 1); (63744, 64109, 18); (64110, 64111, 18);
   (64112, 64217, 18); (64218, 64255, 18); (64256, 64262, 1); (64275, 64279, 1);
   (64285, 64285, 19); (64286, 64286, 8); (64287, 64296, 19); (64297, 64297, 1);
   (64298, 64310, 19); (64312, 64316, 19); (64318, 64318, 19); (64320, 64321, 19);
   (64323, 64324, 19); (64326, 64335, 19); (64336, 64433, 1); (64434, 64450, 1);
   (64467, 64829, 1); (64830, 64830, 7); (64831, 64831, 29); (64832, 64847, 1);
   (64848, 64911, 1); (64914, 64967, 1); (64975, 64975, 1); (65008, 65019, 1);
   (65020, 65020, 30); (65021, 65023, 1); (65024, 65039, 8); (65040, 65040, 21);
   (65041, 65042, 7); (65043, 65044, 21); (65045, 65046, 13); (65047, 65047, 29);
   (65048, 65048, 7); (65049, 65049, 20)
  ].

(** line_break_table rows 2500-2749 (utility/utf8/line_break.hpp:700-1868). *)
Definition line_break_table_10 : list (N * N * N) :=
  [
   (65056, 65071, 8); (65072, 65072, 18); (65073, 65074, 18); (65075, 65076, 18);
   (65077, 65077, 29); (65078, 65078, 7); (65079, 65079, 29); (65080, 65080, 7);
   (65081, 65081, 29); (65082, 65082, 7); (65083, 65083, 29); (65084, 65084, 7);
   (65085, 65085, 29); (65086, 65086, 7); (65087, 65087, 29); (65088, 65088, 7);
   (65089, 65089, 29); (65090, 65090, 7); (65091, 65091, 29); (65092, 65092, 7);
   (65093, 65094, 18); (65095, 65095, 29); (65096, 65096, 7); (65097, 65100, 18);
   (65101, 65103, 18); (65104, 65104, 7); (65105, 65105, 18); (65106, 65106, 7);
   (65108, 65109, 27); (65110, 65111, 13); (65112, 65112, 18); (65113, 65113, 29);
   (65114, 65114, 7); (65115, 65115, 29); (65116, 65116, 7); (65117, 65117, 29);
   (65118, 65118, 7); (65119, 65121, 18); (65122, 65122, 18); (65123, 65123, 18);
   (65124, 65126, 18); (65128, 65128, 18); (65129, 65129, 31); (65130, 65130, 30);
   (65131, 65131, 18); (65136, 65140, 1); (65142, 65276, 1); (65279, 65279, 36);
   (65281, 65281, 13); (65282, 65283, 18); (65284, 65284, 31); (65285, 65285, 30);
   (65286, 65287, 18); (65288, 65288, 29); (65289, 65289, 7); (65290, 65290, 18);
   (65291, 65291, 18); (65292, 65292, 7); (65293, 65293, 18); (65294, 65294, 7);
   (65295, 65295, 18); (65296, 65305, 18); (65306, 65307, 27); (65308, 65310, 18);
   (65311, 65311, 13); (65312, 65312, 18); (65313, 65338, 18); (65339, 65339, 29);
   (65340, 65340, 18); (65341, 65341, 7); (65342, 65342, 18); (65343, 65343, 18);
   (65344, 65344, 18); (65345, 65370, 18); (65371, 65371, 29); (65372, 65372, 18);
   (65373, 65373, 7); (65374, 65374, 18); (65375, 65375, 29); (65376, 65376, 7);
   (65377, 65377, 7); (65378, 65378, 29); (65379, 65379, 7); (65380, 65380, 7);
   (65381, 65381, 27); (65382, 65382, 18); (65383, 65391, 27); (65392, 65392, 27);
   (65393, 65437, 18); (65438, 65439, 27); (65440, 65470, 18); (65474, 65479, 18);
   (65482, 65487, 18); (65490, 65495, 18); (65498, 65500, 18); (65504, 65504, 30);
   (65505, 65505, 31); (65506, 65506, 18); (65507, 65507, 18); (65508, 65508, 18);
   (65509, 65510, 31); (65512, 65512, 1); (65513, 65516, 1); (65517, 65518, 1);
   (65529, 65531, 8); (65532, 65532, 6); (65533, 65533, 1); (65536, 65547, 1); (65549, 65574, 1);
   (65576, 65594, 1); (65596, 65597, 1); (65599, 65613, 1); (65616, 65629, 1); (65664, 65786, 1);
   (65792, 65794, 2); (65799, 65843, 1); (65847, 65855, 1); (65856, 65908, 1); (65909, 65912, 1);
   (65913, 65929, 1); (65930, 65931, 1); (65932, 65934, 1); (65936, 65948, 1); (65952, 65952, 1);
   (66000, 66044, 1); (66045, 66045, 8); (66176, 66204, 1); (66208, 66256, 1); (66272, 66272, 8);
   (66273, 66299, 1); (66304, 66335, 1); (66336, 66339, 1); (66349, 66351, 1); (66352, 66368, 1);
   (66369, 66369, 1); (66370, 66377, 1); (66378, 66378, 1); (66384, 66421, 1); (66422, 66426, 8);
   (66432, 66461, 1); (66463, 66463, 2); (66464, 66499, 1); (66504, 66511, 1); (66512, 66512, 2);
   (66513, 66517, 1); (66560, 66639, 1); (66640, 66687, 1); (66688, 66717, 1);
   (66720, 66729, 28); (66736, 66771, 1); (66776, 66811, 1); (66816, 66855, 1);
   (66864, 66915, 1); (66927, 66927, 1); (66928, 66938, 1); (66940, 66954, 1); (66956, 66962, 1);
   (66964, 66965, 1); (66967, 66977, 1); (66979, 66993, 1); (66995, 67001, 1); (67003, 67004, 1);
   (67072, 67382, 1); (67392, 67413, 1); (67424, 67431, 1); (67456, 67461, 1); (67463, 67504, 1);
   (67506, 67514, 1); (67584, 67589, 1); (67592, 67592, 1); (67594, 67637, 1); (67639, 67640, 1);
   (67644, 67644, 1); (67647, 67647, 1); (67648, 67669, 1); (67671, 67671, 2); (67672, 67679, 1);
   (67680, 67702, 1); (67703, 67704, 1); (67705, 67711, 1); (67712, 67742, 1); (67751, 67759, 1);
   (67808, 67826, 1); (67828, 67829, 1); (67835, 67839, 1); (67840, 67861, 1); (67862, 67867, 1);
   (67871, 67871, 2); (67872, 67897, 1); (67903, 67903, 1); (67968, 67999, 1); (68000, 68023, 1);
   (68028, 68029, 1); (68030, 68031, 1); (68032, 68047, 1); (68050, 68095, 1); (68096, 68096, 1);
   (68097, 68099, 8); (68101, 68102, 8); (68108, 68111, 8); (68112, 68115, 1); (68117, 68119, 1);
   (68121, 68149, 1); (68152, 68154, 8); (68159, 68159, 8); (68160, 68168, 1); (68176, 68183, 2);
   (68184, 68184, 1); (68192, 68220, 1); (68221, 68222, 1); (68223, 68223, 1); (68224, 68252, 1);
   (68253, 68255, 1); (68288, 68295, 1); (68296, 68296, 1); (68297, 68324, 1); (68325, 68326, 8);
   (68331, 68335, 1); (68336, 68341, 2); (68342, 68342, 20); (68352, 68405, 1);
   (68409, 68415, 2); (68416, 68437, 1); (68440, 68447, 1); (68448, 68466, 1); (68472, 68479, 1);
   (68480, 68497, 1); (68505, 68508, 1); (68521, 68527, 1); (68608, 68680, 1); (68736, 68786, 1);
   (68800, 68850, 1); (68858, 68863, 1); (68864, 68899, 1); (68900, 68903, 8);
   (68912, 68921, 28); (69216, 69246, 1); (69248, 69289, 1); (69291, 69292, 8);
   (69293, 69293, 2); (69296, 69297, 1); (69376, 69404, 1); (69405, 69414, 1); (69415, 69415, 1);
   (69424, 69445, 1); (69446, 69456, 8); (69457, 69460, 1); (69461, 69465, 1); (69488, 69505, 1);
   (69506, 69509, 8)
  ].

(** line_break_table rows 2750-2999 (utility/utf8/line_break.hpp:700-1868). *)
Definition line_break_table_11 : list (N * N * N) :=
  [
   (69510, 69513, 1); (69552, 69572, 1); (69573, 69579, 1); (69600, 69622, 1); (69632, 69632, 8);
   (69633, 69633, 8); (69634, 69634, 8); (69635, 69687, 1); (69688, 69702, 8); (69703, 69704, 2);
   (69705, 69709, 1); (69714, 69733, 1); (69734, 69743, 28); (69744, 69744, 8);
   (69745, 69746, 1); (69747, 69748, 8); (69749, 69749, 1); (69759, 69759, 8); (69760, 69761, 8);
   (69762, 69762, 8); (69763, 69807, 1); (69808, 69810, 8); (69811, 69814, 8); (69815, 69816, 8);
   (69817, 69818, 8); (69819, 69820, 1); (69821, 69821, 1); (69822, 69825, 2); (69826, 69826, 8);
   (69837, 69837, 1); (69840, 69864, 1); (69872, 69881, 28); (69888, 69890, 8);
   (69891, 69926, 1); (69927, 69931, 8); (69932, 69932, 8); (69933, 69940, 8);
   (69942, 69951, 28); (69952, 69955, 2); (69956, 69956, 1); (69957, 69958, 8);
   (69959, 69959, 1); (69968, 70002, 1); (70003, 70003, 8); (70004, 70004, 1); (70005, 70005, 3);
   (70006, 70006, 1); (70016, 70017, 8); (70018, 70018, 8); (70019, 70066, 1); (70067, 70069, 8);
   (70070, 70078, 8); (70079, 70080, 8); (70081, 70084, 1); (70085, 70086, 2); (70087, 70087, 1);
   (70088, 70088, 2); (70089, 70092, 8); (70093, 70093, 1); (70094, 70094, 8); (70095, 70095, 8);
   (70096, 70105, 28); (70106, 70106, 1); (70107, 70107, 3); (70108, 70108, 1);
   (70109, 70111, 2); (70113, 70132, 1); (70144, 70161, 1); (70163, 70187, 1); (70188, 70190, 8);
   (70191, 70193, 8); (70194, 70195, 8); (70196, 70196, 8); (70197, 70197, 8); (70198, 70199, 8);
   (70200, 70201, 2); (70202, 70202, 1); (70203, 70204, 2); (70205, 70205, 1); (70206, 70206, 8);
   (70272, 70278, 1); (70280, 70280, 1); (70282, 70285, 1); (70287, 70301, 1); (70303, 70312, 1);
   (70313, 70313, 2); (70320, 70366, 1); (70367, 70367, 8); (70368, 70370, 8); (70371, 70378, 8);
   (70384, 70393, 28); (70400, 70401, 8); (70402, 70403, 8); (70405, 70412, 1);
   (70415, 70416, 1); (70419, 70440, 1); (70442, 70448, 1); (70450, 70451, 1); (70453, 70457, 1);
   (70459, 70460, 8); (70461, 70461, 1); (70462, 70463, 8); (70464, 70464, 8); (70465, 70468, 8);
   (70471, 70472, 8); (70475, 70477, 8); (70480, 70480, 1); (70487, 70487, 8); (70493, 70497, 1);
   (70498, 70499, 8); (70502, 70508, 8); (70512, 70516, 8); (70656, 70708, 1); (70709, 70711, 8);
   (70712, 70719, 8); (70720, 70721, 8); (70722, 70724, 8); (70725, 70725, 8); (70726, 70726, 8);
   (70727, 70730, 1); (70731, 70734, 2); (70735, 70735, 1); (70736, 70745, 28);
   (70746, 70747, 2); (70749, 70749, 1); (70750, 70750, 8); (70751, 70753, 1); (70784, 70831, 1);
   (70832, 70834, 8); (70835, 70840, 8); (70841, 70841, 8); (70842, 70842, 8); (70843, 70846, 8);
   (70847, 70848, 8); (70849, 70849, 8); (70850, 70851, 8); (70852, 70853, 1); (70854, 70854, 1);
   (70855, 70855, 1); (70864, 70873, 28); (71040, 71086, 1); (71087, 71089, 8);
   (71090, 71093, 8); (71096, 71099, 8); (71100, 71101, 8); (71102, 71102, 8); (71103, 71104, 8);
   (71105, 71105, 3); (71106, 71107, 2); (71108, 71109, 13); (71110, 71112, 1);
   (71113, 71127, 2); (71128, 71131, 1); (71132, 71133, 8); (71168, 71215, 1); (71216, 71218, 8);
   (71219, 71226, 8); (71227, 71228, 8); (71229, 71229, 8); (71230, 71230, 8); (71231, 71232, 8);
   (71233, 71234, 2); (71235, 71235, 1); (71236, 71236, 1); (71248, 71257, 28);
   (71264, 71276, 3); (71296, 71338, 1); (71339, 71339, 8); (71340, 71340, 8); (71341, 71341, 8);
   (71342, 71343, 8); (71344, 71349, 8); (71350, 71350, 8); (71351, 71351, 8); (71352, 71352, 1);
   (71353, 71353, 1); (71360, 71369, 28); (71424, 71450, 1); (71453, 71455, 8);
   (71456, 71457, 8); (71458, 71461, 8); (71462, 71462, 8); (71463, 71467, 8);
   (71472, 71481, 28); (71482, 71483, 1); (71484, 71486, 2); (71487, 71487, 1);
   (71488, 71494, 1); (71680, 71723, 1); (71724, 71726, 8); (71727, 71735, 8); (71736, 71736, 8);
   (71737, 71738, 8); (71739, 71739, 1); (71840, 71903, 1); (71904, 71913, 28);
   (71914, 71922, 1); (71935, 71935, 1); (71936, 71942, 1); (71945, 71945, 1); (71948, 71955, 1);
   (71957, 71958, 1); (71960, 71983, 1); (71984, 71989, 8); (71991, 71992, 8); (71995, 71996, 8);
   (71997, 71997, 8); (71998, 71998, 8); (71999, 71999, 1); (72000, 72000, 8); (72001, 72001, 1);
   (72002, 72002, 8); (72003, 72003, 8); (72004, 72006, 2); (72016, 72025, 28);
   (72096, 72103, 1); (72106, 72144, 1); (72145, 72147, 8); (72148, 72151, 8); (72154, 72155, 8);
   (72156, 72159, 8); (72160, 72160, 8); (72161, 72161, 1); (72162, 72162, 3); (72163, 72163, 1);
   (72164, 72164, 8); (72192, 72192, 1); (72193, 72202, 8); (72203, 72242, 1); (72243, 72248, 8);
   (72249, 72249, 8); (72250, 72250, 1); (72251, 72254, 8); (72255, 72255, 3); (72256, 72256, 1);
   (72257, 72260, 2); (72261, 72261, 3); (72262, 72262, 1); (72263, 72263, 8); (72272, 72272, 1);
   (72273, 72278, 8); (72279, 72280, 8); (72281, 72283, 8); (72284, 72329, 1); (72330, 72342, 8);
   (72343, 72343, 8); (72344, 72345, 8); (72346, 72348, 2); (72349, 72349, 1); (72350, 72352, 3)
  ].

(** line_break_table rows 3000-3249 (utility/utf8/line_break.hpp:700-1868). *)
Definition line_break_table_12 : list (N * N * N) :=
  [
   (72353, 72354, 2); (72368, 72383, 1); (72384, 72440, 1); (72704, 72712, 1); (72714, 72750, 1);
   (72751, 72751, 8); (72752, 72758, 8); (72760, 72765, 8); (72766, 72766, 8); (72767, 72767, 8);
   (72768, 72768, 1); (72769, 72773, 2); (72784, 72793, 28); (72794, 72812, 1);
   (72816, 72816, 3); (72817, 72817, 13); (72818, 72847, 1); (72850, 72871, 8);
   (72873, 72873, 8); (72874, 72880, 8); (72881, 72881, 8); (72882, 72883, 8); (72884, 72884, 8);
   (72885, 72886, 8); (72960, 72966, 1); (72968, 72969, 1); (72971, 73008, 1); (73009, 73014, 8);
   (73018, 73018, 8); (73020, 73021, 8); (73023, 73029, 8); (73030, 73030, 1); (73031, 73031, 8);
   (73040, 73049, 28); (73056, 73061, 1); (73063, 73064, 1); (73066, 73097, 1);
   (73098, 73102, 8); (73104, 73105, 8); (73107, 73108, 8); (73109, 73109, 8); (73110, 73110, 8);
   (73111, 73111, 8); (73112, 73112, 1); (73120, 73129, 28); (73440, 73458, 1);
   (73459, 73460, 8); (73461, 73462, 8); (73463, 73464, 1); (73648, 73648, 1); (73664, 73684, 1);
   (73685, 73692, 1); (73693, 73696, 30); (73697, 73713, 1); (73727, 73727, 2);
   (73728, 74649, 1); (74752, 74862, 1); (74864, 74868, 2); (74880, 75075, 1); (77712, 77808, 1);
   (77809, 77810, 1); (77824, 78423, 1); (78424, 78426, 29); (78427, 78429, 7);
   (78430, 78465, 1); (78466, 78466, 7); (78467, 78469, 1); (78470, 78470, 29);
   (78471, 78471, 7); (78472, 78472, 29); (78473, 78473, 7); (78474, 78712, 1);
   (78713, 78713, 29); (78714, 78715, 7); (78716, 78894, 1); (78896, 78902, 14);
   (78903, 78903, 29); (78904, 78904, 7); (82944, 83405, 1); (83406, 83406, 29);
   (83407, 83407, 7); (83408, 83526, 1); (92160, 92728, 1); (92736, 92766, 1);
   (92768, 92777, 28); (92782, 92783, 2); (92784, 92862, 1); (92864, 92873, 28);
   (92880, 92909, 1); (92912, 92916, 8); (92917, 92917, 2); (92928, 92975, 1); (92976, 92982, 8);
   (92983, 92985, 2); (92986, 92987, 1); (92988, 92991, 1); (92992, 92995, 1); (92996, 92996, 2);
   (92997, 92997, 1); (93008, 93017, 28); (93019, 93025, 1); (93027, 93047, 1);
   (93053, 93071, 1); (93760, 93823, 1); (93824, 93846, 1); (93847, 93848, 2); (93849, 93850, 1);
   (93952, 94026, 1); (94031, 94031, 8); (94032, 94032, 1); (94033, 94087, 8); (94095, 94098, 8);
   (94099, 94111, 1); (94176, 94177, 27); (94178, 94178, 27); (94179, 94179, 27);
   (94180, 94180, 14); (94192, 94193, 8); (94208, 100343, 18); (100352, 101119, 18);
   (101120, 101589, 1); (101632, 101640, 18); (110576, 110579, 1); (110581, 110587, 1);
   (110589, 110590, 1); (110592, 110847, 18); (110848, 110882, 18); (110928, 110930, 27);
   (110948, 110951, 27); (110960, 111355, 18); (113664, 113770, 1); (113776, 113788, 1);
   (113792, 113800, 1); (113808, 113817, 1); (113820, 113820, 1); (113821, 113822, 8);
   (113823, 113823, 2); (113824, 113827, 8); (118528, 118573, 8); (118576, 118598, 8);
   (118608, 118723, 1); (118784, 119029, 1); (119040, 119078, 1); (119081, 119140, 1);
   (119141, 119142, 8); (119143, 119145, 8); (119146, 119148, 1); (119149, 119154, 8);
   (119155, 119162, 8); (119163, 119170, 8); (119171, 119172, 1); (119173, 119179, 8);
   (119180, 119209, 1); (119210, 119213, 8); (119214, 119274, 1); (119296, 119361, 1);
   (119362, 119364, 8); (119365, 119365, 1); (119520, 119539, 1); (119552, 119638, 1);
   (119648, 119672, 1); (119808, 119892, 1); (119894, 119964, 1); (119966, 119967, 1);
   (119970, 119970, 1); (119973, 119974, 1); (119977, 119980, 1); (119982, 119993, 1);
   (119995, 119995, 1); (119997, 120003, 1); (120005, 120069, 1); (120071, 120074, 1);
   (120077, 120084, 1); (120086, 120092, 1); (120094, 120121, 1); (120123, 120126, 1);
   (120128, 120132, 1); (120134, 120134, 1); (120138, 120144, 1); (120146, 120485, 1);
   (120488, 120512, 1); (120513, 120513, 1); (120514, 120538, 1); (120539, 120539, 1);
   (120540, 120570, 1); (120571, 120571, 1); (120572, 120596, 1); (120597, 120597, 1);
   (120598, 120628, 1); (120629, 120629, 1); (120630, 120654, 1); (120655, 120655, 1);
   (120656, 120686, 1); (120687, 120687, 1); (120688, 120712, 1); (120713, 120713, 1);
   (120714, 120744, 1); (120745, 120745, 1); (120746, 120770, 1); (120771, 120771, 1);
   (120772, 120779, 1); (120782, 120831, 28); (120832, 121343, 1); (121344, 121398, 8);
   (121399, 121402, 1); (121403, 121452, 8); (121453, 121460, 1); (121461, 121461, 8);
   (121462, 121475, 1); (121476, 121476, 8); (121477, 121478, 1); (121479, 121482, 2);
   (121483, 121483, 1); (121499, 121503, 8); (121505, 121519, 8); (122624, 122633, 1);
   (122634, 122634, 1); (122635, 122654, 1); (122880, 122886, 8); (122888, 122904, 8);
   (122907, 122913, 8); (122915, 122916, 8); (122918, 122922, 8); (123136, 123180, 1);
   (123184, 123190, 8); (123191, 123197, 1); (123200, 123209, 28); (123214, 123214, 1);
   (123215, 123215, 1); (123536, 123565, 1); (123566, 123566, 8); (123584, 123627, 1);
   (123628, 123631, 8); (123632, 123641, 28); (123647, 123647, 31); (124896, 124902, 1);
   (124904, 124907, 1); (124909, 124910, 1); (124912, 124926, 1); (124928, 125124, 1);
   (125127, 125135, 1); (125136, 125142, 8); (125184, 125251, 1); (125252, 125258, 8);
   (125259, 125259, 1); (125264, 125273, 28); (125278, 125279, 29); (126065, 126123, 1);
   (126124, 126124, 30); (126125, 126127, 1)
  ].

(** line_break_table rows 3250-3499 (utility/utf8/line_break.hpp:700-1868). *)
Definition line_break_table_13 : list (N * N * N) :=
  [
   (126128, 126128, 30); (126129, 126132, 1); (126209, 126253, 1); (126254, 126254, 1);
   (126255, 126269, 1); (126464, 126467, 1); (126469, 126495, 1); (126497, 126498, 1);
   (126500, 126500, 1); (126503, 126503, 1); (126505, 126514, 1); (126516, 126519, 1);
   (126521, 126521, 1); (126523, 126523, 1); (126530, 126530, 1); (126535, 126535, 1);
   (126537, 126537, 1); (126539, 126539, 1); (126541, 126543, 1); (126545, 126546, 1);
   (126548, 126548, 1); (126551, 126551, 1); (126553, 126553, 1); (126555, 126555, 1);
   (126557, 126557, 1); (126559, 126559, 1); (126561, 126562, 1); (126564, 126564, 1);
   (126567, 126570, 1); (126572, 126578, 1); (126580, 126583, 1); (126585, 126588, 1);
   (126590, 126590, 1); (126592, 126601, 1); (126603, 126619, 1); (126625, 126627, 1);
   (126629, 126633, 1); (126635, 126651, 1); (126704, 126705, 1); (126976, 127019, 18);
   (127020, 127023, 18); (127024, 127123, 18); (127124, 127135, 18); (127136, 127150, 18);
   (127151, 127152, 18); (127153, 127167, 18); (127168, 127168, 18); (127169, 127183, 18);
   (127184, 127184, 18); (127185, 127221, 18); (127222, 127231, 18); (127232, 127244, 1);
   (127245, 127247, 18); (127248, 127277, 1); (127278, 127279, 1); (127280, 127337, 1);
   (127338, 127340, 1); (127341, 127343, 18); (127344, 127404, 1); (127405, 127405, 18);
   (127406, 127461, 18); (127462, 127487, 33); (127488, 127490, 18); (127491, 127503, 18);
   (127504, 127547, 18); (127548, 127551, 18); (127552, 127560, 18); (127561, 127567, 18);
   (127568, 127569, 18); (127570, 127583, 18); (127584, 127589, 18); (127590, 127743, 18);
   (127744, 127876, 18); (127877, 127877, 11); (127878, 127899, 18); (127900, 127901, 1);
   (127902, 127924, 18); (127925, 127926, 1); (127927, 127931, 18); (127932, 127932, 1);
   (127933, 127937, 18); (127938, 127940, 11); (127941, 127942, 18); (127943, 127943, 11);
   (127944, 127945, 18); (127946, 127948, 11); (127949, 127994, 18); (127995, 127999, 12);
   (128000, 128065, 18); (128066, 128067, 11); (128068, 128069, 18); (128070, 128080, 11);
   (128081, 128101, 18); (128102, 128120, 11); (128121, 128123, 18); (128124, 128124, 11);
   (128125, 128128, 18); (128129, 128131, 11); (128132, 128132, 18); (128133, 128135, 11);
   (128136, 128142, 18); (128143, 128143, 11); (128144, 128144, 18); (128145, 128145, 11);
   (128146, 128159, 18); (128160, 128160, 1); (128161, 128161, 18); (128162, 128162, 1);
   (128163, 128163, 18); (128164, 128164, 1); (128165, 128169, 18); (128170, 128170, 11);
   (128171, 128174, 18); (128175, 128175, 1); (128176, 128176, 18); (128177, 128178, 1);
   (128179, 128255, 18); (128256, 128262, 1); (128263, 128278, 18); (128279, 128292, 1);
   (128293, 128305, 18); (128306, 128329, 1); (128330, 128371, 18); (128372, 128373, 11);
   (128374, 128377, 18); (128378, 128378, 11); (128379, 128399, 18); (128400, 128400, 11);
   (128401, 128404, 18); (128405, 128406, 11); (128407, 128467, 18); (128468, 128475, 1);
   (128476, 128499, 18); (128500, 128505, 1); (128506, 128511, 18); (128512, 128580, 18);
   (128581, 128583, 11); (128584, 128586, 18); (128587, 128591, 11); (128592, 128629, 1);
   (128630, 128632, 32); (128633, 128635, 27); (128636, 128639, 1); (128640, 128674, 18);
   (128675, 128675, 11); (128676, 128691, 18); (128692, 128694, 11); (128695, 128703, 18);
   (128704, 128704, 11); (128705, 128715, 18); (128716, 128716, 11); (128717, 128727, 18);
   (128728, 128732, 18); (128733, 128748, 18); (128749, 128751, 18); (128752, 128764, 18);
   (128765, 128767, 18); (128768, 128883, 1); (128884, 128895, 18); (128896, 128980, 1);
   (128981, 128984, 18); (128985, 128991, 18); (128992, 129003, 18); (129004, 129007, 18);
   (129008, 129008, 18); (129009, 129023, 18); (129024, 129035, 1); (129036, 129039, 18);
   (129040, 129095, 1); (129096, 129103, 18); (129104, 129113, 1); (129114, 129119, 18);
   (129120, 129159, 1); (129160, 129167, 18); (129168, 129197, 1); (129198, 129199, 18);
   (129200, 129201, 18); (129202, 129279, 18); (129280, 129291, 1); (129292, 129292, 11);
   (129293, 129294, 18); (129295, 129295, 11); (129296, 129303, 18); (129304, 129311, 11);
   (129312, 129317, 18); (129318, 129318, 11); (129319, 129327, 18); (129328, 129337, 11);
   (129338, 129339, 18); (129340, 129342, 11); (129343, 129398, 18); (129399, 129399, 11);
   (129400, 129460, 18); (129461, 129462, 11); (129463, 129463, 18); (129464, 129465, 11);
   (129466, 129466, 18); (129467, 129467, 11); (129468, 129484, 18); (129485, 129487, 11);
   (129488, 129488, 18); (129489, 129501, 11); (129502, 129535, 18); (129536, 129619, 1);
   (129620, 129631, 18); (129632, 129645, 18); (129646, 129647, 18); (129648, 129652, 18);
   (129653, 129655, 18); (129656, 129660, 18); (129661, 129663, 18); (129664, 129670, 18);
   (129671, 129679, 18); (129680, 129708, 18); (129709, 129711, 18); (129712, 129722, 18);
   (129723, 129727, 18); (129728, 129730, 18); (129731, 129733, 11); (129734, 129743, 18);
   (129744, 129753, 18); (129754, 129759, 18); (129760, 129767, 18); (129768, 129775, 18);
   (129776, 129782, 11); (129783, 129791, 18); (129792, 129938, 1); (129940, 129994, 1);
   (130032, 130041, 28); (130048, 131069, 18); (131072, 173791, 18); (173792, 173823, 18);
   (173824, 177976, 18); (177977, 177983, 18); (177984, 178205, 18); (178206, 178207, 18);
   (178208, 183969, 18); (183970, 183983, 18); (183984, 191456, 18); (191457, 194559, 18);
   (194560, 195101, 18); (195102, 195103, 18); (195104, 196605, 18); (196608, 201546, 18);
   (201547, 262141, 18); (917505, 917505, 8); (917536, 917631, 8); (917760, 917999, 8);
   (983040, 1048573, 1); (1048576, 1114109, 1)
  ].

(** The whole table line_break_table (utility/utf8/line_break.hpp:700-1868). *)
Definition line_break_table_rows : list (N * N * N) :=
  line_break_table_0 ++ line_break_table_1 ++ line_break_table_2 ++ line_break_table_3 ++ line_break_table_4 ++ line_break_table_5 ++ line_break_table_6 ++ line_break_table_7 ++ line_break_table_8 ++ line_break_table_9 ++ line_break_table_10 ++ line_break_table_11 ++ line_break_table_12 ++ line_break_table_13.
