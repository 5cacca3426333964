(** src/SALib/sample/directions.py:5302-10601, transcribed number by number by a script. *)
From Coq Require Import NArith List.
Import ListNotations.
Local Open Scope N_scope.
Definition directions2 : list (list N) := [
[26030;1;1;5;1;31;25;39;203;459;181;661;717;6235;13413;1197;40665];
[26069;1;1;5;9;19;33;65;239;463;133;461;3601;7755;1771;20683;7417];
[26100;1;1;1;1;25;19;25;155;431;33;341;959;5679;1205;2599;37499];
[26109;1;1;3;5;25;5;83;87;91;991;1833;4063;147;14497;25725;4617];
[26131;1;3;5;7;31;7;73;51;339;313;1593;2089;7387;15759;3249;7953];
[26144;1;3;7;1;27;49;35;11;21;45;1689;1665;4591;3713;12781;4805];
[26149;1;1;3;9;29;51;73;51;303;179;67;3917;7615;6131;26225;55991];
[26162;1;3;7;11;9;63;29;47;153;883;1859;1913;3563;11451;6333;51367];
[26167;1;3;1;3;5;25;69;87;389;613;989;3557;1339;12503;14505;63209];
[26173;1;1;3;1;5;13;37;163;499;163;2025;1467;5059;8479;2889;62957];
[26179;1;1;7;9;23;31;109;49;73;197;337;2763;4789;8983;9691;32155];
[26193;1;3;1;3;31;25;121;91;371;339;833;2217;4997;9425;10685;60037];
[26230;1;1;7;11;31;3;105;125;255;175;803;1787;6231;4441;5031;29737];
[26234;1;1;1;11;21;63;75;209;393;437;495;2397;4759;15703;29869;62685];
[26246;1;1;7;7;25;33;117;7;293;623;2001;2409;2487;14803;3329;38277];
[26267;1;1;7;9;31;51;75;151;487;85;639;3529;4491;1957;22099;20263];
[26283;1;1;7;5;3;29;11;1;255;555;1269;779;1525;7689;25847;39347];
[26300;1;1;7;7;19;21;9;123;3;943;1627;2979;919;4565;31435;59789];
[26341;1;3;7;5;29;13;57;221;9;893;1685;1879;4575;7369;26191;6067];
[26356;1;3;7;9;13;11;9;27;313;751;1377;1121;3799;1673;16305;30665];
[26377;1;3;3;13;23;17;59;47;499;525;681;3195;1611;7003;7325;53019];
[26397;1;3;1;7;23;51;59;127;67;263;1305;2479;637;9441;6329;12857];
[26404;1;1;7;7;9;3;51;193;205;503;19;2513;7489;9241;15371;20875];
[26411;1;3;3;1;1;57;17;181;23;549;769;2325;3669;7017;25601;64479];
[26422;1;3;1;15;5;55;53;13;327;447;1031;1599;3639;15305;1387;16035];
[26451;1;3;7;15;9;41;53;113;97;99;1377;4047;3713;8891;5601;5853];
[26454;1;1;7;9;9;7;29;249;411;315;181;2153;6135;6947;27595;15553];
[26463;1;1;7;11;3;57;35;55;165;313;577;3049;4259;4231;7225;58973];
[26488;1;1;1;1;15;43;53;143;157;843;465;3897;4797;12305;28807;46381];
[26498;1;3;7;9;17;3;99;61;475;507;831;2207;367;27;23205;2303];
[26509;1;1;3;11;27;29;99;237;43;955;361;3231;1863;7973;8969;58663];
[26512;1;3;1;7;15;15;11;251;135;261;675;3723;7675;7993;1725;41149];
[26517;1;3;3;9;29;11;105;37;151;215;1911;4051;5427;11019;9073;33129];
[26534;1;3;3;1;19;7;103;81;371;253;1043;1231;6497;10377;2349;29047];
[26545;1;3;7;9;15;11;85;61;507;629;811;3883;1435;13035;31913;2153];
[26546;1;1;5;11;13;7;63;147;117;223;1217;3317;3275;6851;2917;55901];
[26636;1;3;3;9;7;21;1;63;117;297;405;797;337;10173;8327;29157];
[26749;1;1;7;11;31;63;97;191;259;421;1829;2117;4203;11919;18001;55791];
[26753;1;3;7;9;21;13;125;247;133;611;463;227;7815;8877;17961;3641];
[26759;1;1;7;9;27;21;97;165;371;715;491;3929;3067;12501;5511;18217];
[26774;1;3;3;15;27;17;81;161;263;273;135;1159;7535;4581;16065;11493];
[26789;1;3;3;7;11;59;111;47;381;413;243;2173;4957;2451;15669;22071];
[26808;1;3;7;5;3;31;65;131;111;141;1891;2983;3331;769;24075;40865];
[26825;1;3;7;11;11;63;7;213;333;111;1235;961;3749;9123;5067;9657];
[26831;1;3;3;1;9;33;1;225;37;951;1995;3215;3117;3723;15013;64525];
[26859;1;3;3;13;29;19;103;65;67;423;1679;3791;5551;11711;195;52291];
[26888;1;3;1;15;31;7;65;249;489;287;1385;1075;1357;13593;20853;46221];
[26918;1;1;1;13;23;45;29;175;147;101;1007;1867;5387;12683;29609;55861];
[26929;1;3;5;13;21;31;85;187;183;179;1337;481;71;6117;2177;27915];
[26950;1;3;5;1;15;5;11;141;205;177;891;3591;4371;889;12957;61083];
[26954;1;3;7;7;11;39;81;241;13;757;521;3029;2345;12385;20683;64053];
[26973;1;1;5;13;7;3;77;211;215;97;1409;1021;1267;4785;27231;2877];
[26997;1;3;5;3;11;57;93;39;415;179;1033;3267;5383;10451;27117;10711];
[26998;1;1;1;1;3;45;93;179;453;995;1423;3849;4381;15789;20789;18775];
[27008;1;3;1;3;13;25;33;165;351;887;1109;195;8131;3061;16743;22997];
[27038;1;3;1;5;23;35;93;155;333;603;1571;229;2979;6295;20793;40901];
[27109;1;3;3;11;29;57;101;61;487;719;1009;1933;7815;15329;12489;26105];
[27127;1;3;3;9;23;59;73;13;141;815;1819;3557;2555;5901;23039;62321];
[27150;1;1;3;5;19;49;27;139;35;995;565;323;6439;15679;27017;30889];
[27168;1;3;7;3;1;3;27;153;235;59;989;2763;4197;3931;31227;27129];
[27178;1;3;1;15;23;45;71;205;465;451;347;1909;3287;8363;9081;35641];
[27212;1;1;5;1;25;29;17;201;463;903;1729;3435;2483;10835;14315;52505];
[27224;1;1;1;15;13;23;3;175;273;305;1945;3319;7777;9411;4209;4047];
[27229;1;1;5;15;25;5;71;35;307;89;301;3465;1497;13467;21911;13611];
[27246;1;3;1;7;11;7;33;241;349;751;633;3281;6733;13833;23605;34307];
[27251;1;1;1;15;17;27;45;13;259;843;1207;1735;4063;6259;1751;45107];
[27257;1;1;5;15;29;51;73;95;5;31;933;423;5505;2193;14919;2715];
[27258;1;3;1;3;23;5;29;7;271;485;827;1159;77;16337;27933;18741];
[27260;1;3;7;9;23;33;47;191;59;301;1277;3745;7837;799;2861;25853];
[27287;1;3;7;13;13;39;33;91;279;855;1917;3601;3971;6193;16951;6115];
[27300;1;1;3;13;15;59;89;239;313;545;431;3823;5741;14981;2647;42813];
[27315;1;1;1;3;17;21;45;37;343;737;1795;2659;2897;7683;15191;1393];
[27329;1;1;3;3;19;55;27;201;459;953;1531;671;5667;11695;149;14605];
[27332;1;3;7;13;9;63;67;229;69;819;859;2035;5725;13403;24197;2599];
[27349;1;1;7;7;1;59;45;105;327;779;59;791;7593;8189;28161;13339];
[27350;1;3;3;15;25;55;125;189;327;733;115;3541;5227;12143;32719;15785];
[27354;1;3;3;7;19;51;35;63;507;89;1441;2369;4927;7953;10193;8331];
[27359;1;1;5;5;21;1;41;49;217;1001;1649;2789;5267;1525;3811;40785];
[27377;1;1;7;15;31;21;33;183;425;393;367;3253;3047;465;28229;44743];
[27378;1;3;7;5;1;23;11;71;269;707;5;2931;1959;15089;9299;43927];
[27383;1;3;5;15;21;51;31;15;49;481;297;3871;751;10661;26401;62923];
[27384;1;3;1;7;17;27;35;255;205;865;1659;1921;5457;11633;2825;13549];
[27387;1;1;5;15;17;35;83;237;437;7;2001;2225;2601;10841;7953;20651];
[27392;1;1;1;3;3;37;43;135;451;203;1319;261;3889;14489;9635;52545];
[27402;1;3;3;13;15;41;95;207;43;997;207;3459;5995;5187;15851;28551];
[27438;1;1;1;5;23;57;49;101;303;921;745;1407;7071;2765;18703;32671];
[27481;1;1;7;13;9;59;65;157;209;295;107;3175;3401;1197;1875;9033];
[27482;1;1;3;3;17;9;101;75;177;905;1013;397;3421;6475;15897;11269];
[27494;1;3;1;5;29;53;105;83;383;137;1169;1245;6973;8701;317;10073];
[27531;1;1;1;3;15;55;69;219;507;707;945;397;779;4157;10333;7869];
[27542;1;3;1;3;9;21;125;153;107;969;1979;651;1199;11419;17043;32269];
[27546;1;1;1;7;1;29;71;127;209;853;1515;1169;5055;9981;30291;29569];
[27564;1;3;1;11;1;1;109;251;329;633;2021;1237;2147;11471;26025;19649];
[27567;1;1;5;1;5;7;77;175;251;143;711;1241;2133;9993;9203;24949];
[27582;1;3;5;11;19;11;101;83;91;595;753;2389;1887;11569;29759;55785];
[27608;1;1;1;3;29;47;49;249;495;451;1887;2547;543;2755;17207;24379];
[27611;1;3;7;7;19;15;95;143;109;221;2041;3593;4571;14547;14217;16711];
[27624;1;3;5;13;27;55;31;209;39;989;1435;1665;7265;14127;13517;37647];
[27629;1;1;3;7;1;49;63;71;249;371;435;3591;2677;143;28897;38981];
[27655;1;1;7;7;21;9;53;221;23;515;1971;3759;3511;10207;12929;42021];
[27667;1;3;1;13;25;21;3;85;421;19;663;3219;3541;13021;5765;39623];
[27676;1;3;1;7;11;5;125;169;293;715;1111;2965;4815;6047;27207;23093];
[27710;1;1;5;13;11;15;37;201;457;551;821;25;435;14307;25855;1811];
[27724;1;3;3;9;27;15;1;253;217;549;1013;2277;4171;3813;19857;8641];
[27745;1;3;5;5;29;37;71;49;163;949;425;2459;945;13125;13981;21669];
[27752;1;3;3;9;17;23;53;235;83;887;439;1939;7601;15275;15739;17623];
[27770;1;3;5;13;7;51;73;67;167;849;2021;2977;6591;3721;5827;40897];
[27779;1;1;5;11;27;19;81;181;383;23;1061;3327;1671;7113;7435;17591];
[27781;1;3;3;7;25;33;73;23;103;821;917;1425;4739;7227;12365;29509];
[27791;1;1;1;7;3;37;81;231;135;663;1983;399;6881;14991;4957;20913];
[27809;1;3;7;15;25;41;65;215;301;471;1669;65;227;9307;29867;9503];
[27810;1;1;7;3;25;47;31;63;53;995;33;1297;3423;12301;16255;14467];
[27815;1;3;1;1;31;25;79;131;353;169;1425;2257;2631;1559;793;48383];
[27827;1;3;3;5;31;9;93;35;503;243;595;2939;771;7333;13429;59457];
[27834;1;3;1;7;5;51;21;237;453;743;775;2207;453;12077;12283;9735];
[27865;1;3;1;15;5;47;59;239;87;97;885;3191;2547;13227;7433;4989];
[27899;1;3;5;15;21;33;41;155;509;317;517;1101;133;1897;8235;57673];
[27901;1;1;5;15;7;9;59;155;415;831;1173;1263;5451;7181;7233;51483];
[27914;1;1;7;3;31;43;71;39;155;529;895;827;3203;4625;32185;53507];
[27950;1;3;1;11;15;17;85;141;277;439;1775;4015;4457;281;22455;47591];
[27994;1;3;5;11;25;41;93;39;51;655;1347;3109;2479;9057;18939;26217];
[28005;1;3;3;11;31;41;7;189;241;443;65;1723;4817;13405;9641;63965];
[28009;1;1;5;3;19;29;111;11;399;277;425;1331;5365;14521;16449;29411];
[28033;1;1;3;9;25;53;91;175;481;307;1025;71;7425;10667;4053;25605];
[28039;1;3;7;7;3;13;75;175;467;363;1889;1759;1155;5511;13047;39637];
[28060;1;3;7;9;5;21;65;43;223;97;835;2253;3313;9817;23015;55365];
[28067;1;1;1;13;9;63;95;61;417;713;1469;1815;795;13609;1567;33535];
[28069;1;3;7;1;25;45;41;27;53;407;1633;1317;6267;3293;8899;45235];
[28099;1;3;5;11;23;47;91;211;41;775;1301;1407;7931;4491;7579;62321];
[28113;1;1;1;7;23;15;57;31;437;293;1999;2589;5453;2519;15533;26949];
[28114;1;3;1;9;1;27;41;165;129;297;1887;1171;201;5817;24503;38911];
[28139;1;3;1;7;1;11;63;225;191;623;1281;3275;167;14697;4905;47289];
[28142;1;3;7;7;15;47;87;177;303;391;355;3997;7557;6201;20531;22483];
[28153;1;3;3;15;17;31;111;87;61;477;1581;3787;5919;10511;2607;62951];
[28166;1;3;3;9;29;19;63;27;205;915;1131;3821;673;2875;12703;14367];
[28172;1;3;7;1;21;19;25;97;281;635;629;181;5207;11133;3687;3489];
[28183;1;3;3;9;5;63;3;21;385;713;1805;3583;2807;15455;13057;39771];
[28194;1;3;5;9;3;59;1;253;123;405;575;3911;4609;11869;23593;947];
[28232;1;1;7;5;21;27;101;221;413;153;1647;3637;803;5697;20761;61137];
[28245;1;3;7;13;31;35;111;253;187;499;465;157;5551;10417;323;34913];
[28246;1;1;1;7;11;41;29;65;393;69;1373;2291;7807;13159;13735;31001];
[28252;1;3;7;13;31;49;1;35;377;11;427;2803;1725;9165;22633;63985];
[28265;1;3;7;13;3;41;27;43;269;599;1035;3681;309;6011;1065;27901];
[28301;1;3;5;13;1;19;105;143;425;883;1669;155;189;8573;10759;25507];
[28323;1;3;5;1;15;37;115;9;149;79;1733;1045;1849;3289;13957;63171];
[28344;1;1;3;9;17;27;49;201;155;901;47;1585;4419;8117;25425;14699];
[28362;1;1;7;13;19;55;19;21;427;77;1295;1471;6271;7985;19337;12701];
[28400;1;1;1;1;11;49;101;53;175;157;839;2713;6149;6391;8089;27739];
[28417;1;3;1;1;5;21;121;199;107;221;993;1737;409;2545;9287;54605];
[28454;1;1;1;3;25;25;51;121;371;861;967;3257;6221;11701;27897;42509];
[28466;1;1;1;3;17;25;101;191;313;817;815;1855;7999;12649;23385;26081];
[28468;1;1;5;1;25;55;51;237;63;943;455;619;2381;9773;14575;34205];
[28477;1;3;3;3;13;49;101;37;457;727;1009;2389;4841;16303;9599;17773];
[28498;1;1;7;9;19;59;111;205;19;229;1755;1169;7767;13335;19669;33269];
[28510;1;3;1;15;29;1;51;167;7;415;1295;3165;1241;12859;5531;20083];
[28513;1;1;3;7;7;51;31;221;57;643;1461;3951;6237;5757;1907;40471];
[28571;1;3;3;5;23;39;49;177;183;117;1379;3803;771;12723;22291;32667];
[28573;1;1;3;13;27;17;39;27;313;141;1421;2967;2213;1915;23219;15113];
[28578;1;1;1;11;5;55;51;55;389;895;57;1447;1497;2799;19585;11587];
[28587;1;1;5;13;11;55;91;77;69;131;93;1383;3321;10487;15087;8539];
[28601;1;1;3;9;23;49;107;131;363;733;1189;3575;7815;10071;20291;7533];
[28646;1;1;3;15;31;31;73;15;199;17;761;3271;1419;12985;32717;37317];
[28663;1;3;1;13;23;9;3;59;109;729;1321;4023;7041;14445;22205;8993];
[28681;1;1;3;15;19;43;99;59;491;479;715;2235;7493;889;31465;1375];
[28682;1;3;3;15;9;47;35;115;227;615;605;1143;5923;10939;9497;24911];
[28699;1;1;3;15;23;53;111;87;423;497;85;3525;7341;8885;21543;30083];
[28706;1;1;5;3;21;5;117;157;407;743;715;1883;4425;10187;6395;43673];
[28708;1;3;3;3;31;39;119;77;269;891;1391;3085;2881;10639;3391;44911];
[28717;1;3;7;5;7;5;115;91;5;107;1401;1409;1811;737;5399;9119];
[28720;1;1;5;9;17;45;107;15;397;299;1219;1675;963;10111;31679;13809];
[28735;1;1;3;7;29;17;43;95;261;601;1091;3633;1357;13461;16583;12183];
[28761;1;1;5;1;19;55;5;195;187;427;421;1717;4223;2943;23147;32985];
[28783;1;3;1;3;3;23;69;95;347;273;1223;3061;1587;4707;32415;53991];
[28788;1;1;7;13;15;13;29;151;325;949;2029;813;5339;14165;1159;56917];
[28811;1;1;1;13;9;33;67;109;215;313;1407;3543;2403;5051;20367;13527];
[28825;1;3;1;9;5;1;9;195;497;495;1107;745;1647;10637;1933;44965];
[28838;1;1;3;9;13;19;49;183;497;519;1433;519;4317;2359;10349;63789];
[28850;1;3;5;9;29;45;55;163;189;533;275;237;5453;8895;6377;14117];
[28891;1;3;7;5;25;3;111;241;139;383;689;3481;2557;11163;5275;14671];
[28897;1;3;3;9;3;5;5;141;507;331;645;1957;5857;2083;24717;11131];
[28932;1;1;5;1;11;49;113;45;491;945;1467;3485;6369;15983;14489;12679];
[28975;1;3;7;9;11;41;77;127;147;635;1757;587;7423;4233;14875;30531];
[28998;1;3;3;9;17;29;21;249;155;441;1443;2093;1967;2117;5815;3857];
[29052;1;3;5;3;11;55;75;157;105;507;309;3737;2645;7547;29373;62775];
[29090;1;1;3;3;11;29;49;241;21;653;1273;715;8123;14241;25257;1681];
[29096;1;1;7;5;11;31;33;215;243;369;247;3365;4065;9389;32457;58393];
[29104;1;3;5;3;31;55;51;201;439;835;1805;25;7987;10611;26893;43663];
[29113;1;1;5;9;27;51;29;31;17;163;71;603;3083;12439;11043;6471];
[29133;1;1;5;7;13;1;91;109;213;721;1345;3037;3047;5209;15559;17467];
[29142;1;1;3;9;19;37;93;185;107;859;501;3843;1631;4389;2215;52225];
[29170;1;1;3;3;25;5;119;17;33;841;997;439;6135;7405;8445;40087];
[29192;1;1;7;15;19;17;101;43;423;647;29;1143;3259;7807;15929;809];
[29221;1;1;7;13;21;57;83;101;183;309;171;3173;7919;7263;29403;11055];
[29236;1;1;1;13;3;1;57;15;435;713;459;847;3115;191;19809;43037];
[29246;1;1;7;7;17;45;91;117;157;647;121;4091;3611;14169;19883;9069];
[29293;1;1;7;7;1;47;21;253;419;157;549;2105;4475;3127;3939;5809];
[29305;1;1;5;7;15;7;71;195;87;757;77;1391;151;12995;26403;17789];
[29312;1;1;1;15;15;3;79;43;475;263;1195;2385;5955;7039;15625;19263];
[29339;1;1;5;13;13;29;5;29;489;929;2027;2771;6899;14173;13747;1019];
[29365;1;1;7;1;5;45;37;85;221;871;627;3445;4853;4243;21651;30201];
[29389;1;3;7;11;9;49;73;245;161;321;579;2641;6653;5513;11555;53091];
[29402;1;1;7;7;25;63;101;179;497;113;9;549;5341;6097;13305;52421];
[29423;1;3;3;7;21;7;89;79;137;651;189;3025;1403;4559;32611;1857];
[29443;1;3;1;13;27;55;61;135;81;195;799;3477;4873;2691;29769;59033];
[29445;1;3;3;15;29;11;7;11;151;649;1511;2327;6921;12911;3571;35039];
[29463;1;1;5;11;25;19;49;133;455;373;1827;3619;2127;3365;11327;52785];
[29473;1;3;5;1;9;19;107;171;205;93;1557;2693;4297;4415;20407;19221];
[29493;1;3;3;11;15;45;37;143;61;759;2047;2465;3923;9477;30831;46377];
[29506;1;3;7;11;17;51;117;129;77;579;1167;1575;1967;10099;22137;31431];
[29518;1;1;5;13;31;61;67;37;49;283;235;783;7353;5149;12245;18725];
[29532;1;1;5;3;17;33;35;83;359;253;1911;913;6481;4635;24223;19693];
[29560;1;1;1;13;19;15;81;131;417;969;1911;2829;3097;5333;11175;52269];
[29590;1;3;7;15;5;39;19;205;329;83;1473;3259;6409;12297;30557;40917];
[29594;1;3;1;15;17;33;123;185;501;299;621;929;5797;10539;12321;61043];
[29637;1;3;3;1;7;51;119;19;17;203;373;2145;2367;9965;28071;50083];
[29647;1;1;1;5;1;35;43;243;91;793;1299;2705;7987;1291;10147;17863];
[29650;1;3;5;15;27;13;99;33;179;479;897;1113;1639;12321;23987;36219];
[29655;1;1;5;9;29;41;85;9;389;583;293;1727;2575;13767;15443;40027];
[29661;1;1;7;11;29;33;93;115;51;747;1569;3557;869;1991;29877;44131];
[29680;1;3;7;7;29;11;33;137;411;689;1815;1789;6557;5973;19445;49449];
[29721;1;1;5;1;17;3;77;55;351;325;983;3935;819;14127;18893;62553];
[29751;1;3;3;1;15;33;25;159;135;385;837;3615;1649;1687;3421;47579];
[29755;1;3;1;7;17;25;125;169;469;919;1789;863;2827;949;21347;10517];
[29760;1;3;1;11;27;19;45;255;175;483;1073;3779;611;2809;179;19767];
[29772;1;1;3;1;21;61;47;171;179;85;61;1209;4005;11439;8477;27229];
[29778;1;1;1;1;3;1;43;159;261;411;1449;1621;3681;3465;24029;3493];
[29799;1;3;1;11;5;13;9;23;369;769;363;3329;409;13151;30269;9621];
[29824;1;1;5;1;13;39;121;39;295;981;1151;4039;8179;5007;25527;1249];
[29841;1;3;7;5;17;21;47;233;211;349;643;109;7553;11453;30967;30959];
[29842;1;1;5;3;31;39;105;137;487;855;107;1567;2385;2889;25777;33709];
[29853;1;1;1;9;1;7;9;69;465;965;355;299;3327;14997;14599;2241];
[29867;1;3;5;11;5;39;69;203;367;611;199;3931;5039;8683;8675;49151];
[29949;1;1;7;13;31;35;101;213;273;827;203;2773;4131;1397;15311;62903];
[29950;1;3;7;9;23;41;33;213;411;965;563;3035;247;15019;20429;61081];
[29964;1;1;5;5;5;1;1;203;27;199;67;1301;7831;12839;2777;6325];
[29967;1;3;1;11;27;3;11;173;9;121;1701;2741;29;16319;15849;11989];
[29985;1;1;5;13;17;49;125;153;261;603;1617;3967;6083;7745;19683;49885];
[29992;1;3;3;7;23;13;39;169;135;361;579;1443;7615;2389;5669;651];
[30000;1;3;5;9;31;19;81;83;483;93;1895;2285;7771;8281;8353;39677];
[30020;1;1;7;7;23;51;127;25;101;611;1095;3013;2685;8153;22629;53355];
[30024;1;1;1;11;11;37;35;127;317;877;1591;401;4121;9945;12121;28257];
[30030;1;3;5;11;23;9;43;135;37;405;2009;2903;3065;6591;8473;58231];
[30066;1;1;3;11;21;45;21;205;425;891;357;2609;495;7541;2161;37853];
[30071;1;3;1;1;25;9;113;243;317;491;997;2023;5869;13643;11483;6733];
[30078;1;3;1;15;13;3;75;25;409;421;1817;857;4575;12559;1211;62177];
[30082;1;1;3;7;17;35;115;195;217;223;1195;749;5619;7265;7369;46907];
[30096;1;1;1;13;5;57;117;161;121;533;987;3959;5047;15213;15811;41841];
[30101;1;3;7;1;19;55;97;191;217;75;1881;3351;3737;12179;22875;28767];
[30102;1;3;1;9;15;41;9;97;491;31;1191;963;875;8259;2723;9503];
[30122;1;3;7;9;3;17;21;71;1;523;2031;3469;3181;8707;6093;8837];
[30141;1;3;5;3;5;1;11;91;33;37;643;85;4325;4293;8351;28311];
[30159;1;3;7;5;15;45;47;183;391;113;493;3607;2541;13521;31613;36049];
[30168;1;1;3;9;15;33;115;69;289;217;1875;1339;4995;9073;6909;15977];
[30177;1;1;7;3;9;29;39;219;119;369;893;1293;4511;15703;11093;30259];
[30183;1;1;5;13;19;9;17;75;149;415;35;97;563;1689;18311;54291];
[30197;1;1;7;3;17;15;71;29;25;883;1801;1675;5585;9413;3813;26673];
[30213;1;1;3;15;5;13;31;41;311;411;573;281;8075;7163;11817;29121];
[30231;1;1;7;9;7;57;15;141;337;123;269;3737;6455;2539;13655;59809];
[30232;1;3;1;15;15;23;111;51;429;483;1567;1317;8057;1609;30181;35687];
[30241;1;3;7;9;25;43;67;13;319;587;1827;443;2031;8563;16173;58667];
[30253;1;3;5;13;11;63;89;105;377;257;7;4077;5091;5125;25;39033];
[30259;1;3;3;1;9;29;7;87;239;469;1851;1711;5797;7137;11405;20175];
[30262;1;3;3;1;13;17;101;209;301;95;1181;3091;4451;1241;17057;335];
[30268;1;1;1;9;31;7;81;161;391;677;115;141;5375;7279;1887;1645];
[30297;1;1;1;11;27;61;3;195;189;409;1747;331;2931;9535;1369;47233];
[30316;1;3;5;15;7;15;105;255;491;689;97;1131;3459;7147;27541;62307];
[30322;1;3;5;9;5;23;1;209;233;717;1919;1835;5073;10403;28979;1945];
[30344;1;1;3;9;3;35;107;209;255;447;227;273;443;9367;24105;34095];
[30350;1;1;3;11;3;33;5;165;83;787;1555;31;4351;16301;27453;56739];
[30355;1;1;5;5;29;9;127;253;281;487;441;1129;2811;9113;28855;57117];
[30429;1;1;1;13;13;1;17;143;121;917;1571;3777;2297;3691;3001;42327];
[30445;1;1;5;1;25;7;41;245;241;929;1203;3755;7113;9333;22549;12253];
[30477;1;3;1;11;1;13;69;73;285;975;1331;3411;7777;3489;2763;44297];
[30513;1;3;5;11;3;37;21;105;153;307;989;627;3127;6169;10573;22139];
[30520;1;3;5;15;11;11;39;21;355;437;547;2283;6443;5561;6367;53899];
[30540;1;1;1;9;25;51;97;175;131;207;1367;2561;7455;8289;5877;4383];
[30551;1;3;7;1;29;17;7;1;43;831;591;2145;975;909;23107;43987];
[30573;1;3;5;13;5;47;65;65;439;807;271;1615;1873;10905;30537;3337];
[30609;1;1;1;13;29;1;53;5;307;347;1059;545;1129;11883;5969;50433];
[30622;1;1;3;5;31;29;63;201;255;803;677;1499;1691;14037;18251;6881];
[30635;1;3;1;5;5;13;13;121;505;855;467;2803;3297;4689;18443;60757];
[30658;1;1;5;13;11;19;11;201;101;431;693;1267;6909;7759;2265;6125];
[30667;1;1;7;13;9;3;37;209;269;27;1041;2587;4667;11077;27009;27967];
[30681;1;1;5;5;1;5;127;179;463;949;1525;231;1201;3283;9929;46677];
[30684;1;3;1;15;9;11;89;129;331;833;1415;229;2059;13145;30525;33773];
[30703;1;1;7;15;7;43;95;177;313;989;483;825;1885;4535;8213;39835];
[30705;1;1;7;3;19;27;45;163;17;523;1565;3753;7433;14117;8499;40177];
[30715;1;3;3;15;23;45;95;31;55;469;383;237;6287;5561;20901;48259];
[30742;1;1;3;1;23;61;101;185;35;553;463;1169;2875;12491;14327;47999];
[30748;1;3;3;13;23;29;77;21;19;3;769;1943;2081;9135;29767;11367];
[30758;1;1;5;15;5;11;59;163;355;993;375;3181;2675;8515;17007;38467];
[30767;1;1;5;13;19;5;107;83;123;843;413;2137;7531;3833;6149;55925];
[30770;1;3;1;13;23;9;41;145;265;591;1899;3145;5255;13653;12245;25367];
[30772;1;1;3;15;1;45;119;79;121;137;1945;2041;2409;1377;29501;29885];
[30807;1;1;7;11;27;57;75;183;341;237;1909;2785;5973;9965;21729;45089];
[30814;1;3;5;7;21;1;41;189;131;1021;1375;1463;5985;12499;4115;9131];
[30824;1;3;7;15;21;19;59;171;339;841;1725;2909;6437;2499;17191;43275];
[30857;1;3;1;1;15;55;31;199;351;183;1819;1873;7877;12407;7881;1663];
[30875;1;1;3;15;1;61;111;61;115;243;1281;3195;1229;10973;189;36049];
[30931;1;1;3;15;13;13;3;49;61;839;1615;1853;3619;7805;25441;8789];
[30933;1;3;1;9;27;43;7;193;397;869;1079;1785;6535;1801;29363;59269];
[30949;1;3;5;5;31;57;37;53;41;871;809;1235;1011;12979;8749;52151];
[30953;1;1;7;13;25;59;69;117;463;587;513;297;6991;5905;25737;37249];
[30982;1;1;5;1;27;19;121;97;349;793;1971;3057;4781;15841;22625;58637];
[31010;1;1;5;5;25;31;11;133;411;239;1071;3473;1733;7175;31841;46665];
[31012;1;3;3;13;19;25;99;175;271;175;1755;3597;4615;15207;25573;16089];
[31039;1;1;7;11;17;19;119;91;505;791;55;2979;7463;10147;23647;33283];
[31041;1;3;1;1;21;11;43;173;239;839;1533;1559;549;15621;22133;46387];
[31061;1;1;3;13;31;15;73;15;209;267;701;2899;1163;10093;7727;44211];
[31082;1;3;1;11;29;21;5;39;421;375;411;3693;3901;8507;10883;16189];
[31087;1;3;1;7;13;13;73;167;149;677;1435;621;2511;13813;13129;55327];
[31096;1;3;5;15;7;59;83;221;77;357;281;2689;5629;5837;1701;30811];
[31115;1;3;3;11;17;1;43;95;473;981;1487;1337;905;3307;22357;181];
[31130;1;1;3;7;1;27;9;3;489;1;1265;2463;539;12769;825;6149];
[31168;1;3;3;3;11;27;81;237;411;241;1613;931;6397;4325;29651;49003];
[31171;1;3;3;13;1;19;55;73;47;203;1661;1245;6847;2457;25427;33069];
[31177;1;3;7;3;7;47;11;165;391;457;301;1213;1913;14531;7847;14811];
[31180;1;3;1;9;1;9;57;203;15;733;1131;2751;5869;3165;21497;28881];
[31191;1;3;1;5;9;7;29;85;71;571;469;2395;2819;8443;2281;50489];
[31207;1;3;5;11;13;63;47;47;349;21;861;2217;2945;6967;6605;16459];
[31247;1;1;7;5;13;3;41;53;409;289;1225;2965;5283;1785;14443;51755];
[31249;1;3;7;13;19;1;29;191;119;37;697;1909;481;14157;13425;60581];
[31285;1;3;1;13;1;15;105;79;505;681;1741;3683;5775;7479;11387;1321];
[31303;1;1;1;11;9;35;77;73;351;217;2029;2845;5143;5677;15465;33123];
[31310;1;1;3;3;19;49;63;109;335;743;741;1673;3311;3139;25197;13793];
[31337;1;3;1;3;29;63;79;1;493;13;1487;4015;6983;1433;26023;55591];
[31352;1;3;3;11;1;25;57;207;309;201;1513;1749;3785;9217;11531;40597];
[31357;1;3;7;13;3;23;69;253;311;773;807;1063;745;4843;25221;55885];
[31374;1;1;3;11;29;47;67;183;11;259;5;1935;2295;8105;19139;11707];
[31379;1;1;3;3;23;3;53;165;255;501;1547;3649;5631;13307;8869;5595];
[31388;1;1;3;5;7;29;37;223;289;925;959;309;1479;3141;18661;52123];
[31410;1;3;1;1;7;59;101;219;91;793;1103;1485;7547;12889;19097;15613];
[31416;1;1;5;15;1;17;79;83;131;683;1611;1635;5405;9621;29489;4801];
[31467;1;1;5;7;31;63;59;125;401;261;1445;33;187;12913;8639;48413];
[31495;1;3;3;13;27;37;27;99;379;851;1311;4051;5483;13935;29679;30905];
[31504;1;1;3;1;7;57;79;23;97;561;1083;2327;1545;5387;12119;29717];
[31507;1;1;7;7;9;41;63;165;315;247;89;2055;7399;1399;2057;39851];
[31509;1;1;1;15;9;23;7;15;457;669;661;3269;915;3475;15845;59769];
[31514;1;3;7;15;17;53;83;5;457;103;1297;2413;1095;7711;27935;56357];
[31516;1;1;3;5;17;3;81;23;165;341;781;3583;1751;6763;13937;35331];
[31530;1;1;5;11;31;21;7;63;369;867;573;45;2781;4507;21553;51933];
[31555;1;1;5;15;1;37;85;133;489;733;1471;2089;979;7723;7339;59595];
[31567;1;1;1;1;7;3;3;77;137;1009;481;1343;397;15865;21701;37509];
[31570;1;3;7;5;17;57;19;245;249;289;1847;3057;4905;5905;32459;41305];
[31586;1;1;5;1;23;23;1;177;115;337;983;421;3135;6319;27109;59641];
[31598;1;3;1;5;25;1;63;73;61;967;1567;2645;7347;11877;28777;38507];
[31605;1;1;3;9;5;41;39;101;339;337;1079;3861;5049;5601;14377;34093];
[31609;1;3;7;7;3;47;95;157;167;1011;1117;3669;7993;11735;8505;64713];
[31612;1;3;1;9;3;33;11;33;65;329;401;2659;2851;3903;29791;41613];
[31626;1;1;1;15;15;17;9;69;359;41;1475;1919;5829;2189;21295;33255];
[31634;1;3;1;3;9;23;73;247;399;775;419;3033;865;12595;16345;15079];
[31655;1;3;1;5;1;17;33;23;419;585;673;929;6955;10247;12647;29107];
[31681;1;3;3;13;9;33;11;13;127;529;1219;2401;6459;14745;5123;53023];
[31705;1;3;5;11;23;11;5;19;281;121;1671;2171;4545;10691;24875;28849];
[31706;1;3;1;3;13;25;85;131;127;977;1599;3319;3107;3185;4879;3455];
[31718;1;1;5;1;3;13;77;15;133;185;1319;727;2181;12175;28017;28023];
[31735;1;3;7;5;29;51;113;203;331;847;1;3445;3669;7711;13647;58651];
[31741;1;3;1;3;31;27;35;199;491;839;1275;3385;4743;821;26259;11345];
[31744;1;1;7;9;21;47;9;67;119;985;127;1987;5451;6403;26183;8349];
[31762;1;3;5;1;19;3;91;217;301;595;1789;735;4993;229;18033;59625];
[31774;1;3;3;3;11;25;103;211;117;9;773;1521;2265;8277;23179;22433];
[31864;1;1;7;9;3;27;63;255;175;699;293;2409;3155;285;8663;53503];
[31874;1;1;5;7;27;23;63;213;323;697;1541;3497;2985;12389;11155;26217];
[31900;1;3;1;3;31;7;47;207;185;873;1063;1055;205;12469;23505;56245];
[31910;1;3;7;13;31;17;47;95;91;483;1997;3273;445;2601;15219;10997];
[31928;1;3;3;5;29;45;29;83;457;823;1395;1411;1879;9409;11609;32001];
[31965;1;3;5;11;21;11;43;73;159;137;29;1957;815;5077;16127;42199];
[31976;1;3;5;13;9;59;47;215;293;807;309;1951;2285;9287;1019;49501];
[32016;1;1;7;13;31;7;95;189;233;363;1039;1675;1715;9049;8537;31051];
[32032;1;3;7;9;23;35;125;251;107;401;1113;3585;6331;2363;27889;28877];
[32037;1;1;7;13;9;1;13;69;257;369;547;1595;1823;9553;25653;31181];
[32062;1;1;7;11;9;43;3;93;69;1019;1935;3297;47;7101;1037;63473];
[32069;1;1;7;5;21;9;97;105;405;893;1673;3783;2965;7329;4549;25433];
[32115;1;1;5;13;5;17;31;123;415;173;1333;2245;1557;16011;28321;4039];
[32128;1;1;5;9;15;3;27;79;511;39;945;49;3231;9199;21327;11183];
[32171;1;3;3;9;3;15;115;141;387;341;953;399;6109;12037;21079;26745];
[32173;1;3;3;1;5;5;31;195;477;755;687;3811;805;679;20687;46299];
[32182;1;1;7;15;1;31;67;159;205;141;1667;3077;451;13161;16211;6887];
[32191;1;3;3;1;7;43;87;5;49;205;231;3957;2947;13199;15743;4681];
[32193;1;3;3;15;25;37;95;11;439;553;59;1241;7407;13467;22403;44441];
[32194;1;1;1;3;21;3;127;239;491;139;1411;3417;4247;6247;13809;31609];
[32229;1;1;5;1;9;13;5;155;109;593;119;4091;1911;8301;4239;50081];
[32230;1;3;5;13;27;3;99;225;253;169;801;3741;1905;12073;31831;17997];
[32248;1;3;7;15;9;23;93;171;453;983;1657;1133;6381;5229;32303;17439];
[32263;1;1;7;11;7;5;125;141;63;763;1293;1007;4579;1479;11977;59261];
[32264;1;3;1;7;1;15;49;41;367;639;1933;401;2335;2441;13653;55555];
[32269;1;3;1;7;15;23;5;213;45;721;543;2133;4525;9719;28053;54075];
[32298;1;3;7;3;11;7;23;35;169;829;1957;2423;3583;4951;28957;29753];
[32335;1;1;3;3;1;5;19;235;175;969;229;2335;7215;10195;7487;64191];
[32340;1;1;7;3;27;1;73;49;445;863;69;3555;993;9553;31941;29901];
[32356;1;3;5;11;9;25;59;177;23;997;1041;1135;3879;767;2263;51267];
[32374;1;1;7;3;1;63;49;51;237;569;1293;1143;3125;16315;17009;24821];
[32390;1;3;3;15;11;17;121;25;349;833;557;1975;5405;15189;31243;53541];
[32401;1;3;7;9;11;15;39;15;75;87;55;2069;3291;507;16925;57751];
[32414;1;1;3;15;1;21;61;139;357;931;647;947;2291;15557;6739;5881];
[32417;1;3;1;9;1;47;73;59;115;497;733;1777;905;16181;4351;7345];
[32442;1;3;3;7;5;21;67;113;71;743;757;1851;7899;10315;15437;61803];
[32450;1;3;7;1;9;23;77;131;395;767;1229;2629;5731;11907;32217;18473];
[32461;1;3;5;15;1;23;123;207;291;565;1211;501;2111;11381;5171;54841];
[32473;1;1;1;15;21;13;3;175;405;109;1353;2495;7619;14971;28179;34737];
[32479;1;3;5;3;17;25;53;71;229;729;1953;3119;7747;1551;23417;35563];
[32530;1;1;7;7;11;31;81;43;149;537;1253;2759;431;4813;8375;46329];
[32536;1;1;1;5;11;27;61;199;239;889;723;2353;5663;7385;28165;14675];
[32548;1;3;1;7;3;3;83;247;247;57;579;1163;2615;4051;2809;46413];
[32577;1;1;3;11;13;47;11;235;475;35;843;2329;3519;8899;14533;24889];
[32628;1;3;1;1;7;31;15;101;327;499;471;1001;339;11863;24787;47191];
[32642;1;1;7;1;3;55;93;43;11;65;289;1249;5325;13867;29841;34333];
[32665;1;3;3;1;25;61;87;113;115;265;1007;1129;7633;6109;5733;22649];
[32666;1;3;1;11;31;59;127;83;33;419;1037;3777;6383;2711;2113;17233];
[32668;1;1;5;13;11;17;73;41;257;223;359;3821;4617;1943;11331;40153];
[32696;1;1;1;1;9;25;43;179;17;1021;1323;761;5861;11547;26017;5165];
[32722;1;3;5;3;29;21;53;111;213;717;1101;3215;3021;16343;23387;33439];
[32757;1;3;5;13;29;11;21;89;107;111;1121;2785;3493;9873;13;40863];
[32758;1;1;5;13;15;15;111;219;59;43;333;3581;1311;2799;23987;21637];
[4;1;3;1;11;21;57;115;247;499;525;1629;3679;2109;6607;27435;1745;71201];
[7;1;3;3;3;31;17;113;165;189;361;103;1775;3001;3865;30591;2873;17129];
[16;1;1;5;5;15;47;47;85;247;471;713;3571;2407;9811;8187;32133;8541];
[22;1;3;3;1;15;1;59;151;469;351;671;2925;7207;5061;28691;4363;50767];
[25;1;1;5;7;11;35;67;45;193;3;627;3333;6497;12307;28807;13997;108645];
[31;1;3;1;1;17;63;125;185;485;759;717;1993;6707;3993;2181;8173;18057];
[32;1;1;3;13;7;15;113;207;103;191;1895;2595;3873;12021;19259;12553;119119];
[42;1;3;7;1;17;11;101;209;315;9;901;2303;7623;7459;26391;45143;5753];
[52;1;1;5;15;1;5;71;155;167;89;145;3483;2385;15205;9193;20637;58473];
[61;1;1;5;7;25;55;57;51;333;299;1721;1667;6513;10191;29405;21923;76593];
[70;1;1;5;1;7;37;107;91;241;137;627;2749;5573;11243;26197;4545;105599];
[76;1;3;1;5;25;37;73;61;57;249;1953;1385;6479;3701;10693;617;62535];
[81;1;1;1;15;5;63;41;151;395;681;227;3027;8123;15091;15475;35671;21129];
[87;1;3;5;11;29;21;15;233;103;463;1829;2257;1717;2249;9599;5097;55705];
[93;1;3;5;1;29;3;35;151;193;105;1107;827;7169;1843;15225;29025;43165];
[98;1;1;7;15;17;51;93;199;205;41;113;1081;1571;11471;11057;16149;66905];
[122;1;1;3;11;5;25;107;195;51;675;1683;3739;1653;611;23249;53157;127785];
[133;1;1;7;5;7;3;25;145;453;735;441;77;8171;9281;22749;36973;106237];
[134;1;1;3;13;13;5;95;33;223;369;453;2031;3531;6931;8977;54109;115487];
[140;1;1;7;7;1;61;33;183;245;623;529;1831;1867;2845;8311;10143;67897];
[146;1;3;7;11;27;23;93;9;61;451;67;1695;4227;2415;19249;44765;24611];
[158;1;3;3;11;29;57;65;117;349;149;363;1095;4989;3071;17519;18079;7277];
[171;1;3;5;9;1;7;59;87;307;111;1291;789;7361;6477;11229;36785;33303];
[176;1;3;5;1;19;47;53;81;127;849;1479;1459;1889;15087;22115;20587;121005];
[179;1;1;7;15;31;31;71;55;253;927;277;2087;1313;3721;22729;34709;9821];
[182;1;3;5;13;13;63;73;41;165;315;1907;2005;691;725;22685;8673;76011];
[191;1;1;5;9;23;61;47;167;279;683;683;1261;4037;15251;9421;45359;38001];
[193;1;1;7;3;17;33;69;139;235;709;1475;2483;7559;8581;23965;31153;5097];
[224;1;1;7;15;23;61;43;5;433;531;761;2749;2881;5225;13491;16479;50203];
[227;1;1;3;9;29;7;9;23;339;315;1723;779;2983;6571;16025;63055;111103];
[229;1;1;7;13;23;55;71;121;297;193;41;3165;4419;5853;28127;56151;16597];
[236;1;1;5;7;7;23;93;11;261;297;1769;1239;2579;531;4423;7891;21729];
[248;1;3;5;1;13;35;83;85;125;887;161;3311;7261;9557;28975;28643;21479];
[262;1;3;5;3;27;5;47;175;287;867;141;3079;7583;4997;18271;24097;96319];
[273;1;3;5;1;21;51;47;67;211;281;1861;1169;6403;4229;3995;9921;41515];
[276;1;3;3;11;23;23;81;55;441;211;169;3197;7213;7205;15;11771;129091];
[280;1;3;7;3;23;39;23;163;253;1005;1775;3393;7659;8065;30021;61065;35171];
[283;1;3;1;1;29;29;39;143;191;711;1077;13;4137;15425;11139;1269;71915];
[290;1;3;3;5;11;41;101;127;301;335;45;2065;5835;7801;2639;5735;63445];
[309;1;3;5;9;3;39;51;53;489;663;951;3931;3075;753;22179;20573;10775];
[316;1;3;3;15;13;31;1;237;79;587;395;591;607;13105;21301;26829;112181];
[319;1;1;7;7;5;55;31;117;247;229;247;307;3821;6483;31317;22975;40535];
[321;1;3;7;15;15;59;101;17;437;373;1727;471;2783;7825;24555;58765;5097];
[328;1;1;3;9;31;27;71;147;71;871;793;2363;3213;13383;29801;53187;70021];
[346;1;3;1;1;19;47;121;61;303;565;1371;3703;2201;6835;26041;56039;80227];
[355;1;1;5;5;3;45;91;61;257;947;1449;4031;4925;8627;11909;9529;3429];
[367;1;1;1;7;9;63;69;233;141;361;1443;2157;2877;643;2779;8109;126911];
[369;1;1;5;1;5;3;67;157;21;1;361;35;1475;12877;22169;6653;85005];
[372;1;1;7;9;25;1;7;175;47;963;405;3955;3905;8429;8483;62037;11323];
[382;1;1;5;11;29;23;77;211;319;745;1935;2429;1687;2173;1571;19457;117777];
[388;1;1;7;5;15;57;121;189;303;79;527;1801;71;9857;14197;59007;75341];
[392;1;3;3;5;25;3;19;141;155;157;287;769;5789;8443;31823;1019;79111];
[395;1;1;5;11;27;27;117;141;355;1023;869;995;6311;6573;11721;1565;35517];
[397;1;1;1;9;1;33;107;51;41;889;1191;1055;503;14779;6641;58117;74157];
[403;1;1;7;5;13;39;39;33;293;75;963;3379;1847;12371;9005;38107;69753];
[409;1;1;5;5;7;37;19;241;427;635;1711;3835;773;10525;17207;1675;127255];
[410;1;1;3;7;17;19;11;113;191;947;1133;3173;213;10125;1373;56797;111011];
[425;1;3;1;1;29;45;65;237;223;695;697;3197;6887;8079;22099;12079;54847];
[443;1;3;3;7;5;47;19;215;341;863;1879;571;7113;2465;23407;52555;44375];
[472;1;3;5;11;25;31;109;73;429;553;1905;1753;6733;4433;13785;32041;27115];
[475;1;1;1;3;27;5;97;47;343;977;1241;721;3355;3559;28349;56389;63103];
[481;1;3;3;9;21;53;57;211;73;155;1855;715;3179;5963;10061;35141;63131];
[488;1;3;1;15;21;25;51;73;31;25;1385;637;6585;49;2105;6829;9353];
[493;1;1;7;5;11;55;31;69;145;637;1131;2175;3547;13031;2131;12361;74737];
[501;1;3;3;5;31;7;119;119;309;925;895;3813;1131;4765;17865;48707;113577];
[515;1;3;3;9;13;33;127;177;323;727;1881;775;7329;11881;28309;987;116093];
[522;1;1;3;5;31;55;39;41;511;157;1655;2991;3633;8521;27049;18771;54015];
[524;1;3;5;13;11;45;113;185;375;661;1331;4013;5521;1037;23365;30239;76957];
[527;1;3;3;7;19;7;23;17;435;913;1985;353;6049;7549;3371;60867;41099];
[535;1;3;3;15;17;9;53;127;149;849;1181;2237;1345;539;19715;26277;125445];
[542;1;1;1;3;1;9;67;79;79;795;1793;3167;5917;5323;22043;22007;3917];
[545;1;3;5;9;15;19;59;37;141;145;413;1095;7709;669;27061;40171;101499];
[555;1;3;1;1;9;49;109;7;119;861;875;1049;4125;6113;15699;6105;48799];
[558;1;1;3;9;11;29;43;175;371;357;1181;3933;43;4559;10333;23603;83095];
[560;1;3;3;9;9;7;57;61;409;143;591;761;4107;8117;1051;4471;91771];
[563;1;1;3;11;3;53;119;21;213;219;51;3491;7143;937;24693;3211;99463];
[570;1;1;3;3;1;47;53;153;211;523;1637;3351;3753;12489;31825;27613;96431];
[578;1;1;5;15;23;57;81;231;147;9;1043;3157;1463;4835;22435;57407;59615];
[583;1;3;3;13;15;63;111;5;449;957;1175;2887;7741;8975;28775;4067;69283];
[590;1;3;1;1;5;61;109;211;349;179;951;153;3147;7555;27037;59829;16077];
[597;1;3;3;7;15;33;53;61;309;991;227;3437;3983;14559;13065;46387;49105];
[604;1;3;5;3;25;23;97;139;315;601;1179;1083;6799;1813;15511;60433;65641];
[608;1;1;7;1;11;43;87;87;173;161;91;3011;1869;2313;13691;3509;39433];
[614;1;3;5;7;15;5;39;251;269;819;815;2283;5635;6953;27017;65143;45281];
[635;1;3;7;9;1;37;9;57;467;37;1743;4031;3751;8105;23789;46847;21911];
[637;1;1;7;1;23;47;63;99;59;951;1837;2829;161;857;4045;9945;53487];
[653;1;3;7;7;11;47;43;99;279;945;1189;2091;4597;183;15527;7151;112403];
[654;1;3;3;15;9;53;63;135;119;95;131;2461;157;10631;20847;51699;58865];
[659;1;1;3;1;25;3;115;29;303;361;1529;3993;5899;11501;4463;47121;75333];
[666;1;3;1;15;9;39;31;199;305;279;15;611;561;6593;3189;1863;61875];
[671;1;3;5;15;5;49;87;17;87;5;1179;1351;7647;7529;15901;30351;31959];
[689;1;3;3;9;31;57;127;239;349;773;547;2649;1309;8071;10741;57645;14423];
[690;1;1;5;9;5;15;59;185;315;411;1425;3905;853;12393;21;15195;114291];
[695;1;3;1;5;29;47;19;203;319;673;1169;2413;5295;6251;19883;2725;28937];
[713;1;3;1;5;21;55;19;185;103;827;117;341;3315;5625;345;63845;49081];
[722;1;1;7;9;27;51;105;15;243;735;1221;1641;293;14423;5363;60873;66223];
[733;1;1;5;1;19;5;109;131;131;67;231;2907;4389;5079;20503;59045;33625];
[758;1;3;1;5;5;15;79;67;287;225;519;1543;2389;671;7767;62625;61639];
[770;1;1;1;9;25;35;83;15;291;207;1757;3691;5669;11255;27939;57813;46251];
[782;1;3;1;1;29;3;83;109;323;179;1855;3205;7665;16201;13863;16347;98977];
[784;1;3;1;13;17;1;101;183;153;985;125;999;855;15897;19491;8953;23277];
[793;1;1;7;11;9;33;45;229;411;155;537;3037;1785;11719;8589;16617;47339];
[803;1;1;5;5;9;11;7;163;305;621;1647;2609;7901;14421;23447;1205;52681];
[805;1;3;3;1;7;29;39;227;419;561;129;3299;3123;4243;18689;12335;71783];
[812;1;3;1;9;11;61;65;207;123;763;485;1943;3617;415;22397;58597;128017];
[838;1;1;5;13;25;43;115;73;269;137;1765;705;1705;16137;22751;60021;4333];
[849;1;1;5;13;3;57;9;141;75;695;597;3435;1085;4905;19625;16061;12111];
[875;1;1;5;9;29;13;119;251;353;421;1955;3503;2605;2587;12503;46419;128815];
[877;1;3;5;7;7;29;67;25;37;327;1607;1899;1691;5801;17441;9755;24993];
[880;1;1;3;11;17;29;121;201;371;597;213;2361;6615;169;24801;56175;129241];
[892;1;3;5;1;31;63;85;77;151;599;103;677;4431;12897;6373;40349;100819];
[895;1;3;5;9;25;9;119;219;379;939;1907;945;5819;7433;32519;56493;50441];
[899;1;1;3;9;13;1;63;189;135;839;1821;2247;2547;965;6847;63335;32921];
[919;1;3;5;13;21;25;111;37;319;469;1999;1637;8167;2641;24615;63713;115923];
[920;1;3;5;9;9;27;1;63;275;223;1675;3833;7377;9755;6279;37161;108805];
[932;1;3;3;13;29;23;21;73;401;863;701;2527;4557;5549;22493;6651;39167];
[935;1;1;3;15;25;21;97;25;83;925;2029;3789;3241;7617;13699;31123;124619];
[936;1;3;7;5;23;7;95;227;123;215;359;2099;4505;8477;32665;18211;99679];
[941;1;3;1;9;11;57;75;17;105;175;831;1033;5425;8419;16163;23901;33889];
[950;1;1;7;1;17;49;71;23;129;413;333;2547;4627;14961;16745;53649;73059];
[961;1;3;5;3;13;33;121;147;443;187;1949;319;8141;14359;11203;53569;70415];
[962;1;3;1;11;15;1;23;29;509;985;1217;3755;385;3697;24631;37619;62435];
[971;1;3;3;3;17;11;107;37;227;913;259;2799;3249;2347;9703;52741;101187];
[982;1;1;5;13;25;25;47;77;405;415;1947;1675;5079;1333;10059;32033;88975];
[986;1;3;5;9;27;7;19;241;445;205;333;285;7997;6339;29643;10229;29965];
[1012;1;3;5;11;17;9;91;223;173;1013;779;3967;781;5471;4309;24795;99203];
[1021;1;1;1;3;19;53;7;159;351;515;223;3375;1;4985;16729;43333;85917];
[1024;1;3;3;1;19;35;95;69;19;157;1177;579;7109;3499;3219;26641;49491];
[1029;1;3;3;5;25;21;125;5;39;857;615;2925;2005;5503;25523;36711;30939];
[1030;1;3;1;5;11;33;29;5;425;125;939;1641;321;1023;12551;4587;116617];
[1051;1;3;3;13;9;59;93;137;103;517;1555;13;7965;13629;14339;37425;65891];
[1054;1;3;7;1;31;31;87;237;365;951;267;2019;5085;6133;29371;50319;94313];
[1064;1;3;5;7;17;19;23;225;501;189;1291;603;6873;8633;11425;30565;26355];
[1067;1;3;7;11;23;17;91;111;415;225;1287;2081;4683;12069;3627;32281;17995];
[1082;1;1;5;15;25;59;75;203;179;405;1711;3147;7483;5583;3729;11765;61019];
[1096;1;3;3;9;3;43;65;7;269;33;829;1789;967;13119;26329;16937;18533];
[1116;1;1;3;15;11;39;73;11;31;143;1913;1227;1363;11831;28687;50489;106373];
[1119;1;1;3;3;25;19;15;11;349;1011;421;3193;3665;6149;20729;6997;51437];
[1129;1;3;5;9;13;63;73;55;417;223;1753;2913;4809;3947;10769;5751;93867];
[1130;1;3;7;13;31;39;39;133;483;839;1137;3303;7285;4309;24079;60529;103337];
[1132;1;1;3;7;1;55;3;253;435;589;1949;1461;513;381;29455;4263;16831];
[1137;1;1;1;15;25;19;77;101;299;187;1021;1533;8021;4165;2277;18927;110439];
[1147;1;1;1;11;9;35;71;159;409;527;15;4073;5749;8563;2503;53015;111581];
[1150;1;1;7;5;21;47;113;23;477;559;543;409;4701;11479;30761;8373;87777];
[1154;1;3;5;13;9;27;25;137;81;37;799;857;3539;4471;15753;59015;48589];
[1165;1;1;3;7;11;57;103;83;209;71;193;3251;4839;13959;32009;6471;23631];
[1166;1;1;7;11;25;33;85;31;371;253;1667;1627;6159;10039;15177;52121;39475];
[1174;1;1;5;9;13;55;37;13;95;113;1895;1525;1907;6361;5863;27767;108143];
[1177;1;1;3;13;21;5;53;39;485;171;1355;2117;3127;6467;31697;45343;111477];
[1184;1;1;7;15;13;57;11;231;329;703;1823;2983;215;2835;19719;56637;126169];
[1194;1;3;5;15;13;51;13;173;301;867;127;2391;2795;4945;13293;49947;10765];
[1204;1;3;3;9;23;5;29;165;467;599;1181;3213;4069;5473;8937;51495;42611];
[1208;1;1;7;15;5;5;31;125;397;519;1465;115;7877;7025;14213;50343;85827];
[1213;1;3;7;3;25;59;95;103;101;347;95;3;1251;15109;12615;7511;56789];
[1219;1;3;5;9;13;59;71;19;107;73;345;3177;6519;2407;18033;31075;113185];
[1233;1;1;1;3;27;37;5;219;169;149;355;549;1811;11351;22627;53931;88619];
[1264;1;3;1;3;27;7;9;97;399;947;1393;3917;5439;15845;19465;30123;69099];
[1267;1;1;7;9;13;25;107;45;111;409;967;3359;2499;1703;20763;45187;16265];
[1281;1;1;1;13;5;49;43;249;49;947;597;1773;2387;2693;15297;57969;53385];
[1312;1;1;7;15;27;25;27;121;421;781;143;817;7335;14211;139;55601;56671];
[1321;1;3;1;5;29;47;77;23;413;931;785;1221;769;13131;26955;56441;85745];
[1330;1;1;1;11;27;3;53;21;467;43;1533;1053;691;6369;8325;51087;71261];
[1332;1;1;3;15;7;9;43;225;293;143;1049;3095;6119;3165;9913;26023;62657];
[1335;1;3;7;9;11;39;99;193;217;941;259;3811;6757;281;10377;46961;48949];
[1341;1;1;1;1;25;1;99;61;495;861;2013;487;2821;12921;30111;27213;97363];
[1356;1;1;5;9;23;33;103;237;161;721;2021;159;995;475;20615;30961;31767];
[1371;1;3;1;1;5;59;63;139;451;789;1285;655;5501;273;21061;35937;20811];
[1377;1;3;3;9;9;15;121;233;287;929;1605;1243;417;1695;29903;28699;85981];
[1380;1;3;3;5;7;25;27;253;469;255;285;2467;4897;4079;29759;50351;76451];
[1384;1;1;3;3;5;33;29;209;291;967;1429;1953;5957;14065;8875;32675;4629];
[1395;1;3;5;9;7;31;97;21;177;485;1115;4051;6683;7761;30181;37531;51789];
[1397;1;1;7;3;25;51;23;183;57;699;1245;2519;2783;4457;6381;43199;40071];
[1411;1;3;5;5;19;55;45;101;299;461;1009;319;7335;7769;5479;61113;7937];
[1414;1;1;7;3;29;21;55;55;437;771;363;683;4299;15569;13813;40663;86285];
[1426;1;1;1;13;31;35;93;175;451;387;1145;3367;3833;13495;11019;48925;85721];
[1432;1;1;7;15;31;21;55;205;117;895;535;2627;1473;10779;24493;42999;130805];
[1435;1;1;3;13;27;11;45;37;193;237;1505;1405;3613;9565;3037;53643;85211];
[1437;1;1;3;13;9;17;19;27;117;503;65;1033;7891;4005;9229;20999;96601];
[1442;1;3;3;5;17;3;71;79;145;985;935;3997;6239;12511;13895;65031;126383];
[1454;1;1;5;1;23;55;3;105;71;243;1479;111;7103;10753;26193;35833;14583];
[1468;1;3;3;3;15;3;73;125;267;29;1775;1437;8091;10891;25731;54381;12821];
[1473;1;1;1;3;23;15;67;123;401;347;807;1097;31;11209;8727;58149;129099];
[1488;1;3;3;7;7;61;49;129;423;535;135;3587;233;4509;23209;59203;41297];
[1491;1;3;1;7;5;29;65;31;335;855;835;1421;3081;14219;16321;48269;41603];
[1509;1;1;1;13;3;21;5;117;163;603;1519;3789;7873;10981;4615;9165;83929];
[1524;1;3;5;11;15;21;75;151;193;757;647;1603;333;10515;22771;55459;3315];
[1533;1;1;7;1;27;3;63;197;271;175;1599;2119;1031;8671;10893;35641;94535];
[1555;1;1;1;15;1;59;93;17;5;213;1663;941;435;8107;1963;34951;106181];
[1567;1;1;5;11;13;35;111;97;267;737;2023;1301;7407;11249;31785;31933;20673];
[1571;1;3;3;15;5;15;29;63;189;687;27;2005;7129;11377;23175;42389;30933];
[1586;1;1;1;9;13;63;7;155;67;291;1419;755;2623;4749;22971;7545;55711];
[1592;1;3;7;7;23;29;83;151;213;201;157;3051;6553;6401;15931;47941;22869];
[1595;1;3;5;5;7;45;33;155;225;25;49;2419;4241;6835;11401;50725;118343];
[1600;1;1;3;13;31;27;37;41;19;375;1771;1789;2313;2577;12615;22715;22179];
[1606;1;3;1;11;17;53;55;229;235;837;143;3583;2789;5471;6515;44565;8619];
[1627;1;1;5;15;5;17;23;95;217;551;353;27;3973;2547;27903;50611;72277];
[1648;1;1;3;7;5;13;41;111;157;215;1327;3073;1871;11875;24239;40527;97637];
[1651;1;3;1;1;29;63;111;187;369;395;1197;3229;4353;14715;29671;50503;89321];
[1654;1;3;1;1;5;63;11;39;171;209;463;3421;3451;4453;14397;2219;98261];
[1667;1;3;3;5;1;1;13;101;67;815;1521;1543;7221;7337;10765;30029;47881];
[1669;1;1;5;7;9;9;33;197;439;893;961;11;4319;14265;24839;33581;35531];
[1674;1;3;3;15;29;35;43;229;313;369;955;1069;2939;12623;20373;1533;9105];
[1687;1;3;1;7;21;7;127;243;103;353;859;3789;4369;12063;22369;14531;94289];
[1698;1;3;5;15;1;27;65;127;229;99;627;2693;7173;7305;29971;7097;10113];
[1710;1;1;5;15;3;47;61;29;155;725;1727;2667;7003;16277;21983;21365;129365];
[1717;1;1;5;7;27;61;115;133;137;661;1201;2151;367;3567;12885;62143;53955];
[1722;1;1;1;11;9;41;113;103;469;687;1541;3679;6833;10493;32747;39909;121445];
[1735;1;1;7;5;5;5;91;91;5;405;529;3999;6783;2387;16621;12919;8659];
[1741;1;1;7;13;21;47;125;155;83;913;1833;4027;6657;7031;31231;58201;88943];
[1749;1;3;7;3;17;55;25;29;181;205;1173;1081;6475;5037;18461;22487;114131];
[1750;1;1;7;7;25;63;101;103;171;191;1863;3441;2515;14179;30123;19145;31669];
[1769;1;3;7;11;29;49;73;163;415;821;1809;723;7049;14565;4829;19395;61131];
[1775;1;1;7;9;5;25;103;167;381;757;813;471;3021;6619;20929;38133;129505];
[1777;1;1;5;13;25;61;59;199;257;999;169;3289;7181;2049;2185;39045;102703];
[1778;1;1;3;1;21;1;111;125;289;33;701;3491;5569;8055;23149;26793;102563];
[1792;1;1;7;3;25;15;105;235;307;201;1947;699;2519;10615;29345;17061;112949];
[1797;1;3;3;15;19;1;93;173;399;13;269;1189;523;5145;32731;54087;94123];
[1802;1;3;1;15;9;41;59;79;217;833;1993;2429;3599;6919;30911;12615;67947];
[1822;1;3;3;13;31;9;95;37;343;955;1363;3851;4091;13165;15241;14853;35747];
[1825;1;1;3;5;27;39;37;217;385;473;1997;2247;7353;1503;9003;15055;27289];
[1831;1;3;7;11;1;13;21;243;375;91;1295;1661;203;15251;15355;16065;24183];
[1838;1;3;1;13;11;45;85;5;275;741;1395;4011;7987;16087;24113;50555;128147];
[1852;1;1;1;7;3;11;13;189;55;151;395;657;807;11973;26297;13043;109641];
[1855;1;1;7;13;31;19;33;235;491;647;1115;2299;6381;7525;2237;36197;126457];
[1860;1;3;5;1;21;15;53;231;77;347;969;141;4501;9429;1815;50887;74581];
[1867;1;1;1;9;29;43;47;103;327;131;927;441;7517;7277;21065;409;50351];
[1869;1;1;5;1;11;13;103;157;239;69;1347;477;5017;9723;28133;65135;12359];
[1875;1;1;1;13;17;63;117;189;323;565;927;1727;5337;13243;5739;31241;14209];
[1882;1;1;3;9;29;9;103;61;467;217;1367;2405;5355;5743;31469;30149;98775];
[1903;1;1;1;15;23;23;17;229;103;583;179;115;7081;9437;32623;62639;72391];
[1908;1;1;5;11;11;39;97;209;115;107;593;2347;1445;6179;32011;8435;65847];
[1917;1;3;7;3;29;27;55;111;27;731;995;1871;5017;1485;11313;2559;6561];
[1927;1;3;1;3;27;9;103;247;83;197;517;1629;2189;7255;183;35111;15077];
[1941;1;3;7;5;31;37;87;223;343;331;1361;3371;2007;13235;10897;63839;109837];
[1945;1;1;7;11;17;5;41;197;489;625;1595;2663;5941;14029;30999;16781;116001];
[1948;1;3;3;7;19;19;61;175;125;609;1391;147;3001;4189;10133;24031;46219];
[1962;1;1;3;13;13;57;117;181;299;939;583;3151;829;6561;30449;12211;107879];
[1975;1;1;5;11;23;45;87;115;259;613;1001;171;57;13789;22173;56837;26263];
[1976;1;1;3;3;7;43;45;131;87;251;1411;2737;2739;4595;12561;12043;82885];
[1987;1;3;3;7;19;39;87;223;461;37;283;3937;6193;10887;11509;41131;38359];
[1993;1;3;1;11;11;37;25;133;105;1013;925;3301;239;16295;4831;8649;125767];
[2004;1;3;3;11;25;11;41;155;1;717;1587;635;279;1803;14817;28669;88835];
[2020;1;3;3;11;29;17;39;51;13;871;1197;2561;6671;8465;22709;15933;15923];
[2029;1;3;7;1;13;17;57;43;267;261;901;241;3767;15053;11017;36321;72497];
[2030;1;3;1;15;23;13;17;63;171;919;1387;2673;7605;8523;14807;21187;56057];
[2038;1;3;7;15;23;41;85;95;53;629;1877;3167;2411;9619;24621;31213;30069];
[2041;1;1;5;3;3;25;99;39;321;549;599;1279;2401;2335;8227;59429;94549];
[2048;1;3;3;11;9;21;29;55;477;19;1275;29;2253;11421;30401;57059;93219];
[2054;1;1;7;1;27;13;117;249;463;769;281;515;7467;11507;1621;39765;31109];
[2057;1;3;5;7;19;7;77;107;23;895;1013;2701;3805;7327;27247;6119;102395];
[2058;1;1;3;13;21;49;99;15;163;641;1703;3061;163;4265;32571;13957;75005];
[2068;1;1;5;11;27;17;87;169;427;959;361;1023;5727;16279;1099;39081;67215];
[2072;1;3;3;9;23;13;1;91;173;325;1881;1385;8023;935;9221;19673;36949];
[2075;1;3;1;7;7;25;119;189;107;249;811;973;6499;101;11281;55227;32361];
[2077;1;1;5;13;19;37;117;95;463;587;1419;445;4019;7257;29757;50773;52247];
[2082;1;1;1;1;17;57;81;57;43;789;1035;625;1707;9683;3681;12411;110623];
[2084;1;1;7;5;7;57;49;91;459;513;1869;3377;139;10037;24091;54247;41279];
[2087;1;3;3;9;9;33;29;51;355;415;1907;809;6543;349;18507;12919;41667];
[2101;1;1;5;11;3;17;73;201;121;909;1623;799;3271;9051;5717;15169;127861];
[2111;1;1;7;7;23;31;1;155;475;87;2001;2459;1285;5931;6803;56757;71671];
[2113;1;1;5;13;5;1;21;109;263;841;723;1539;7529;433;23721;33195;57001];
[2119;1;3;3;13;29;55;105;231;405;265;671;351;4693;9033;21963;52073;125131];
[2147;1;3;1;13;25;51;55;227;245;983;251;2553;2017;1381;31461;3953;75775];
[2154;1;1;1;11;31;11;91;91;287;749;1019;4055;3237;6965;14765;1663;82987];
[2161;1;1;7;3;11;15;67;161;79;729;1115;3713;2715;9361;9365;26093;63409];
[2164;1;3;1;7;1;51;125;15;457;433;405;2329;157;4817;25867;38177;45319];
[2177;1;3;7;9;25;57;5;233;481;781;1313;3179;7219;8717;14825;16079;127149];
[2178;1;1;7;15;27;51;5;65;77;313;1751;1489;4307;10541;11345;52577;18143];
[2184;1;1;1;15;21;5;113;71;411;327;1681;1023;5661;15815;5387;10351;21121];
[2198;1;1;5;5;29;55;25;255;69;879;501;1915;3731;633;12197;5249;31129];
[2201;1;3;5;7;3;23;107;163;485;853;359;3069;4353;371;6027;53239;105541];
[2213;1;3;5;15;7;41;9;47;33;327;621;147;577;29;14623;3403;9791];
[2217;1;3;3;15;29;47;41;149;477;127;573;877;3101;5963;28457;14231;67425];
[2228;1;1;1;15;31;7;55;191;101;259;1071;219;2233;3583;21969;32745;80529];
[2240;1;3;7;13;17;53;115;69;241;71;1475;191;509;3721;15537;53773;18005];
[2245;1;1;3;9;5;57;13;95;103;871;2043;2239;7833;10727;6513;55273;3781];
[2250;1;1;5;5;9;11;55;151;239;537;135;2779;7393;15393;11097;58593;100745];
[2263;1;1;1;9;15;39;29;105;441;181;1113;2125;8145;11045;6589;33603;83377];
[2267;1;3;1;1;11;63;69;153;225;845;675;407;4691;13383;27359;38881;5509];
[2285;1;3;7;11;23;31;69;3;41;57;683;887;6861;12161;14537;27293;113001];
[2286;1;1;1;11;5;1;101;175;437;3;1477;1005;6607;7429;7213;4025;66479];
[2291;1;1;7;5;19;7;99;131;273;977;1717;3831;175;5673;12577;36787;30945];
[2298;1;3;1;1;15;37;105;195;61;869;255;2625;7401;9361;13217;52811;130811];
[2306;1;3;5;3;29;27;105;23;511;813;1311;2859;1647;1949;1329;27589;125209];
[2325;1;3;3;1;21;11;119;247;123;401;409;1845;2133;10793;221;43217;14069];
[2329;1;1;5;1;29;21;51;73;501;861;725;249;4249;8029;15767;11985;18637];
[2332;1;1;5;11;19;39;97;65;13;283;489;2307;5239;4161;18639;60035;22405];
[2335;1;3;5;1;3;7;109;27;429;663;1569;3001;3453;8627;9719;23941;110451];
[2339;1;3;7;5;17;13;125;209;347;95;1937;1419;5661;7171;20607;9777;68343];
[2346;1;1;1;1;7;41;43;229;57;49;1863;2819;3735;915;1571;11603;116275];
[2351;1;1;7;9;21;27;5;199;181;521;303;1097;5427;8899;30325;55457;16189];
[2353;1;3;3;7;19;41;3;205;279;223;971;633;2617;13191;10193;23375;62563];
[2363;1;3;3;13;23;59;85;25;253;405;65;1625;4401;4679;14381;57833;30001];
[2378;1;3;3;3;13;35;11;157;123;397;119;2513;1919;14583;5469;11463;94711];
[2383;1;1;1;7;17;37;83;211;451;939;449;13;6671;1457;19855;15053;52327];
[2391;1;1;5;3;9;57;39;183;331;451;1391;1865;7801;14293;29069;705;109497];
[2401;1;3;7;7;23;21;85;81;255;9;1685;2879;6327;12675;31657;38877;74131];
[2408;1;1;5;9;25;19;41;195;31;555;927;1445;593;11067;10819;17205;82037];
[2414;1;3;1;13;1;35;29;71;323;705;53;3885;6223;1319;30853;59935;35949];
[2419;1;1;7;3;27;63;67;31;149;61;1611;77;4271;3161;12493;38341;53837];
[2428;1;1;1;15;27;53;31;249;429;925;1485;1855;4421;5703;10097;14827;36685];
[2441;1;3;7;13;7;63;53;9;317;485;1679;3631;3745;5643;21615;45129;48027];
[2444;1;1;1;1;17;43;19;163;441;847;937;959;6649;13071;1065;55193;129509];
[2461;1;1;1;11;29;47;9;215;397;637;961;3139;2007;12603;27657;22825;72873];
[2480;1;3;3;15;7;45;55;163;259;899;951;3245;4191;15813;20195;8361;54025];
[2483;1;1;5;11;3;17;13;223;289;255;875;2937;1593;9729;21569;63199;83875];
[2486;1;1;1;15;19;31;17;129;267;9;2015;3233;6799;12891;18473;37865;19547];
[2489;1;1;5;5;5;29;81;37;357;539;1525;2839;8041;5569;4423;8907;35461];
[2490;1;1;5;5;29;11;85;61;333;521;1111;3627;325;9805;17889;25655;39537];
[2518;1;3;5;11;11;53;81;25;79;253;1963;287;7487;15045;21431;35417;102391];
[2527;1;1;1;5;11;33;45;45;425;773;1817;4077;1471;11655;683;7115;92651];
[2540;1;1;3;3;21;13;101;215;311;853;41;1007;5511;2581;25565;13155;117225];
[2558;1;1;3;11;19;9;125;59;273;691;499;1547;567;10259;21963;48725;3601];
[2567;1;1;3;7;27;31;39;125;317;625;1329;3947;3943;6889;2811;34055;1449];
[2571;1;1;1;3;29;45;73;239;319;611;647;1839;5277;7807;3107;14683;20203];
[2574;1;3;3;3;5;5;107;139;103;809;1343;4041;3273;1789;16205;47873;27803];
[2579;1;3;1;9;21;23;13;131;105;741;1773;981;5633;14609;12281;50343;14317];
[2585;1;1;1;5;11;5;125;171;109;555;159;905;691;12401;22817;41411;70113];
[2615;1;3;3;9;31;37;109;231;59;615;799;319;2459;4521;8525;4827;22969];
[2639;1;3;1;5;11;7;49;237;345;473;981;2073;6525;8805;13403;3659;69897];
[2641;1;3;1;5;9;37;13;203;141;573;745;2613;5589;607;24483;38427;95775];
[2644;1;1;3;1;23;61;75;57;299;191;805;2993;5175;12037;13649;58831;48791];
[2663;1;3;7;13;31;57;13;219;185;717;1607;3785;4719;11583;29285;48207;92021];
[2667;1;3;7;15;23;35;23;69;411;773;1549;1087;1685;15703;27193;62675;43505];
[2669;1;1;5;3;25;19;97;75;493;549;1655;2881;4989;2765;4797;43143;113955];
[2672;1;1;5;7;21;5;65;37;383;133;1907;3747;1525;5803;19977;50551;23157];
[2687;1;1;1;11;15;61;59;109;489;901;1787;1611;6101;10653;3071;35643;56227];
[2700;1;3;1;5;15;25;121;111;25;251;1467;1795;1631;13753;32391;14831;90739];
[2705;1;1;1;13;23;55;119;147;45;871;1389;1929;1023;16131;10041;40055;23337];
[2724;1;3;1;15;27;33;23;41;463;603;1633;3445;2007;5999;11175;18343;13159];
[2728;1;3;1;9;17;15;107;63;493;411;293;3669;6143;3057;8253;25491;58907];
[2733;1;3;5;11;1;43;5;117;127;813;1881;3711;2567;7819;5809;64471;104221];
[2741;1;3;5;9;25;27;49;93;77;705;1773;1745;4605;16137;14621;62893;81637];
[2748;1;3;1;15;9;29;41;101;291;763;1475;3185;3661;10351;26645;50375;59373];
[2751;1;1;5;15;9;31;107;159;125;471;1023;2361;4805;8073;21563;14903;77801];
[2756;1;3;7;1;27;17;75;129;71;697;551;1969;6597;13821;2605;61783;74791];
[2771;1;1;7;15;17;27;49;47;59;47;1671;2535;1299;2387;24349;23661;91123];
[2774;1;1;5;15;21;61;45;37;415;189;143;351;1815;3479;2399;56753;123893];
[2793;1;1;3;7;7;19;93;249;335;305;1437;1329;2693;13201;9589;61513;115995];
[2796;1;1;1;11;21;57;33;205;235;253;751;259;6029;9811;10231;36899;78035];
[2804;1;1;1;11;13;25;115;195;111;913;1851;3283;6083;11717;2773;40727;493];
[2814;1;3;3;9;9;17;83;137;465;671;1277;325;2767;12413;21977;47525;23041];
[2822;1;1;1;11;15;47;65;219;271;197;297;3195;1325;9991;26385;46055;43151];
[2845;1;1;1;13;31;21;39;89;127;629;367;2935;6259;6627;15691;55781;97251];
[2846;1;1;7;13;11;45;65;75;211;785;1221;2087;7751;15619;25489;28195;69007];
[2850;1;3;5;15;27;37;75;111;487;219;233;583;6433;15105;355;28331;21105];
[2855;1;3;3;15;31;53;33;95;27;197;1727;1467;7115;15479;26873;31075;12793];
[2856;1;3;7;1;19;3;19;105;225;599;737;107;7951;10193;31699;59207;85619];
[2867;1;3;1;3;7;17;73;191;247;421;537;1473;189;4219;29993;25491;21189];
[2891;1;3;7;7;13;21;33;95;147;699;943;2275;4093;6067;9063;25503;111085];
[2894;1;1;7;9;13;47;123;121;347;467;225;957;2329;14075;29843;61753;97179];
[2902;1;3;3;7;17;55;37;167;215;819;163;1747;4485;15991;28011;36351;106495];
[2908;1;1;3;9;25;5;83;199;209;395;1757;1967;5739;2573;13989;32145;4847];
[2951;1;3;3;13;11;21;25;223;239;569;1877;299;8089;3697;801;64775;26827];
[2970;1;3;5;7;17;9;127;9;65;919;1073;2661;1337;10065;30099;30929;90067];
[2972;1;3;1;13;25;41;35;251;279;351;111;3917;2815;7989;9895;54859;126355];
[2975;1;1;3;7;17;61;13;73;335;831;703;37;2765;13169;12513;56301;13907];
[2976;1;1;5;13;11;15;33;45;505;127;1723;17;4927;11453;28859;9671;80041];
[2981;1;3;1;5;9;1;25;147;281;601;243;2687;5533;6725;11075;34807;24619];
[2986;1;1;3;1;7;21;71;31;485;561;1361;1237;8171;15885;7941;4583;32851];
[2999;1;3;7;1;5;35;95;155;283;959;577;1343;4269;13481;30819;40273;8711];
[3000;1;3;7;3;1;53;77;45;215;537;1045;77;2791;3553;13273;23819;62263];
[3006;1;3;1;15;29;59;7;145;85;3;251;2691;7547;11241;32295;24645;75739];
[3014;1;1;5;9;19;9;39;163;303;233;2039;2027;7169;2773;28649;38317;66761];
[3028;1;3;7;5;21;27;93;227;131;1019;1619;1497;4043;1131;25761;20173;99957];
[3031;1;3;7;5;19;33;15;173;435;399;531;2001;3221;12627;10153;24421;61805];
[3035;1;3;1;9;11;3;69;105;289;183;1103;831;2297;1613;18801;54395;54243];
[3037;1;3;3;9;3;53;113;183;79;355;1629;1061;3713;4563;14365;43529;56073];
[3053;1;3;7;11;31;39;107;139;187;873;225;33;4943;15837;225;6407;85967];
[3059;1;3;1;11;17;47;93;233;119;699;1429;2845;2061;8887;20665;45497;33107];
[3065;1;3;5;1;25;11;55;75;91;1009;1887;3167;515;15929;11659;57953;63401];
[3080;1;1;3;15;27;59;103;53;353;553;2021;1543;2785;9373;14609;21213;19911];
[3091;1;3;7;9;3;1;101;133;437;773;1399;1067;7419;1793;16589;3483;42065];
[3094;1;3;7;1;25;57;127;113;65;577;1865;1527;6485;11273;15803;39625;75219];
[3109;1;3;5;9;7;63;29;89;155;45;1029;2407;6783;4749;4849;26639;54059];
[3110;1;3;7;9;25;13;113;41;267;767;1071;1689;269;14437;21255;39473;65771];
[3113;1;3;1;15;5;3;77;43;391;763;59;1027;6263;3715;31061;43311;130725];
[3116;1;3;7;7;21;51;127;71;229;171;397;1099;871;2717;1643;17363;125979];
[3136;1;1;5;15;25;11;11;113;203;795;1703;3901;1113;12819;25345;46691;112313];
[3139;1;3;7;5;1;59;91;81;325;483;595;1491;7455;6699;199;35597;59851];
[3141;1;3;5;1;3;33;43;195;201;575;1395;1305;7001;2023;22419;15233;120355];
[3154;1;1;3;3;15;37;81;59;87;675;199;3231;4473;5023;16753;51475;102113];
[3160;1;1;7;9;13;39;65;9;51;565;1171;119;7875;12149;6565;56849;123235];
[3169;1;3;3;7;15;45;53;93;111;533;1849;643;2265;10241;24741;11559;74333];
[3182;1;3;1;1;11;61;75;51;5;199;535;279;5821;6005;2907;32521;74121];
[3187;1;1;3;15;3;21;29;193;71;993;1719;1865;6135;7683;12171;29275;14539];
[3189;1;1;1;7;7;13;1;61;315;431;1145;2067;5745;1641;1047;55111;129477];
[3190;1;1;5;1;21;43;115;193;153;573;1181;3947;7809;11317;30649;56891;47741];
[3203;1;1;5;7;19;15;61;239;109;683;395;2869;3103;1531;12019;45159;37525];
[3217;1;1;5;7;29;55;45;7;353;659;591;3371;5777;8475;2743;47483;11983];
[3229;1;3;1;3;13;17;39;195;43;5;1749;2559;5843;8719;21421;58511;105637];
[3236;1;3;5;5;5;21;29;63;387;301;567;3325;2109;403;23053;24851;14493];
[3248;1;1;3;3;17;57;107;131;85;855;1101;3199;7159;14739;4197;27943;113009];
[3257;1;1;3;11;1;61;31;79;33;123;1509;507;6679;2279;8465;37279;17553];
[3278;1;3;1;15;7;33;11;71;217;609;1661;3437;5497;13365;6247;649;26407];
[3283;1;1;3;1;19;45;49;125;5;455;1669;4083;253;10101;27327;16401;120399];
[3289;1;3;1;1;27;19;117;137;261;341;1697;457;7553;12169;30049;49281;36937];
[3292;1;1;1;3;9;49;33;13;461;545;1537;2623;883;10921;5583;58997;114183];
[3302;1;1;7;9;29;53;29;165;205;989;1347;2343;7505;7609;18503;51677;105993];
[3316;1;1;1;13;1;29;59;121;297;659;1965;1765;5255;10971;32613;18763;41983];
[3328;1;3;7;11;21;41;19;47;125;485;475;2745;4075;8101;31227;4679;115473];
[3333;1;3;3;7;21;23;55;65;223;1001;317;1459;183;5139;26553;41471;116373];
[3337;1;1;7;3;1;9;29;139;343;913;1993;3139;3791;5869;6057;23863;35737];
[3340;1;3;3;3;7;21;77;197;239;467;35;591;1061;3417;31811;38825;124981];
[3368;1;3;3;1;21;29;5;213;417;111;1681;1409;2899;16233;1053;51235;87767];
[3371;1;1;5;3;13;47;61;203;223;73;1947;3613;5885;13567;7593;34329;68597];
[3376;1;3;1;1;17;9;11;187;361;973;781;1835;1539;12917;21725;48279;115037];
[3385;1;3;1;1;9;25;117;157;433;395;403;2183;3327;5427;7505;2673;77137];
[3386;1;1;7;15;31;15;27;155;441;837;1877;3829;5139;16331;31183;15803;95699];
[3393;1;1;7;15;5;51;77;179;289;727;1763;2529;6715;3967;29267;27293;67953];
[3399;1;3;7;13;7;3;3;17;311;547;1465;1413;3937;2725;24523;12321;109763];
[3405;1;3;5;15;9;5;87;135;281;97;2021;1903;8007;10321;27989;18993;110407];
[3414;1;1;1;13;25;61;89;107;233;823;1375;3531;1757;1577;29457;1461;17217];
[3433;1;1;1;13;17;17;27;193;485;759;145;3943;4183;14119;11217;3793;1935];
[3436;1;1;1;3;13;31;101;227;311;363;1925;1525;5275;2385;15093;48769;121189];
[3448;1;1;5;13;11;61;89;141;117;229;417;3935;7249;13869;30591;62763;67521];
[3467;1;1;3;15;7;59;105;239;453;221;1101;395;2031;8941;23155;7077;125593];
[3469;1;1;1;11;7;55;99;31;305;371;1035;577;4473;577;371;46093;69157];
[3472;1;3;1;9;9;33;35;245;95;47;1623;2965;6849;7269;5321;31641;73321];
[3477;1;1;1;15;21;61;65;65;159;151;625;2281;2993;1311;29757;24703;71029];
[3484;1;3;5;15;29;59;29;69;351;901;631;3501;7031;703;20805;36437;94931];
[3494;1;3;7;1;21;11;19;125;237;807;1651;2389;7347;11759;27151;38669;965];
[3505;1;1;5;1;15;41;1;105;89;127;895;29;2339;15951;18633;2781;67269];
[3515;1;1;5;15;25;7;3;33;375;447;203;2579;6145;14015;9939;52777;123181];
[3523;1;3;1;15;29;7;7;27;451;869;107;2457;5557;11601;28957;36181;41419];
[3530;1;1;1;7;1;57;33;213;329;763;815;169;623;155;20529;20603;73311];
[3543;1;3;5;7;25;21;7;217;159;89;1373;1735;705;4093;13083;3855;55875];
[3559;1;3;1;1;29;33;105;127;95;543;235;67;691;5015;22139;18251;89945];
[3568;1;1;3;11;27;53;105;83;337;331;1571;1145;745;1845;17881;17697;88139];
[3577;1;3;7;15;19;37;119;35;35;463;1925;1665;673;12193;12137;62371;10957];
[3578;1;3;3;3;19;21;113;29;459;467;623;2661;857;16265;27509;46555;18867];
[3594;1;3;7;5;17;49;123;41;85;673;41;1871;7649;8687;28269;64423;93675];
[3601;1;3;3;3;7;23;101;171;181;527;65;2387;6629;6089;17387;46551;36143];
[3607;1;1;5;1;13;51;21;251;139;429;1993;3767;1089;5459;19407;41747;41033];
[3608;1;1;1;11;15;9;81;91;73;969;1513;2067;7959;2605;26641;37631;124571];
[3620;1;1;3;15;29;15;5;57;247;901;527;3325;5859;11299;9871;63947;125247];
[3629;1;3;1;5;1;35;75;21;307;43;1111;3299;1647;3585;31045;18217;95169];
[3644;1;3;1;7;23;35;11;103;3;461;1915;4019;453;13111;26941;43091;22917];
[3656;1;1;5;5;1;61;121;167;475;5;1749;887;2237;5055;7077;29453;17691];
[3664;1;3;3;15;15;15;9;15;171;787;1965;577;4507;7325;20901;8557;111909];
[3670;1;3;5;1;27;15;123;141;63;55;599;4095;1245;13919;27485;49977;74551];
[3680;1;3;5;9;21;61;79;119;7;573;1923;2775;3127;12689;12135;53429;130163];
[3685;1;3;3;13;27;41;67;249;447;277;311;775;8187;10161;12953;22885;121247];
[3686;1;3;5;9;21;55;115;65;45;395;481;2063;6493;4199;19219;27119;62255];
[3695;1;1;3;13;7;41;3;127;383;923;1725;1033;7731;11971;3089;46459;98369];
[3698;1;1;3;11;13;39;39;149;309;311;1491;807;2109;363;14637;65429;124731];
[3703;1;1;7;13;13;35;67;81;493;859;1177;237;4605;15319;16669;16661;21385];
[3710;1;1;3;7;7;39;57;103;239;753;221;1611;1557;13317;27453;10245;33839];
[3714;1;1;5;13;27;53;97;41;123;253;535;1839;5827;7587;1261;20313;65961];
[3726;1;1;7;1;11;47;93;135;223;591;1087;3329;3293;14207;6187;54789;23781];
[3731;1;3;7;7;25;21;97;105;269;515;1805;3711;3295;7307;21065;65205;116969];
[3733;1;3;1;11;25;37;21;89;109;581;1055;2393;1291;1115;25545;36383;93605];
[3737;1;3;7;1;27;13;113;11;395;473;943;4045;5507;15051;25203;2971;31961];
[3756;1;1;5;5;27;35;57;219;67;949;659;203;5235;6509;13731;61533;54963];
[3759;1;3;1;1;15;39;85;13;347;99;25;3595;3081;13617;14373;58909;102181];
[3767;1;1;7;13;3;25;97;91;287;389;665;2981;2301;12625;4495;57489;68677];
[3776;1;1;5;1;15;57;77;55;299;713;1457;3699;2807;5549;467;47367;8163];
[3785;1;1;7;3;23;45;91;251;501;193;1121;2359;4781;12797;13713;55171;927];
[3793;1;3;3;7;7;31;87;163;249;163;937;1293;4827;10299;31935;58787;80589];
[3812;1;3;1;9;7;1;73;65;475;791;1429;3319;7149;433;10373;44061;121195];
[3815;1;1;5;9;9;61;27;249;435;437;1329;2163;5859;13663;623;55569;94283];
[3824;1;3;7;11;1;29;117;195;399;999;1705;1325;6043;9823;27335;30377;16627];
[3844;1;1;1;15;5;11;63;185;15;741;1061;2961;3455;5;26587;54081;18107];
[3859;1;1;5;7;29;57;17;203;501;177;49;2773;8069;12513;14437;64489;58661];
[3866;1;3;3;9;11;23;121;3;415;447;1773;135;5901;4951;2683;437;126251];
[3872;1;3;3;1;7;23;17;23;115;591;1075;3133;49;15183;10615;37857;122609];
[3884;1;1;3;3;13;49;63;37;275;763;1135;2913;1563;11037;6693;18799;32089];
[3889;1;3;5;11;7;29;59;45;227;941;1947;2733;797;10485;7071;14741;11451];
[3899;1;1;1;9;21;19;77;97;75;991;187;1003;5619;11013;3931;19907;79723];
[3902;1;1;7;13;1;57;61;177;443;227;1347;2665;2011;12329;14137;37795;63331];
[3909;1;3;3;9;31;59;87;93;485;635;901;1845;6153;10797;1289;8989;41717];
[3913;1;1;1;1;3;7;85;17;67;309;1891;435;303;8011;32127;54309;21457];
[3933;1;3;7;1;29;27;41;239;293;717;1331;917;6145;7131;28199;35093;103683];
[3938;1;3;7;3;21;63;65;233;257;789;1095;505;4557;16259;7397;24815;89529];
[3949;1;3;3;11;29;41;55;17;335;715;779;2121;6393;8887;32753;45647;82665];
[3952;1;1;1;11;27;47;71;13;141;283;967;3359;4309;6661;20481;23175;50835];
[3980;1;3;3;7;3;25;19;241;409;573;1565;3355;1307;12205;18017;8271;117007];
[3991;1;3;3;9;21;39;21;253;439;963;341;3637;2275;1845;11015;481;83369];
[3992;1;3;7;9;31;29;29;163;111;983;571;713;2621;11569;13341;28341;130381];
[4002;1;3;7;7;11;35;89;49;81;115;113;1857;3527;14819;6909;14659;23557];
[4008;1;3;3;15;29;41;85;241;317;737;213;1667;5789;16321;13991;36165;124151];
[4011;1;3;1;3;31;1;75;99;495;241;1499;1535;2033;2135;6699;58893;37031];
[4016;1;1;7;9;25;15;101;23;477;563;1691;2655;2321;2323;4255;22055;99661];
[4034;1;3;7;5;7;7;49;221;51;83;279;2205;2939;2119;14073;32839;108075];
[4036;1;3;5;11;17;39;3;127;87;501;799;401;4439;9895;13017;64975;67177];
[4063;1;3;3;9;17;41;59;95;283;309;83;1293;6385;5783;30115;33997;12531];
[4067;1;3;5;3;7;31;69;171;225;409;1237;3343;835;8039;16723;37203;129047];
[4073;1;3;3;15;17;23;107;1;105;135;1245;993;4101;7325;7425;17379;98121];
[4082;1;1;7;9;27;5;67;111;75;531;243;2239;2527;4513;27059;40533;88169];
[4091;1;3;5;7;21;63;57;15;75;679;1729;1845;6259;8531;18691;49321;101599];
[4093;1;1;5;9;3;35;7;201;351;885;669;2339;5009;279;26469;54597;67933];
[4101;1;3;5;13;27;5;85;161;141;733;1017;2021;6951;15595;21817;17243;88607];
[4113;1;3;5;1;11;31;117;97;175;629;995;1207;2941;5825;5319;48191;9505];
[4120;1;3;3;7;25;39;45;79;21;607;1593;1749;7951;10425;17491;16617;56903];
[4125;1;1;1;5;15;41;107;115;79;693;919;3513;6793;6541;5545;58583;27963];
[4126;1;3;7;11;21;19;123;1;441;531;359;2117;2465;11389;13489;32755;4577];
[4139;1;1;5;13;7;7;7;127;201;377;1423;269;2611;3339;19153;25659;33069];
[4142;1;3;7;1;13;35;45;5;313;739;1779;2983;1815;8817;14239;3921;57975];
[4144;1;3;1;11;9;39;33;111;39;255;159;2345;2193;11475;12841;47579;90309];
[4147;1;1;1;3;27;49;85;157;243;247;1473;323;4631;1787;15193;5533;104999];
[4153;1;1;7;9;11;29;23;219;57;339;1797;409;6025;10569;27409;15147;130281];
[4154;1;1;7;1;31;31;113;229;63;877;319;2655;3335;7743;19593;10089;28215];
[4164;1;1;3;11;23;3;71;235;329;751;159;2579;5363;12681;20233;53855;16407];
[4174;1;1;5;1;7;61;21;235;379;849;61;2969;6399;2655;21635;16955;58675];
[4182;1;3;7;7;29;15;5;11;143;699;1875;2115;6633;6195;5829;53633;111221];
[4185;1;3;7;11;19;41;17;219;483;829;1233;3183;6283;2363;25245;63075;82733];
[4188;1;3;7;13;21;17;1;207;443;575;521;2585;6875;14871;14739;10211;127435];
[4191;1;3;7;7;15;39;99;197;219;259;1723;3737;6625;849;887;41293;53825];
[4195;1;3;3;3;5;3;75;155;189;935;85;2273;1375;4217;10709;58047;81689];
[4219;1;3;5;5;27;27;107;229;179;887;91;421;7313;6495;451;43859;40033];
[4225;1;3;5;11;25;49;121;73;169;311;1387;1037;6519;9317;26975;50627;46805];
[4228;1;1;5;11;17;21;19;125;387;697;1017;1759;7295;9869;28241;9367;119255];
[4232;1;1;7;5;29;27;87;187;95;625;933;1751;5253;313;30841;16349;67347];
[4246;1;1;3;3;15;51;23;101;183;267;243;711;983;12461;17801;1429;47273];
[4255;1;1;1;3;17;3;73;67;49;449;879;2559;401;11983;13697;12023;78855];
[4274;1;3;7;15;25;25;43;81;141;161;595;621;1165;10869;22875;6741;90017];
[4283;1;3;5;11;13;57;53;219;145;937;769;1961;4725;3335;12623;8335;46305];
[4286;1;1;3;5;7;39;19;101;313;583;483;2515;125;5211;2559;11937;126717];
[4306;1;3;1;7;7;1;117;49;231;133;381;697;927;8263;26529;64881;25059];
[4311;1;1;1;15;11;25;77;149;233;215;1239;3045;99;11183;30279;32271;100943];
[4317;1;1;5;7;31;25;1;51;221;607;1733;2145;6765;7011;16927;29257;2445];
[4321;1;3;5;1;19;23;123;93;381;295;765;2335;8025;14003;4801;54243;57297];
[4324;1;1;7;9;9;31;63;191;495;527;251;2119;1663;209;7445;1441;4075];
[4331;1;3;5;5;13;17;97;79;369;55;677;2031;7315;4769;31659;21975;22061];
[4333;1;3;3;7;3;63;121;243;39;917;1917;297;7241;1565;31675;14443;67239];
[4359;1;3;7;1;13;25;51;65;145;475;1853;4023;5121;14411;15993;42165;13615];
[4360;1;3;3;1;3;51;75;29;169;311;1309;2929;7669;1507;14605;32667;103861];
[4368;1;3;7;1;23;37;89;211;137;495;1469;3425;1167;12429;27301;46857;83007];
[4373;1;3;7;7;27;37;33;129;73;23;761;119;6217;4749;20835;47477;33665];
[4389;1;1;3;5;29;35;79;21;183;933;43;3149;5273;12159;20695;5387;23569];
[4394;1;1;5;5;3;11;57;205;349;657;1509;3693;5495;11865;13861;62215;94141];
[4413;1;3;1;7;17;43;117;119;75;849;1247;643;2691;2289;9759;18683;68649];
[4422;1;1;1;15;5;55;89;177;427;701;735;2993;5293;15395;567;5501;102393];
[4431;1;3;3;15;5;37;73;111;9;141;407;1579;6691;11843;6377;64181;97347];
[4436;1;1;5;1;9;17;71;127;285;929;1243;2605;359;14589;32603;39879;115901];
[4440;1;3;7;15;3;27;91;121;47;631;1589;385;5997;14077;21285;33895;36985];
[4445;1;3;3;9;1;47;89;79;213;27;547;1703;4035;13205;4341;21895;34247];
[4452;1;3;5;7;9;9;47;89;231;857;297;2949;2715;1275;14427;20227;21569];
[4462;1;3;1;3;15;57;61;183;377;477;1135;1729;2863;8607;29241;34983;84443];
[4469;1;1;7;7;5;53;91;149;71;41;1025;3945;3989;15853;20903;26943;99841];
[4470;1;3;3;3;29;21;59;217;483;257;331;657;2935;945;9821;42501;98087];
[4473;1;3;5;3;17;39;123;103;109;957;853;3821;555;10869;27673;38315;83105];
[4479;1;3;1;3;27;7;97;57;429;53;1791;1405;4113;8435;12845;21567;91559];
[4480;1;3;3;1;17;61;125;77;225;395;945;3213;1363;15947;27049;4389;64037];
[4483;1;1;1;3;15;51;15;189;449;989;939;985;6929;13779;25011;22277;72543];
[4489;1;3;3;1;25;53;5;219;195;703;163;1405;821;6797;14329;1675;96653];
[4503;1;1;7;13;7;1;45;135;369;125;711;2509;131;13663;29769;19497;116779];
[4519;1;1;7;15;23;25;7;225;435;835;1981;2537;5727;15961;30089;58905;100339];
[4520;1;3;7;3;19;9;79;63;371;419;1357;3649;7987;14541;6631;50555;84217];
[4525;1;3;3;9;7;61;11;157;99;95;945;2803;1703;117;12891;21817;84259];
[4526;1;3;7;7;25;37;111;99;65;599;1313;2557;5489;3625;7429;19309;78111];
[4533;1;3;1;1;19;15;85;253;347;315;1349;983;2507;4155;15311;43535;101409];
[4552;1;3;3;3;1;55;3;57;375;107;177;1673;6871;7137;10297;65363;42293];
[4581;1;1;1;3;9;5;83;45;139;893;63;2859;6333;15591;18491;26387;25573];
[4585;1;1;7;15;1;39;113;127;503;617;1367;1855;185;4233;5787;8265;42097];
[4591;1;1;3;11;11;41;119;165;331;625;81;2495;7247;9139;15269;31447;128425];
[4594;1;1;5;5;17;35;39;1;91;563;1841;2975;1233;3837;22145;36719;104503];
[4596;1;1;7;3;23;35;77;69;271;487;921;2597;8011;13037;6001;20519;32673];
[4599;1;1;1;1;29;17;11;145;473;877;813;727;6805;3563;13371;22169;17239];
[4612;1;1;1;13;17;13;1;125;313;423;1079;2401;2325;2219;24071;25613;34163];
[4621;1;1;5;7;29;33;53;215;11;555;555;1965;3643;5433;12923;59655;25339];
[4630;1;3;3;3;23;37;119;117;459;359;1849;1019;433;15391;5625;52649;81313];
[4636;1;3;3;1;21;31;121;161;113;667;863;105;3805;14459;28235;24543;89755];
[4640;1;1;5;15;17;37;15;111;511;477;611;955;2591;16137;14179;30995;129575];
[4649;1;3;3;3;21;49;25;37;287;263;851;1015;8133;9429;10959;64483;82533];
[4650;1;1;5;1;25;19;49;159;155;443;975;1413;321;7871;22935;57303;124027];
[4660;1;3;1;1;19;45;47;89;409;509;1249;2445;2053;3781;7517;61869;125137];
[4677;1;1;5;13;27;57;45;43;361;329;1321;771;4665;12245;18993;15121;127485];
[4687;1;3;3;7;3;41;127;75;485;821;497;2649;6423;12419;31421;9441;63645];
[4696;1;1;3;5;19;61;91;35;311;287;449;3955;5805;5631;25613;55409;104545];
[4701;1;3;7;11;27;19;27;53;19;35;1687;3923;3379;10435;15053;12343;89077];
[4705;1;3;5;13;31;41;15;239;349;533;1771;737;6503;14355;18781;27805;79049];
[4706;1;3;1;3;13;11;69;227;169;873;533;2217;1047;12415;12271;22447;14163];
[4711;1;1;3;9;7;31;23;155;133;305;1569;521;201;10339;16999;29163;32817];
[4720;1;1;1;5;31;57;43;223;121;803;357;1855;4321;10245;25725;2543;47395];
[4723;1;3;5;9;3;5;47;189;217;899;1455;691;1277;7861;3627;14895;41109];
[4732;1;3;7;3;29;9;37;63;453;709;921;771;8069;239;22639;59937;10635];
[4736;1;3;7;1;11;51;79;131;225;757;549;1605;3921;1849;16307;29809;120597];
[4742;1;3;7;7;1;45;33;185;23;881;1941;4093;4741;11633;2059;32007;11103];
[4748;1;3;5;11;17;21;43;205;363;559;697;4057;631;6697;883;61705;102791];
[4754;1;1;7;9;29;35;109;85;373;321;415;2969;6163;6999;9999;36435;125267];
[4759;1;1;7;11;25;9;113;91;337;889;947;2093;5289;1367;13297;36155;21825];
[4769;1;1;3;9;17;25;35;79;275;687;335;1181;7327;3729;1561;27441;114355];
[4787;1;3;3;11;25;41;27;89;115;361;871;1497;5735;6365;1737;14277;63847];
[4807;1;3;7;7;1;63;31;73;289;67;277;1821;4883;10795;11755;15471;105871];
[4814;1;3;7;9;23;17;37;179;409;957;373;2393;2363;6735;28737;41927;115735];
[4837;1;1;3;9;15;43;111;61;455;181;1643;3063;4311;13705;29993;21731;25243];
[4867;1;1;1;15;13;13;69;187;91;395;209;3477;4649;7727;30557;14719;1953];
[4873;1;1;1;15;9;39;119;193;459;135;567;25;4583;8401;22161;14771;74165];
[4879;1;1;3;7;5;39;77;149;293;585;1245;3615;357;11613;13865;40227;41023];
[4884;1;1;7;9;9;37;5;177;121;181;771;733;7683;4855;13629;8349;46137];
[4898;1;1;3;13;3;37;73;69;281;109;563;1427;5127;8957;16749;41489;49531];
[4907;1;1;7;11;29;63;79;127;95;809;1175;1567;6353;7505;26551;5073;53733];
[4910;1;1;1;5;25;41;59;103;59;365;1111;3909;3749;14889;3639;10435;45407];
[4918;1;1;1;5;3;61;93;199;97;779;67;241;6197;6785;16869;7573;46745];
[4924;1;1;5;9;27;29;21;69;165;661;1245;1265;2979;9685;17781;23329;48029];
[4953;1;1;1;7;7;23;39;197;169;561;499;2197;4371;157;6837;44635;94861];
[4956;1;1;5;13;7;5;9;207;321;243;899;2967;3553;15413;8961;55039;6459];
[4965;1;3;5;3;13;25;33;145;45;979;33;2211;7003;11147;11327;55151;30697];
[4966;1;1;3;13;7;51;25;229;231;115;1815;3867;1533;15259;8067;64803;87535];
[4970;1;1;3;3;21;51;101;49;227;393;1659;955;545;7395;31563;5499;130541];
[4972;1;3;1;1;21;41;57;161;269;35;893;1817;857;7027;973;12529;46659];
[4983;1;1;3;7;17;35;23;29;335;725;453;1051;6019;7595;29451;1853;116615];
[4989;1;3;3;1;3;55;73;187;213;329;997;703;5829;7903;1081;33359;119123];
[4994;1;3;3;15;29;55;15;17;245;117;1735;767;4457;8803;17621;26925;72487];
[5000;1;3;5;3;25;7;119;139;159;199;317;3875;8115;7581;29239;50225;48459];
[5005;1;3;7;11;11;41;107;225;395;545;259;2379;6709;11669;14545;43663;69979];
[5014;1;3;5;13;23;45;73;137;447;305;117;2659;7989;233;31991;60495;571];
[5018;1;3;7;9;1;37;31;1;433;701;159;3811;4529;6697;7121;31107;61555];
[5023;1;3;5;5;13;21;81;63;95;741;1189;1567;1223;12371;28435;10537;53785];
[5039;1;1;1;11;17;31;67;121;281;593;561;1759;387;9639;28595;22473;4935];
[5053;1;3;7;3;5;43;59;151;351;263;297;423;1681;3785;15171;7145;57531];
[5054;1;3;7;15;9;35;105;189;261;175;1669;1289;5401;12801;19585;48169;93195];
[5061;1;1;7;1;31;41;23;237;151;549;1079;2933;5509;15593;1791;15757;44607];
[5065;1;1;1;3;29;1;59;115;13;999;1179;3561;2749;10059;12861;6797;11793];
[5080;1;3;3;7;11;5;23;217;101;775;1497;4047;2427;5117;9683;28895;27557];
[5083;1;3;7;5;31;55;99;65;55;587;1271;2277;7947;12995;13149;4463;37625];
[5107;1;1;7;11;3;63;23;191;125;365;1153;2657;6763;4557;21643;26885;36753];
[5119;1;1;1;15;25;15;111;135;507;745;1947;2545;4329;14325;8187;52021;63401];
[5146;1;1;3;3;27;25;19;211;393;467;1015;2495;7135;495;10385;26961;49325];
[5151;1;1;3;5;15;35;3;203;337;337;703;1989;6869;6055;21095;4749;125669];
[5152;1;1;5;1;31;39;57;101;419;717;1489;199;5729;3003;2607;64593;11515];
[5155;1;3;7;13;15;3;33;61;17;433;1097;957;5351;3043;3679;44881;126909];
[5169;1;1;3;11;5;1;121;175;119;367;399;2527;2157;2667;31069;24797;119621];
[5170;1;3;1;7;27;47;115;229;455;775;73;837;1181;3457;4057;33907;67151];
[5176;1;3;3;1;7;51;71;177;463;921;393;3137;1225;5709;303;20597;77581];
[5179;1;3;5;3;31;1;93;53;177;433;1471;2191;4471;9211;19397;57727;60367];
[5182;1;1;3;11;29;55;121;89;67;869;1631;2657;7357;7159;22449;16357;20077];
[5189;1;3;7;15;11;39;127;63;211;359;971;1221;1909;9963;7827;60923;98495];
[5193;1;1;7;9;23;47;47;85;307;471;1287;3825;5451;15151;15647;63043;92443];
[5196;1;3;7;5;19;11;11;27;307;695;99;1037;1997;13673;591;8183;82197];
[5204;1;3;5;5;3;53;109;227;503;855;1269;3903;5049;10647;21751;58707;78311];
[5207;1;1;3;11;31;3;51;211;285;919;487;3393;3463;2271;8053;56791;33763];
[5211;1;3;3;5;21;15;5;5;327;809;915;1365;7323;4247;31603;26261;80389];
[5220;1;3;7;7;15;33;31;221;291;815;1307;929;3249;14573;13613;59509;59741];
[5258;1;3;7;15;19;41;61;27;353;965;1901;87;2669;12757;29723;47165;16521];
[5265;1;3;5;3;11;43;97;215;361;901;1425;4063;5327;14119;457;43145;107401];
[5271;1;1;3;15;19;37;101;69;131;927;897;477;7641;4299;21213;26017;123801];
[5277;1;3;7;7;19;5;11;51;277;985;1071;3437;6595;9547;11855;64249;30957];
[5278;1;1;7;9;21;41;89;113;61;235;685;1419;7619;9863;21221;28685;53409];
[5282;1;1;1;1;27;1;19;3;473;827;269;1659;2621;12347;13359;64687;99293];
[5296;1;3;7;7;29;37;61;49;215;883;625;2671;3743;4517;2075;64865;58611];
[5299;1;3;3;7;15;11;35;37;255;781;613;3587;7643;13081;32467;14427;15235];
[5319;1;1;1;11;31;47;107;65;489;377;425;3453;2901;9999;7687;13311;103947];
[5328;1;3;3;7;9;17;7;107;33;545;407;3335;7563;14315;32725;8483;69093];
[5343;1;1;1;5;17;9;87;229;417;769;423;569;7073;8705;24487;63743;69807];
[5353;1;3;1;9;1;29;75;25;483;259;1941;1533;8147;14127;24087;37475;130961];
[5364;1;3;3;11;15;15;51;45;215;283;1687;185;4521;12205;13041;33283;77007];
[5368;1;1;3;3;5;47;107;67;325;87;1831;2845;1645;1741;10811;8983;58515];
[5379;1;3;1;13;19;17;1;151;411;915;1739;3781;4939;15767;25897;7205;17285];
[5381;1;3;5;15;19;1;125;33;321;325;639;4013;967;4347;19743;13445;61229];
[5399;1;3;3;13;13;37;71;85;51;775;973;739;4341;15707;12221;24321;48073];
[5415;1;1;7;13;15;13;9;211;331;429;1323;3027;1091;13311;289;57789;93261];
[5422;1;1;1;1;27;7;13;27;67;573;455;2353;113;11831;9069;4503;89291];
[5441;1;1;1;7;21;63;47;39;419;991;1623;11;3153;12633;9425;65087;44935];
[5451;1;3;1;7;23;11;15;11;99;543;1739;3955;5883;12469;7529;14177;1945];
[5456;1;3;1;3;5;17;31;251;387;311;725;3827;6835;5065;3141;43441;87955];
[5462;1;1;1;11;25;7;75;135;67;589;889;3429;155;9081;28653;8059;57251];
[5490;1;3;5;15;21;15;103;149;311;407;1391;717;1765;14887;14381;37483;29587];
[5495;1;3;5;5;19;31;93;5;507;193;1735;3841;7895;9853;10317;14867;49529];
[5501;1;3;7;7;19;3;99;201;479;313;693;3435;5453;1157;23127;49005;20167];
[5502;1;3;7;9;15;21;123;41;19;281;1837;2589;1003;1993;18345;10039;89325];
[5505;1;3;5;1;19;21;77;151;145;951;2017;609;5847;4475;12439;6357;108277];
[5512;1;1;1;9;17;21;91;91;111;951;497;1759;503;12787;25117;24323;96447];
[5523;1;1;3;11;13;9;73;205;329;243;1187;829;2821;5563;14391;771;116441];
[5529;1;1;1;1;11;57;39;221;41;521;1541;3515;2367;4179;21039;52943;11627];
[5548;1;3;3;3;23;13;103;125;67;217;863;3755;213;12657;31399;3771;54107];
[5551;1;3;3;7;3;9;107;217;497;935;519;3041;323;14895;5695;28789;36085];
[5553;1;1;5;11;23;33;81;23;167;3;1683;2279;5365;847;14717;9689;64481];
[5565;1;3;1;7;1;15;107;93;429;363;1745;1459;5879;8351;17527;44001;70293];
[5568;1;3;3;9;27;55;125;211;141;827;1239;663;4803;11067;32039;28091;56421];
[5577;1;3;5;5;7;13;125;231;427;483;967;549;3105;13919;3017;39207;23253];
[5578;1;3;7;3;21;29;79;67;39;451;157;337;3585;3621;9545;31205;63201];
[5583;1;3;1;1;29;25;77;57;167;899;95;2487;3743;5381;3637;56289;39453];
[5585;1;1;1;9;29;19;41;97;75;199;1709;483;4099;3113;10953;20659;109273];
[5588;1;3;5;15;13;9;83;43;111;789;965;4061;1239;14577;10113;26359;52609];
[5613;1;3;5;5;11;39;113;31;457;119;725;831;4143;5675;27431;12431;94977];
[5614;1;1;3;3;25;17;93;253;307;625;143;1061;4415;3563;3313;53527;29537];
[5616;1;3;5;3;29;41;43;109;147;919;1675;465;6101;12251;28915;15397;85233];
[5622;1;1;1;1;31;25;59;187;439;561;559;413;1917;9319;27475;49715;32953];
[5631;1;1;7;13;23;31;95;231;141;207;1373;2173;2905;169;23825;55071;6147];
[5637;1;1;7;13;15;39;43;117;321;297;661;2941;7359;11675;15483;24093;7269];
[5638;1;3;3;13;9;59;51;49;81;563;745;1843;295;4689;19847;42137;63197];
[5668;1;3;1;9;5;33;21;199;509;927;1777;1349;3593;1065;24943;55667;73539];
[5675;1;3;1;11;17;15;91;21;59;587;1207;543;6669;10861;24755;1789;91249];
[5683;1;3;7;15;13;47;57;147;381;1021;921;1347;3847;5969;9075;39081;127241];
[5695;1;3;3;15;19;15;1;97;203;409;1745;1217;2199;7945;24361;41771;123127];
[5703;1;3;3;5;17;17;43;255;179;717;1993;645;6527;1533;32719;27481;122425];
[5710;1;3;5;9;13;59;15;157;373;937;27;3325;2297;89;10861;48615;16083];
[5715;1;3;1;3;19;27;109;243;189;17;99;1879;695;11329;12467;6053;41749];
[5727;1;1;5;5;23;41;103;69;171;917;1303;2101;617;10017;26525;11009;66137];
[5738;1;1;1;9;21;45;47;171;455;257;411;4021;6995;12881;4793;51193;60775];
[5752;1;3;7;5;25;31;89;53;321;593;1795;2435;3833;2767;17241;63373;25457];
[5767;1;3;1;1;3;45;19;255;179;991;1407;3683;1435;6803;12215;12835;2005];
[5773;1;3;7;3;17;5;117;251;71;983;1391;3499;5119;7257;7325;16565;6321];
[5776;1;3;5;7;5;49;47;201;297;485;1879;2205;4903;13619;22537;5479;121625];
[5781;1;1;3;5;27;27;87;61;145;943;343;1639;6307;4549;20765;33479;113697];
[5791;1;1;3;9;17;5;101;129;305;653;1901;3901;6361;2369;7449;55259;75215];
[5792;1;1;7;5;31;45;117;55;335;827;1309;2603;2111;11005;14747;56999;97373];
[5795;1;1;7;11;29;29;81;175;169;453;293;2589;1057;15795;32397;65433;79455];
[5798;1;1;1;5;11;7;13;249;29;407;1289;2385;8113;15327;4029;32005;105901];
[5801;1;1;5;5;7;61;103;141;109;391;631;821;1479;14771;25057;1415;8081];
[5810;1;3;1;1;9;37;17;231;501;745;1695;45;7797;2945;5529;34747;39069];
[5812;1;1;7;9;21;59;103;103;33;875;723;3477;4729;7311;29979;60901;72187];
[5836;1;3;3;3;15;63;93;237;203;635;1189;2035;6499;9943;9133;62977;29657];
[5839;1;1;1;9;3;11;63;207;95;563;775;3009;7125;13141;4489;16343;120951];
[5841;1;1;3;1;21;57;15;217;185;305;463;1597;6529;4989;14011;11265;131031];
[5867;1;3;5;15;17;61;35;127;411;579;1349;615;3293;8475;9773;30635;117639];
[5870;1;1;7;9;11;3;55;105;305;223;1899;2217;1261;9831;23693;3013;30489];
[5877;1;3;7;15;15;29;1;99;67;293;499;1941;5303;1329;24547;14065;7927];
[5881;1;1;5;11;17;55;71;49;499;435;985;2803;6139;1503;24167;47181;102529];
[5899;1;3;5;1;19;53;71;17;63;469;1871;2051;357;11661;5689;36373;13379];
[5914;1;1;5;1;27;47;23;247;59;381;1895;2453;3665;5487;24081;50501;91659];
[5925;1;1;5;7;29;19;3;33;83;301;133;3603;5133;16171;22905;36271;10405];
[5929;1;3;7;9;11;23;57;87;9;731;631;3703;2593;12851;7115;8801;108919];
[5943;1;3;3;3;23;35;33;99;343;837;231;3921;6975;15093;15049;64623;123523];
[5949;1;1;7;11;15;61;113;103;501;57;1345;3155;2965;4433;10605;43765;42169];
[5962;1;1;7;13;7;53;91;121;229;127;103;833;7829;1571;10847;20861;101155];
[5969;1;3;7;1;9;25;71;103;37;473;1133;1129;1651;6965;6937;16597;20439];
[5976;1;1;5;9;1;9;47;131;285;967;1869;1075;8127;135;15575;38569;123729];
[5988;1;1;7;9;5;31;33;227;347;41;2025;3755;857;7805;13121;38307;125825];
[5997;1;3;5;7;11;11;19;55;23;627;1477;3093;2779;7653;7165;23053;76123];
[6006;1;1;3;1;3;47;83;89;177;381;1247;141;7051;6443;27369;34323;43063];
[6010;1;1;7;7;13;15;55;223;351;525;1051;3009;5443;11499;8335;37949;69149];
[6016;1;1;1;3;13;61;89;33;129;921;1905;201;3141;5531;135;34103;56883];
[6022;1;1;5;13;17;27;13;163;169;471;1263;1421;7015;7927;21027;58001;26739];
[6026;1;1;1;15;19;49;109;207;245;49;1271;3635;2561;5091;24415;59195;67701];
[6031;1;3;5;7;27;57;99;155;461;595;1859;1727;857;4993;31733;42141;10035];
[6040;1;1;1;15;11;11;85;9;251;375;155;379;7501;12559;32583;36317;4675];
[6043;1;1;5;13;19;57;81;69;201;293;593;3169;4519;9057;16685;12847;123797];
[6050;1;3;1;5;5;1;19;243;345;661;561;3549;2541;5887;25879;41467;72799];
[6059;1;1;5;13;15;51;67;61;79;89;447;1471;4915;10637;10901;48157;103545];
[6079;1;3;5;13;31;25;73;129;435;659;1851;3595;753;7717;10927;30115;109221];
[6099;1;1;1;3;25;3;121;43;349;205;1209;2671;6445;8755;7171;58631;74319];
[6101;1;1;3;1;11;15;83;37;483;65;759;1835;3883;1693;30051;61077;1187];
[6105;1;3;7;15;29;23;85;77;139;903;1821;943;6453;1523;18539;49039;110787];
[6108;1;1;7;15;15;17;69;253;507;921;523;79;747;4011;25795;42029;88309];
[6124;1;1;7;3;25;47;119;83;313;45;985;145;205;3407;9013;64517;115811];
[6132;1;1;7;1;29;21;9;123;97;545;1987;2979;6901;12667;23325;63635;70593];
[6145;1;3;7;3;23;45;81;255;41;29;1493;4065;3201;10479;17193;39999;55493];
[6146;1;3;1;3;9;43;43;135;235;603;481;3139;2729;14759;7269;7995;110351];
[6151;1;3;1;11;17;35;113;93;417;967;755;659;3115;16163;22997;38205;126961];
[6152;1;1;7;11;29;57;81;235;93;869;475;825;6269;15819;14977;53057;116021];
[6158;1;1;7;13;5;61;5;241;245;673;1651;3367;2355;713;20107;30133;735];
[6160;1;1;5;9;21;3;121;241;129;703;1435;1943;5087;13123;30023;58287;50377];
[6163;1;1;1;15;23;27;67;197;123;629;169;3303;1679;11051;16875;28055;12379];
[6165;1;1;3;3;7;63;97;43;89;739;779;2893;7763;6351;26135;44647;127987];
[6170;1;3;3;9;31;59;95;131;131;321;1125;127;4865;145;26237;47871;114549];
[6182;1;3;3;13;21;3;33;17;445;693;1599;2517;1679;2237;15053;30983;106755];
[6196;1;1;5;13;31;37;49;67;403;27;575;1795;3385;1067;585;60277;123189];
[6199;1;3;1;15;13;35;23;247;493;305;363;451;4011;3679;18281;31751;127933];
[6200;1;1;7;5;21;45;123;253;469;267;985;2349;3427;7653;25685;13747;531];
[6205;1;1;5;11;7;59;105;209;27;847;593;3775;6165;1655;29867;28465;92193];
[6226;1;3;1;11;7;25;101;81;233;311;9;2735;3951;485;10105;24489;649];
[6228;1;3;1;7;27;5;115;243;295;659;215;1787;5131;2513;29201;21195;103383];
[6237;1;3;5;13;29;21;7;57;345;467;1297;207;5115;335;6153;32959;125697];
[6247;1;1;1;9;3;63;63;5;373;123;1265;2365;1623;1561;14805;17487;104787];
[6251;1;3;1;5;15;13;55;69;251;341;463;2611;4793;12157;4669;11613;128705];
[6253;1;3;7;13;19;7;93;149;453;693;1731;861;6971;943;18891;56547;34411];
[6256;1;1;7;1;27;49;27;9;281;121;581;393;2583;1159;26989;39955;100765];
[6268;1;1;3;9;3;43;97;207;311;617;1987;2559;2101;15791;30085;40713;41909];
[6272;1;3;1;3;15;19;53;183;375;867;397;3203;4207;5381;25065;60357;88739];
[6275;1;3;3;3;27;51;85;231;19;559;567;4049;4875;14201;11623;39763;57339];
[6281;1;1;5;1;19;7;81;249;41;789;985;3725;4053;4255;9861;1609;29511];
[6289;1;3;5;5;21;13;49;41;367;283;1161;2753;4733;3691;27931;53055;83625];
[6335;1;3;5;11;29;47;95;51;265;85;385;833;7957;14985;7017;41937;41377];
[6338;1;1;7;5;1;23;17;191;185;323;515;3183;7685;7361;21143;5227;110297];
[6355;1;3;3;7;11;39;31;97;237;497;1649;3529;6153;5055;29021;35125;121581];
[6362;1;3;5;3;17;47;105;75;55;343;595;2447;5575;10673;32015;37541;127867];
[6373;1;3;1;7;19;39;31;135;167;979;219;1353;489;9667;27107;55565;72291];
[6386;1;1;3;13;31;49;87;93;235;577;1551;2663;387;1129;26683;31285;15913];
[6388;1;3;3;7;15;29;61;33;115;511;1781;2029;4265;6745;1467;34415;40907];
[6391;1;1;7;5;1;55;13;129;167;937;79;2047;3589;1979;4153;15229;85745];
[6397;1;1;7;15;15;25;89;129;31;435;1359;49;2659;2829;8741;25215;4239];
[6405;1;3;5;3;11;39;95;239;187;615;1481;3509;1133;13497;24833;59635;45695];
[6406;1;1;5;3;19;17;17;235;315;943;883;1381;7129;15709;9847;41183;116071];
[6410;1;1;1;3;9;63;109;209;309;1015;1391;2617;1481;6483;4151;28063;49887];
[6417;1;1;5;13;23;37;31;89;501;461;41;931;7863;15499;25635;16995;41651];
[6443;1;1;1;9;29;29;125;161;219;439;1465;1615;7483;7497;1121;49693;30269];
[6457;1;3;1;5;7;43;27;161;431;375;419;2995;527;8207;747;18491;15351];
[6468;1;1;3;13;25;21;67;177;9;453;1171;65;2845;16147;12699;30905;122255];
[6475;1;3;1;5;29;47;77;251;473;385;947;3239;5375;13617;10639;36005;95821];
[6486;1;3;1;15;13;1;75;223;509;19;175;1541;637;5711;1097;44901;35277];
[6489;1;3;3;7;3;27;17;151;39;583;391;2739;7339;2051;17005;49573;85969];
[6495;1;3;1;11;3;25;119;125;17;629;201;2347;2923;1273;14871;58299;97667];
[6499;1;1;7;1;31;39;11;121;339;667;1863;3479;1895;11319;5683;64969;9261];
[6505;1;1;5;9;27;61;101;221;221;583;287;707;5931;4225;29537;46097;114361];
[6511;1;1;1;9;23;47;1;35;85;1021;151;3153;3867;971;31573;4745;107639];
[6520;1;1;7;13;15;15;63;37;291;907;411;1571;6415;7443;26635;27945;130909];
[6529;1;3;1;9;21;13;77;147;485;107;235;481;2389;957;11493;53033;46373];
[6542;1;3;5;7;3;55;125;237;205;411;1911;4053;5983;15489;29333;44727;62167];
[6547;1;1;3;3;17;3;59;239;209;495;447;3427;3425;2347;10057;26147;52243];
[6550;1;1;3;1;11;31;3;139;441;997;295;1267;2181;6047;32419;62657;24921];
[6554;1;3;7;15;5;3;11;9;211;701;1987;2611;6195;14379;22919;15785;52149];
[6556;1;1;7;9;7;27;35;253;343;679;103;1217;3983;8677;17671;41347;89355];
[6560;1;1;1;5;7;55;111;115;231;999;773;2111;3617;2469;16967;60735;24557];
[6569;1;3;5;1;29;5;77;217;131;307;473;3595;2713;6503;18459;57245;91897];
[6572;1;3;5;13;9;33;93;31;59;343;1337;1971;7593;15629;22693;19885;4139];
[6590;1;3;3;3;21;33;115;205;373;587;739;669;8065;5339;16507;29455;15863];
[6592;1;3;5;11;9;43;45;41;91;87;19;1523;5059;9403;6739;36893;6395];
[6601;1;1;5;15;19;43;81;3;401;621;1839;1443;179;8085;27021;7757;95011];
[6610;1;3;5;15;19;21;45;167;77;977;309;431;3437;8327;12895;50521;68473];
[6632;1;3;3;15;7;21;49;169;327;271;7;785;1767;14747;7083;65223;24213];
[6635;1;1;5;9;9;51;101;197;507;839;1413;3131;331;15725;32293;60433;86759];
[6640;1;1;7;1;17;39;127;201;341;607;1565;1615;1367;16043;28265;29139;63813];
[6643;1;3;5;7;9;1;107;73;121;649;1385;3203;2897;8479;28519;34041;1359];
[6649;1;1;7;7;21;55;19;13;415;647;2015;107;4167;5033;16849;41407;94387];
[6659;1;3;5;13;31;27;107;95;425;679;55;3521;6737;11459;19995;64189;44323];
[6662;1;1;3;9;17;47;29;167;17;63;5;2505;6483;14089;7127;7907;68555];
[6666;1;1;5;3;29;3;87;107;227;893;1821;341;5481;13317;10637;8611;28625];
[6690;1;1;1;13;11;19;59;157;397;103;1821;3913;3083;6053;1015;25475;94813];
[6692;1;3;1;3;15;45;1;209;335;1015;539;2959;1711;2567;30169;147;25383];
[6704;1;3;7;1;17;5;99;121;91;531;865;1667;5615;4729;7473;21445;37925];
[6713;1;1;7;13;3;51;27;115;439;761;1121;1503;3047;2127;29253;48147;10813];
[6728;1;3;7;15;1;51;33;161;509;159;1705;3365;7953;14027;3873;29609;33101];
[6731;1;1;5;15;15;53;119;115;433;75;497;1259;1681;7715;24767;34647;82007];
[6734;1;1;5;3;27;63;41;181;393;439;95;2765;7617;817;1311;18595;16921];
[6746;1;3;1;15;31;7;57;89;371;745;475;3211;6893;10681;18547;28373;127787];
[6755;1;3;5;13;5;55;45;167;147;833;765;1153;4037;8503;10751;49541;77489];
[6757;1;3;1;11;11;7;45;167;431;759;1035;1367;1649;11711;4915;58915;72479];
[6764;1;1;5;1;11;3;15;135;427;637;879;1667;6139;14759;25665;13083;67961];
[6772;1;3;3;9;1;3;73;167;269;51;1481;3659;7863;7187;3951;10711;5909];
[6792;1;1;3;3;9;53;101;209;109;691;1641;919;1083;6247;23041;44681;130105];
[6797;1;3;7;5;21;55;127;9;437;225;1599;2575;5407;8099;20009;40339;110581];
[6821;1;3;3;13;7;41;15;137;363;337;995;1215;3651;11011;27209;53927;78065];
[6822;1;1;1;7;11;17;27;9;481;79;905;1297;811;10221;463;12979;114731];
[6831;1;1;3;13;7;59;105;79;253;699;139;3823;4939;12955;32069;7255;18159];
[6834;1;3;5;7;29;7;79;79;147;921;425;1423;5967;6397;17393;30009;84075];
[6851;1;3;7;13;23;45;51;141;237;443;1101;309;4533;7479;22415;31517;120407];
[6858;1;1;5;13;3;19;97;185;59;179;1343;2537;3165;16295;25005;49769;78007];
[6860;1;3;7;15;11;53;127;195;309;121;1741;1415;225;15645;16365;38729;70061];
[6871;1;3;7;11;29;35;47;109;179;3;849;2305;3035;15289;31569;28851;90057];
[6875;1;1;7;1;13;27;93;119;439;45;623;1263;6595;6669;12981;64721;130109];
[6884;1;1;7;13;5;43;43;99;395;417;795;3991;5601;13115;12803;52247;39245];
[6888;1;3;3;3;15;61;85;91;407;391;359;3885;1925;4873;169;41727;129471];
[6894;1;3;3;9;11;47;3;33;355;853;1329;1347;1995;8197;10015;787;66773];
[6919;1;3;3;13;31;31;49;195;55;185;1743;3523;1781;8469;7623;55933;74953];
[6940;1;3;5;15;29;31;5;45;149;71;2033;3171;4601;9941;15005;55709;74403];
[6950;1;3;5;3;1;27;105;7;139;805;1877;915;1843;11897;29485;19275;44711];
[6959;1;1;5;7;25;57;111;57;401;935;1685;2985;2015;13501;14581;53579;117011];
[6968;1;1;5;11;13;47;63;137;145;77;1727;2629;7377;6311;537;13703;129503];
[6981;1;1;7;9;5;49;67;51;163;989;845;7;2141;14467;3197;57581;121087];
[6988;1;1;5;3;31;49;57;103;171;491;1109;1255;4353;11927;29525;16685;48469];
[6996;1;1;1;3;7;29;17;111;339;747;763;179;7747;2483;18415;45301;25155];
[6999;1;1;7;7;1;41;71;109;401;815;1311;3933;1349;13327;20847;44391;49721];
[7015;1;1;1;15;27;57;39;129;391;701;619;3925;701;403;11821;30517;22035];
[7019;1;1;5;11;21;49;109;101;497;417;73;2727;2899;2777;22161;35561;70211];
[7022;1;1;3;3;15;43;1;159;41;833;55;2415;5009;9663;31295;29397;3187];
[7040;1;1;3;7;27;5;113;187;453;753;1649;1605;2405;11791;4239;20915;54033];
[7045;1;3;1;11;1;57;49;229;283;113;345;785;8009;11977;30169;63787;32011];
[7049;1;1;7;3;5;59;57;91;327;685;219;1949;3095;8389;2035;11903;73461];
[7055;1;1;3;3;19;59;19;37;453;1;1811;3263;1807;16147;24861;14003;31747];
[7073;1;1;3;11;1;53;93;203;429;629;1931;1487;3301;8805;4901;2459;98555];
[7076;1;1;7;5;21;5;37;135;159;749;1589;2631;8145;7279;28397;47113;82309];
[7085;1;1;5;15;25;61;19;51;217;495;109;1179;2743;12107;12509;13003;94375];
[7091;1;3;3;15;11;7;67;165;57;925;427;2549;7189;5917;13113;30933;62703];
[7103;1;1;5;5;9;5;43;5;485;159;757;3979;4963;3389;29731;48477;113429];
[7112;1;3;5;1;5;5;81;163;493;357;2005;1093;5951;1045;10569;40321;56881];
[7117;1;3;1;5;7;29;11;7;7;13;1641;1031;4025;16337;24333;9589;37779];
[7118;1;3;5;11;15;3;69;19;141;79;749;391;4505;6939;3079;3647;22363];
[7123;1;3;3;3;29;3;7;189;183;513;1225;239;4203;9197;23507;33089;124433];
[7126;1;3;3;13;27;37;81;221;287;891;1197;3501;539;2053;20509;48635;50269];
[7154;1;1;5;7;13;3;35;79;3;885;343;3527;1043;7197;6973;8515;39315];
[7180;1;3;3;9;21;53;79;225;229;759;457;293;953;12857;20483;3677;93839];
[7192;1;3;5;3;5;17;45;107;153;279;761;1923;7013;2989;10137;19107;126897];
[7195;1;3;1;3;23;53;91;1;133;729;13;2017;6933;7405;1255;49509;105571];
[7207;1;3;5;1;9;45;35;153;209;289;1779;2557;315;981;15347;30391;16027];
[7208;1;3;3;5;17;3;51;105;263;959;1255;1177;8143;10541;7687;38731;93561];
[7214;1;1;1;13;19;1;15;135;447;847;663;3893;3539;6833;13265;62923;8375];
[7222;1;3;1;15;31;11;105;1;91;523;1583;3493;2665;117;10757;29845;127201];
[7234;1;1;1;3;29;49;9;103;309;605;1751;1981;833;3653;14001;16545;58513];
[7254;1;1;5;9;1;19;117;71;237;765;249;1983;2289;6019;26505;31427;64333];
[7258;1;1;3;11;15;31;5;207;347;143;11;1987;3569;2051;31051;22193;93289];
[7264;1;1;3;5;13;15;5;73;457;611;673;2675;8071;13245;19443;14399;99599];
[7279;1;1;1;9;11;5;103;231;31;457;1031;2257;3159;8323;31585;26163;45159];
[7282;1;3;1;11;29;51;29;7;89;331;783;951;6353;15421;12801;8337;119171];
[7293;1;1;3;13;23;57;63;43;505;1;657;4005;6327;7545;15455;27097;53649];
[7297;1;1;1;5;31;7;51;107;175;461;1893;305;157;4819;18549;33087;9499];
[7322;1;3;1;3;19;45;37;9;459;143;1327;3611;1899;15109;30151;17911;13233];
[7324;1;1;5;15;19;49;11;227;375;661;665;259;3659;13723;28239;48159;59209];
[7351;1;3;7;7;17;49;77;161;505;713;1521;935;3629;5033;26717;47199;3693];
[7363;1;3;5;9;17;61;1;201;259;179;1637;2485;4995;2813;19923;43739;32183];
[7380;1;1;3;5;1;23;125;61;225;703;2011;1013;6651;14029;27375;23301;80269];
[7384;1;1;3;9;11;57;37;49;321;443;1055;1989;4755;8467;22001;18647;112617];
[7389;1;3;1;5;5;39;21;139;101;583;1881;2599;4185;15679;22215;19093;76737];
[7396;1;3;1;11;31;51;85;91;159;421;2005;1075;7757;12653;25489;3545;62961];
[7413;1;1;1;15;27;57;75;151;357;571;395;299;5607;12865;2149;21059;120753];
[7417;1;1;1;3;15;57;63;171;265;709;1089;677;7243;10207;9789;38431;130415];
[7431;1;3;7;5;21;9;73;149;197;773;773;3931;4135;5671;2733;57173;90693];
[7443;1;1;5;1;23;1;47;201;33;167;1643;4009;2687;5725;28733;27859;55163];
[7445;1;1;5;15;25;11;57;139;471;625;1067;3647;6213;15605;23537;5005;32593];
[7450;1;3;1;11;17;11;25;163;199;21;1775;3721;2845;15769;2381;27643;19909];
[7456;1;3;5;5;21;41;23;125;401;483;535;925;7065;1727;3761;8485;3519];
[7466;1;1;3;15;27;31;11;7;93;237;611;3635;4747;9751;20607;20473;73935];
[7468;1;1;7;3;15;19;69;169;387;291;1981;635;3387;15817;20357;47537;107311];
[7474;1;3;7;15;13;59;31;235;399;343;1265;2975;6839;13335;5397;58915;31313];
[7479;1;1;7;1;3;35;81;243;387;421;1533;799;2615;13219;9041;26967;22677];
[7486;1;1;7;15;17;41;89;115;67;569;1647;1831;5533;4629;1413;20037;97343];
[7497;1;1;5;1;23;41;11;149;319;377;439;1237;4819;14303;14657;61711;129235];
[7508;1;3;3;7;9;11;79;219;249;607;1453;2931;3407;13725;28289;42869;96759];
[7515;1;1;5;11;7;9;101;51;11;893;697;1221;4237;1873;11191;25517;119861];
[7533;1;1;3;11;23;23;19;245;485;317;1945;2339;193;9389;30709;33927;95089];
[7542;1;1;3;1;27;55;5;81;63;185;223;3639;6093;10053;1793;11885;29307];
[7546;1;1;7;13;15;41;33;133;467;457;213;3687;1313;2555;19487;44257;108667];
[7551;1;1;3;5;31;51;53;115;449;273;1043;2743;1759;2013;28171;57091;76837];
[7569;1;1;5;15;21;43;11;215;151;253;913;1889;2799;13787;3869;54413;50991];
[7572;1;1;3;13;29;19;81;123;461;203;81;555;6601;15689;12637;41467;105343];
[7595;1;1;3;13;7;21;75;111;47;481;1519;3299;6199;3501;31323;29215;45607];
[7603;1;3;1;3;17;51;45;223;321;233;267;3333;3803;3099;4601;29061;88441];
[7605;1;1;5;13;23;27;7;57;273;893;773;239;6357;15875;5497;21775;108291];
[7629;1;3;1;15;25;17;11;229;175;909;691;3507;5247;2933;1741;35059;62841];
[7632;1;3;5;1;29;7;11;69;345;87;99;3243;5669;11053;1185;6979;117069];
[7638;1;3;5;11;13;33;23;183;89;475;643;2773;7899;15219;133;5073;129355];
[7648;1;3;7;9;23;17;31;53;455;193;1695;2557;1645;12675;27857;50447;121335];
[7654;1;1;3;11;15;19;41;57;305;235;1131;1165;1857;13667;19285;29755;118885];
[7663;1;3;7;3;9;43;107;3;275;673;677;3769;3097;5497;24911;4617;80505];
[7675;1;1;7;9;21;39;107;155;471;753;579;2929;4951;4245;25035;41795;86955];
[7693;1;3;1;7;31;51;27;165;147;751;709;399;45;947;9893;32721;122127];
[7705;1;3;3;1;31;31;73;59;351;293;845;3139;4177;3537;9465;20689;65837];
[7717;1;3;5;9;27;29;13;115;417;435;465;1291;5225;11687;29207;39895;55443];
[7724;1;3;3;15;29;49;111;179;221;565;787;1811;4055;7863;27273;32975;26985];
[7727;1;1;1;7;15;49;121;145;277;27;149;965;4903;3497;32333;37217;105073];
[7735;1;1;7;1;23;29;31;77;353;349;755;2081;4291;567;641;41751;20397];
[7761;1;1;5;3;25;31;97;3;405;607;965;2981;3217;14695;25977;22457;113539];
[7767;1;3;3;15;25;3;91;125;269;825;1163;2181;4247;6813;4699;35091;87771];
[7783;1;1;5;9;25;23;113;145;71;31;1115;3729;6793;11869;26509;18779;99499];
[7784;1;1;1;9;31;51;77;217;247;599;1541;3217;1383;5203;27971;23647;71823];
[7798;1;1;5;7;17;35;113;73;475;511;35;1961;5311;2257;1935;58963;94349];
[7802;1;3;1;7;27;31;67;253;95;883;1213;855;3429;15049;26715;56099;101797];
[7811;1;1;3;5;9;9;61;57;511;537;1803;949;1327;3921;11297;13807;64629];
[7817;1;1;5;1;31;57;105;161;309;283;1291;2737;7141;7497;25893;14453;35375];
[7823;1;1;3;1;21;3;77;37;13;211;1863;1895;8035;5801;25981;12317;48375];
[7832;1;3;7;7;25;45;13;77;185;553;1501;1349;5951;15581;32657;18467;128363];
[7837;1;3;5;9;23;63;105;239;213;935;1331;3653;2775;6591;6067;34597;19217];
[7842;1;3;7;13;15;19;79;91;391;637;1685;2263;3507;2025;2111;15875;14831];
[7853;1;3;3;5;7;29;81;69;511;399;343;737;2833;1021;10471;18689;36181];
[7854;1;1;5;11;21;17;39;137;145;857;583;789;8057;15995;32113;64163;37153];
[7856;1;3;3;11;9;61;87;131;487;667;1295;493;4629;7719;18157;49715;2051];
[7861;1;3;5;9;19;5;85;3;491;353;571;2829;4411;343;24781;62325;123959];
[7862;1;1;7;13;13;39;11;31;413;285;27;2433;3307;6165;26565;40065;102655];
[7873;1;1;5;11;25;45;7;97;9;973;1833;2537;1457;7389;24087;38061;122805];
[7874;1;3;5;3;21;63;77;21;249;525;1145;1421;8011;3357;15051;30293;127017];
[7886;1;1;5;3;13;53;81;185;303;307;1579;841;2277;607;10899;34209;215];
[7914;1;3;3;13;17;1;125;145;205;763;127;1865;4129;849;27247;29845;36515];
[7927;1;3;7;13;5;59;19;71;227;111;365;1309;5857;6035;32379;11303;127329];
[7936;1;1;1;1;19;61;79;253;459;23;725;3615;4583;429;13215;31879;4523];
[7951;1;1;1;7;19;13;53;41;243;107;1767;983;3483;2249;2209;58895;14805];
[7963;1;1;1;9;5;63;31;85;119;307;633;3295;841;3495;22965;57587;108271];
[7966;1;3;5;9;17;13;57;49;97;613;405;2637;3229;14253;4663;61345;33415];
[7976;1;3;1;1;17;37;63;3;5;375;1073;3971;665;4445;153;20437;38513];
[7993;1;3;3;15;5;9;77;161;409;461;443;567;5581;8623;27735;9041;5517];
[8001;1;3;5;13;13;5;19;53;263;155;557;3973;6841;4829;30751;30025;121973];
[8004;1;3;7;9;27;37;49;243;107;1013;1743;1509;4465;15415;4741;41409;72695];
[8013;1;1;3;5;11;49;39;45;21;463;875;3681;1901;15325;24553;51369;82227];
[8021;1;1;3;15;11;35;21;91;383;149;1815;911;4633;12027;12413;22307;120049];
[8026;1;3;5;7;7;3;15;83;477;687;145;1705;6893;5233;20171;43337;72603];
[8028;1;1;3;9;25;35;19;173;67;5;561;2139;4557;4911;26273;38409;22801];
[8031;1;1;3;13;15;39;85;91;91;187;1851;1181;4049;16353;26525;43703;19415];
[8035;1;3;1;9;13;41;77;179;415;705;693;3017;5847;16191;11435;28979;51839];
[8042;1;1;3;5;23;15;3;159;269;67;625;4043;4701;1599;6467;10949;80073];
[8071;1;3;3;15;7;43;81;157;393;321;1875;2801;4359;11703;1063;64015;109997];
[8085;1;1;7;3;25;21;37;123;133;691;973;3115;2291;10519;13339;22751;85445];
[8092;1;3;1;1;21;21;9;23;431;679;1873;289;4503;3939;14417;36081;18709];
[8102;1;3;5;5;1;53;109;133;33;279;727;2233;3065;8557;7487;25797;109177];
[8105;1;1;7;7;1;9;47;127;179;757;1985;547;169;13393;22669;58795;92897];
[8114;1;3;5;11;17;21;95;219;263;579;1493;3283;5461;1235;1749;33325;36033];
[8123;1;1;3;11;21;49;45;143;511;983;1933;965;7905;1925;27857;40723;68251];
[8131;1;3;7;3;27;9;73;7;441;877;107;1599;4795;7251;6819;7671;21137];
[8140;1;1;3;3;21;25;49;43;247;949;627;2859;2507;4787;11269;53221;126387];
[8145;1;1;5;3;5;53;127;65;353;521;1701;2981;3201;611;13475;58015;2605];
[8157;1;1;5;13;9;39;55;103;53;281;705;2433;6179;3381;31973;30267;91307];
[8158;1;1;7;13;31;23;29;161;347;449;123;3427;5731;12691;15175;20487;74695];
[8185;1;3;3;15;13;19;83;137;437;317;921;913;7979;6665;5313;1435;60271];
[8186;1;3;5;7;19;23;31;131;421;95;1999;897;4839;1815;12387;45009;2609];
[8188;1;1;1;7;3;53;121;33;47;283;813;3841;4449;2543;15211;59285;42551];
[8192;1;3;1;13;9;43;37;167;93;417;213;2721;3395;2089;13743;32925;91147];
[8212;1;3;7;5;31;25;97;25;19;11;543;1889;455;5765;9517;56963;131069];
[8219;1;3;1;7;3;7;87;61;209;39;1303;1637;6687;8001;5003;47911;110657];
[8221;1;1;5;3;11;25;99;77;379;843;1423;2933;7535;4181;32223;49327;48041];
[8235;1;3;3;13;9;7;85;59;47;777;401;2449;2795;11289;25023;7725;73887];
[8237;1;1;3;5;11;51;93;57;369;871;1175;2705;1253;5169;24691;14243;119667];
[8249;1;3;1;3;5;7;33;171;359;115;1909;2003;1413;13829;3471;36185;118399];
[8260;1;1;1;11;5;49;97;145;415;731;671;2309;7211;11359;22757;15415;70951];
[8264;1;1;3;5;7;51;61;101;375;575;1321;2835;7569;9599;4707;7655;53417];
[8270;1;3;1;15;9;63;25;117;203;5;1345;2571;5273;2059;4689;27237;23199];
[8282;1;1;3;15;15;23;69;49;349;995;5;1565;903;10165;9565;6343;16653];
[8291;1;1;3;9;21;15;69;9;463;69;1447;2347;5125;7479;18257;14405;51321];
[8293;1;1;7;11;23;57;57;179;17;129;999;777;6281;1693;31885;31085;29237];
[8297;1;3;5;1;25;55;15;21;199;271;1645;1719;2023;10049;15215;11959;44875];
[8298;1;3;1;3;29;43;83;11;281;27;429;685;7189;9151;8665;9553;115293];
[8305;1;3;1;7;17;43;125;11;189;803;713;683;7285;4455;18195;45333;32281];
[8306;1;3;3;3;11;55;21;59;173;283;709;1561;5391;5097;24725;19217;13769];
[8311;1;3;5;13;7;29;117;207;415;525;567;1741;3553;6729;433;17619;45971];
[8318;1;1;7;7;3;23;43;43;213;823;609;1037;3797;4733;30717;61067;89581];
[8327;1;3;5;7;11;7;7;241;379;217;739;2815;2549;14297;10283;1509;80613];
[8345;1;1;1;1;17;45;53;229;193;893;1881;227;6751;7135;20823;36939;27667];
[8379;1;3;3;1;15;39;27;217;101;949;1963;2213;2357;4129;11925;841;59259];
[8390;1;1;3;3;5;53;59;255;421;1009;683;2171;6691;12489;20865;29363;70611];
[8394;1;1;7;15;7;31;105;141;153;401;549;3045;5443;11147;18159;24283;21859];
[8414;1;3;7;1;11;17;17;231;175;603;1915;111;3203;10627;9687;47235;87057];
[8417;1;1;1;11;19;21;115;41;45;727;1523;739;3025;10321;27353;63139;16051];
[8432;1;3;7;11;13;9;33;121;237;565;2043;2131;3079;12575;2187;14427;85939];
[8437;1;3;1;15;21;19;91;227;485;49;101;15;1903;4039;23819;40001;66405];
[8441;1;3;1;5;15;25;65;25;393;287;1435;1851;6437;5983;13769;37847;120907];
[8449;1;3;7;15;15;21;97;37;359;155;807;1421;517;13135;2955;56979;52299];
[8456;1;1;5;1;27;53;79;27;467;605;267;1193;31;6177;12369;32621;38319];
[8473;1;1;1;11;27;15;15;231;205;677;331;133;3313;7193;8059;36449;21671];
[8489;1;3;3;11;19;57;113;83;399;801;1843;2119;2779;14061;30901;28745;120903];
[8495;1;1;1;11;5;27;121;247;467;251;1487;251;897;3171;28383;22473;1709];
[8522;1;1;1;15;7;59;123;165;123;373;167;1323;5239;9027;13791;55593;78785];
[8524;1;3;1;11;31;11;81;229;123;183;461;1751;5713;2615;27795;1657;39253];
[8529;1;1;7;1;21;45;107;3;283;149;549;3731;6435;3595;32753;16079;84257];
[8545;1;3;3;15;19;9;81;37;51;341;909;985;1503;12787;16129;37789;113515];
[8557;1;3;5;13;3;33;127;219;369;341;1191;1305;567;2339;31221;49435;114927];
[8565;1;1;7;15;29;47;103;107;257;15;2029;2133;2129;11235;29553;49139;33809];
[8572;1;3;3;13;23;33;105;43;155;815;1087;2261;2781;3461;7371;4479;123093];
[8576;1;1;1;13;17;7;89;107;143;349;637;3651;4153;12131;28393;45781;84133];
[8582;1;3;5;11;31;47;105;101;267;403;1853;3977;3277;1737;15503;47365;14361];
[8594;1;1;1;13;1;63;125;107;123;183;1027;3491;3597;15949;5779;34665;81257];
[8629;1;3;1;9;13;5;125;41;389;73;1487;1983;957;12645;13983;7675;72711];
[8636;1;3;7;5;17;5;25;63;211;591;261;2345;3883;4403;773;43963;93509];
[8668;1;3;3;1;11;35;15;251;225;643;537;3769;7593;6113;1377;52185;81459];
[8678;1;3;5;15;27;27;51;35;389;853;1437;2803;5739;1887;15099;3299;111827];
[8701;1;1;3;15;25;63;31;201;79;131;31;3929;4195;13045;8681;48121;110723];
[8702;1;1;5;7;11;43;101;57;69;271;189;3087;4893;11365;6945;14285;41961];
[8708;1;1;7;9;21;61;41;123;25;947;1619;2895;7879;12397;17405;48139;71519];
[8712;1;3;1;15;1;27;113;225;441;855;541;357;3111;4867;20571;30627;70123];
[8745;1;3;5;3;5;33;103;1;21;93;383;407;5145;7857;20289;51943;16223];
[8754;1;1;7;15;1;13;41;215;463;417;513;3417;1755;16165;7271;3101;54353];
[8759;1;3;3;13;19;29;5;205;245;927;1249;773;3653;9959;357;40863;37289];
[8763;1;3;3;7;3;5;85;241;29;627;1963;3133;1369;503;11449;4699;2573];
[8766;1;1;7;15;3;35;47;157;413;437;1627;3953;947;12721;22209;34303;81237];
[8780;1;1;5;5;1;45;47;245;253;349;1853;3481;6105;7267;3159;38833;117889];
[8783;1;3;7;15;23;43;25;181;121;681;479;1239;6155;3317;9419;28717;44643];
[8786;1;3;3;15;31;43;111;99;405;991;301;1689;7107;16131;16703;24059;40345];
[8798;1;1;3;9;25;5;107;91;117;351;1595;163;3007;13743;24535;38671;29745];
[8804;1;3;3;5;27;47;15;195;119;919;665;1903;1981;7753;21709;33699;15963];
[8819;1;3;1;11;23;23;75;115;477;105;541;1111;209;13939;17129;7565;75415];
[8826;1;1;1;11;7;61;123;201;305;713;779;2059;4899;13733;20529;15617;39833];
[8835;1;1;7;11;21;7;63;113;213;871;375;29;1925;15237;7091;12229;8457];
[8838;1;1;1;7;19;57;83;91;297;255;1993;63;5337;4569;21243;40867;46969];
[8856;1;1;3;7;13;63;91;191;281;259;1367;3505;5885;10557;12423;56303;14731];
[8862;1;1;5;15;27;15;29;67;115;287;253;1497;3739;2183;14427;44931;11547];
[8871;1;3;1;9;25;61;25;113;137;819;781;3741;2457;7817;31209;20707;93007];
[8875;1;1;7;3;5;13;23;3;365;77;1117;3061;4707;3013;27899;10887;78677];
[8890;1;3;1;15;1;39;85;107;483;83;603;3121;1995;5241;32319;9515;94551];
[8892;1;1;7;3;27;13;105;41;285;237;1589;517;2009;10833;1459;26217;50759];
[8898;1;1;3;11;27;1;127;83;355;107;1003;657;4997;4123;13151;56601;122307];
[8927;1;1;1;7;13;17;93;75;481;473;131;1359;4859;1319;23919;50079;128849];
[8928;1;1;3;7;9;33;111;229;11;283;1089;3049;1635;959;19109;62821;105391];
[8945;1;3;1;3;9;47;49;169;343;929;1379;1985;5867;6053;12179;39727;116053];
[8952;1;3;3;15;27;39;61;113;439;719;1313;3701;4793;10275;2943;32405;95457];
[8955;1;1;1;1;27;49;121;171;319;365;1593;1655;63;6257;18097;35285;112245];
[8965;1;3;1;1;19;33;89;235;281;519;1867;525;4475;12059;26611;14789;59541];
[8972;1;3;1;15;1;51;65;71;131;599;117;2459;7421;7157;24393;48139;53701];
[8977;1;1;7;7;1;41;57;191;207;329;43;1235;5671;12243;22549;40751;104513];
[8990;1;3;5;13;15;21;55;187;283;209;1511;1329;6665;15953;4521;16879;57625];
[8996;1;1;5;3;3;53;75;123;291;663;1893;3669;4903;8575;27971;46977;56357];
[9025;1;3;1;5;27;41;19;199;489;197;439;3299;6315;6957;15809;35297;5559];
[9037;1;3;5;1;3;25;109;191;33;543;125;2309;429;14059;3149;45747;47357];
[9040;1;1;3;11;15;61;109;103;305;1;1479;2781;6521;8921;23681;9583;87257];
[9049;1;1;7;15;5;19;121;139;177;967;1363;705;211;11877;22457;34563;7801];
[9062;1;1;7;13;9;21;103;95;483;567;5;2095;4659;2447;23521;27273;85867];
[9068;1;3;5;15;23;55;13;237;275;113;1431;2931;5165;5317;5625;51865;42177];
[9076;1;3;3;7;1;23;15;171;303;43;1137;1255;3843;9049;1799;7075;2115];
[9079;1;1;7;5;23;53;75;129;1;511;793;265;6535;9641;25173;9449;46949];
[9099;1;3;3;1;19;39;51;173;5;281;2047;4065;3225;14587;16947;1459;87227];
[9107;1;3;7;13;13;53;39;115;403;37;1533;2727;2229;8291;18687;59553;37629];
[9114;1;3;1;9;3;55;63;191;147;321;1287;2419;6881;2249;11141;54839;50263];
[9123;1;1;5;3;9;61;85;139;1;409;633;53;163;14677;13043;12253;106939];
[9126;1;1;7;3;19;3;7;165;497;621;1563;1267;8113;2383;17205;13337;102547];
[9137;1;3;3;13;15;29;23;31;481;535;471;2125;331;9421;29799;27097;5307];
[9149;1;1;1;1;31;45;47;139;235;509;889;685;1855;13599;24431;62105;109509];
[9150;1;3;1;7;3;13;25;197;111;45;1815;1031;4803;349;32369;40837;111529];
[9155;1;1;7;1;27;9;3;73;403;321;967;2713;6953;16123;8611;48651;120635];
[9161;1;3;5;3;3;25;69;231;249;393;1141;1721;7071;3711;15627;21815;104735];
[9162;1;3;1;11;19;63;77;5;55;481;1021;119;3941;1227;10997;29513;18923];
[9167;1;3;7;5;1;11;13;99;365;797;1993;699;3091;11401;3659;15339;90395];
[9172;1;3;5;7;31;43;55;143;273;379;1189;1689;4811;5159;3281;63819;57065];
[9186;1;1;1;13;9;25;9;3;461;281;959;2439;3187;4837;13857;20221;29733];
[9188;1;1;7;11;31;17;13;101;81;921;1329;2421;2747;9435;23313;7093;7547];
[9191;1;1;3;3;9;51;67;95;511;1011;1519;4089;5001;1351;15367;50665;92111];
[9198;1;1;5;13;27;43;115;77;439;589;31;915;7027;697;25143;1443;59093];
[9200;1;1;7;3;17;5;107;117;133;649;1309;2979;969;9789;12597;24507;106825];
[9205;1;1;7;13;1;27;97;35;431;183;199;2619;515;89;20281;30291;97977];
[9206;1;1;7;1;31;9;35;11;359;21;1875;3227;1307;15691;17343;21163;84671];
[9215;1;3;1;11;29;21;47;137;441;841;1641;3283;1371;8835;16287;45009;13779];
[9227;1;1;3;9;23;53;1;99;473;649;447;2589;5667;15579;6497;44321;46993];
[9232;1;1;7;9;31;63;95;81;197;373;1027;3959;7189;13369;17287;53643;12673];
[9241;1;3;1;5;25;61;79;183;489;725;1077;1147;113;7357;27505;529;61855];
[9244;1;1;7;11;19;35;73;223;125;765;1303;2887;7861;14839;9537;27027;94327];
[9251;1;3;1;3;17;35;63;233;317;133;1837;3339;4351;10071;5005;13245;34327];
[9254;1;3;1;3;17;13;59;113;247;1015;1831;3391;6337;6853;7145;64309;40109];
[9275;1;3;5;13;15;23;65;203;241;545;1521;1253;3171;7777;21145;565;87813];
[9283;1;1;5;15;31;9;9;145;409;155;409;2935;5817;11427;32617;38167;69465];
[9285;1;1;5;11;19;31;43;85;97;931;687;1501;3991;2215;11091;64735;56999];
[9303;1;1;1;3;7;11;101;21;345;829;531;1475;6617;1187;26885;32135;9733];
[9304;1;3;5;11;7;49;79;197;57;15;1845;1485;6167;10887;17083;59367;7411];
[9313;1;3;7;5;9;33;7;91;311;847;1435;3573;3693;5369;26817;30105;115337];
[9314;1;3;1;9;25;43;65;69;225;337;575;1979;5555;8499;8127;33035;52549];
[9320;1;1;3;11;17;29;71;99;379;145;1067;2561;7635;5647;32491;56621;93603];
[9328;1;1;5;13;25;43;75;237;407;393;1219;3651;7719;11685;26123;62767;1043];
[9333;1;1;7;15;13;59;9;163;273;225;873;3201;633;6121;18777;58763;77731];
[9337;1;3;7;7;3;7;99;155;279;991;799;753;7205;9567;23643;38263;19083];
[9338;1;3;7;11;11;29;65;3;207;575;253;2407;7935;11323;23239;1923;47737];
[9340;1;1;5;9;25;47;1;25;397;1009;193;4031;3023;2029;10561;32363;104405];
[9353;1;3;7;9;19;55;63;179;385;97;461;3393;8137;8929;17621;9611;58925];
[9356;1;1;1;7;1;17;127;45;157;529;809;3545;5173;5083;13325;52295;91261];
[9364;1;1;7;9;25;49;99;79;157;535;1569;2195;1725;1187;18423;47957;10043];
[9373;1;1;3;7;3;31;83;45;199;665;1261;3497;7885;5761;17187;12041;12867];
[9374;1;3;1;7;3;55;73;215;41;1011;1883;1051;7293;1881;27435;29459;130933];
[9378;1;1;3;9;21;31;113;209;35;771;365;3151;787;3845;26555;13823;36951];
[9380;1;3;7;15;13;21;119;91;15;251;1337;2715;1665;3451;8309;11033;127159];
[9389;1;3;1;9;9;63;5;145;357;9;859;1565;1141;14689;25121;41337;83357];
[9395;1;1;7;11;13;63;57;151;33;595;2025;571;4713;11019;26771;16221;92439];
[9412;1;3;3;15;29;49;93;131;167;835;33;263;93;8475;16139;61237;95081];
[9422;1;1;7;13;1;57;43;91;485;841;1415;3083;2665;8521;9825;59955;21763];
[9439;1;1;1;1;29;47;63;107;439;847;537;2011;7571;3699;23961;54887;92681];
[9450;1;3;7;5;27;41;105;161;95;821;451;2627;4687;1899;18851;35167;6869];
[9452;1;1;1;11;7;7;13;163;399;471;1587;2561;1241;5365;27189;49883;68101];
[9482;1;3;7;9;19;5;119;251;151;359;235;2387;3919;7135;17591;1053;6265];
[9487;1;1;5;9;13;25;43;23;453;693;517;1235;1045;4299;27877;3733;72269];
[9489;1;1;7;1;27;43;103;249;487;67;855;3239;2157;8121;4701;37803;49971];
[9499;1;1;3;13;1;37;125;115;365;57;1419;4085;7039;10079;14991;48861;61979];
[9501;1;1;5;5;3;35;109;19;219;653;1219;1625;6847;11271;4525;56341;57801];
[9508;1;3;7;5;31;19;37;73;185;13;1723;1139;5919;11717;27161;13635;51765];
[9515;1;1;1;1;19;61;53;111;215;189;1199;591;943;2111;17171;15621;128459];
[9518;1;1;7;9;17;61;101;159;85;537;15;1427;6139;4091;32639;28655;115385];
[9520;1;1;7;5;23;31;125;7;151;967;1079;4059;3287;11673;19307;49469;65981];
[9526;1;3;3;1;29;59;95;119;31;427;1653;721;5509;6385;17043;45133;74155];
[9537;1;1;3;9;13;61;35;189;1;559;119;3719;4137;1369;19147;10923;43909];
[9552;1;3;3;13;1;41;31;185;451;379;29;153;4121;13153;4171;36993;109241];
[9571;1;1;1;9;15;41;99;17;21;93;649;2765;6955;10843;12547;64989;63713];
[9588;1;1;7;5;5;5;73;187;473;235;1907;409;7335;4429;7493;20703;14505];
[9613;1;1;3;11;27;59;17;103;337;117;1241;951;3701;10407;16741;46531;56485];
[9619;1;1;3;15;11;51;111;189;137;939;97;1563;851;13949;1375;41463;61445];
[9622;1;1;7;9;19;39;117;173;165;547;483;361;6819;15093;13631;29785;29593];
[9637;1;3;3;5;15;39;41;249;455;79;233;3133;405;9487;23161;32751;117743];
[9652;1;1;5;15;7;63;7;57;127;349;1913;1145;3371;3733;30971;35717;60935];
[9655;1;1;7;11;7;57;49;63;51;233;855;2125;6961;15011;28503;40549;47175];
[9661;1;3;7;1;25;49;35;39;237;545;1637;1401;3279;10499;14463;34973;29485];
[9664;1;3;3;13;7;13;79;141;55;277;843;3087;2339;6855;10635;13021;11273];
[9669;1;3;1;1;11;39;51;255;119;691;559;3287;5485;791;19283;51027;8061];
[9681;1;3;7;7;3;59;119;241;185;81;1843;2313;7471;15689;2271;59781;107439];
[9682;1;3;3;3;17;63;93;217;329;39;583;3031;4315;4623;12557;42063;11877];
[9688;1;1;1;1;15;57;37;233;387;639;37;425;637;1577;16449;33665;80417];
[9697;1;1;1;15;25;1;67;159;423;961;959;417;5657;8417;8127;29251;105893];
[9700;1;3;5;15;31;9;87;217;259;771;1663;2899;1531;7849;1961;61487;55399];
[9715;1;1;3;9;21;13;39;107;89;811;449;2569;4617;8977;1649;37721;48943];
[9722;1;3;7;15;15;59;63;195;287;677;269;1715;3545;3269;5231;46433;25921];
[9727;1;1;5;7;19;27;57;221;243;47;1791;2309;2751;4403;7083;34223;64905];
[9734;1;1;1;15;1;63;119;155;383;649;429;3857;7309;9823;9539;8933;128573];
[9740;1;3;7;11;17;19;99;19;321;415;1501;2123;6119;9705;11397;39521;34327];
[9743;1;1;5;15;29;37;9;95;417;19;1637;2949;4961;10743;9619;16045;48083];
[9745;1;1;1;11;21;17;57;23;247;201;1781;779;2207;2511;4829;13847;77593];
[9757;1;3;1;13;7;1;95;87;223;73;1129;383;1355;4965;29645;63465;76281];
[9761;1;3;3;13;3;47;33;123;155;621;1019;1817;4083;4723;24701;47503;18007];
[9762;1;1;7;15;13;41;73;93;379;923;1183;2475;5901;10599;10053;9941;112107];
[9767;1;1;3;3;13;35;59;231;45;1011;1101;2467;2703;10305;12575;7587;25737];
[9768;1;3;7;1;21;31;9;55;373;779;397;1551;5139;16339;1769;10413;74059];
[9774;1;1;7;15;7;3;67;179;411;217;1219;13;1577;13463;12263;41465;83001];
[9786;1;3;7;1;21;53;7;187;395;777;391;737;47;12681;16749;26507;49415];
[9796;1;1;5;7;5;57;93;53;419;731;825;487;45;9199;20947;56067;45343];
[9820;1;3;3;9;31;41;35;133;63;293;1503;51;3111;15711;15051;1965;64951];
[9823;1;1;5;9;9;47;53;229;405;621;1795;1923;6609;6983;1695;18021;71893];
[9839;1;1;5;9;23;13;107;13;149;759;1113;1329;1747;14159;16705;61841;82955];
[9844;1;3;3;9;25;49;31;145;481;609;1847;1485;6345;7859;21231;37303;69975];
[9851;1;3;1;15;13;49;59;221;27;517;431;3961;6401;8483;10161;37453;128237];
[9853;1;1;3;1;3;55;37;111;263;735;655;2831;2219;9449;8413;49585;91355];
[9863;1;3;7;1;31;33;7;55;261;977;1215;1967;7297;14815;27009;35001;89671];
[9864;1;1;7;11;13;21;33;151;195;373;181;1631;355;7857;12555;7531;50417];
[9877;1;3;1;15;19;25;79;195;237;385;1531;2509;4371;16103;3575;62265;124251];
[9884;1;3;1;11;5;61;21;159;51;37;845;3075;8039;14269;10505;36369;73793];
[9888;1;3;5;9;11;43;67;57;271;451;989;3705;2481;10717;10861;63785;10183];
[9897;1;3;3;5;13;29;119;171;439;459;479;3173;3781;11131;6827;53925;119939];
[9915;1;3;7;3;27;21;1;167;79;305;1283;1903;5483;5727;17911;16075;97629];
[9925;1;3;1;3;23;21;29;185;227;295;915;2033;6269;2089;20785;15207;115675];
[9949;1;3;7;15;11;15;65;103;249;27;1805;2079;4797;2535;16865;61449;90923];
[9954;1;3;7;9;27;41;77;181;457;677;633;1601;8085;2431;7957;55913;38677];
[9960;1;1;5;7;11;37;3;221;79;895;1023;653;3925;12755;19729;18221;91123];
[9965;1;3;1;5;23;61;119;191;425;41;853;3497;6915;1927;5513;55303;4895];
[9978;1;3;5;3;7;35;47;243;167;821;267;2149;5797;6329;32495;51037;18313];
[9986;1;1;7;9;23;29;79;205;115;839;1217;479;1601;9681;1;35293;28731];
[9992;1;3;3;5;31;17;31;161;35;953;377;451;7985;11371;15115;60131;27033];
[9995;1;1;3;9;15;19;43;215;327;429;145;1837;725;14775;10465;7367;21271];
[10005;1;3;7;13;31;17;85;49;487;795;1679;599;3783;3195;2683;53475;38603];
[10026;1;1;1;7;19;11;71;143;443;199;1117;3445;6429;12037;13751;43609;101563];
[10031;1;3;5;7;29;63;65;87;305;721;851;2235;4987;3051;23015;1281;15755];
[10040;1;1;3;9;17;3;57;47;223;305;1409;235;4379;5779;27695;22535;9387];
[10051;1;1;3;11;25;33;75;141;155;699;85;1729;2551;7101;7739;18025;100819];
[10057;1;3;3;13;5;45;63;83;141;383;1931;3343;7397;4823;28893;41279;67805];
[10072;1;3;5;7;19;29;97;67;177;583;1783;4007;5087;805;30999;23197;117553];
[10096;1;3;5;1;25;41;33;109;511;449;653;995;5881;2163;13689;54385;97419];
[10102;1;3;3;13;25;17;49;77;497;659;783;3513;3735;3541;573;50237;99247];
[10105;1;3;1;7;17;13;37;169;19;965;289;455;6855;11233;7553;7007;57389];
[10115;1;1;7;11;5;15;11;177;75;243;453;3861;3091;4625;12489;11537;74199];
[10124;1;1;5;13;17;21;23;57;343;985;1755;3947;3899;11847;19321;62295;51265];
[10139;1;1;3;9;19;37;31;243;433;725;535;3733;33;7885;1425;41919;66507];
[10145;1;3;5;11;15;11;25;255;93;33;71;2389;1855;317;12773;13311;81927];
[10148;1;3;1;3;7;55;21;175;357;235;1679;931;2051;14213;20539;38049;122513];
[10157;1;1;5;15;5;51;127;79;297;135;1423;2783;7229;14451;27619;7299;49189];
[10158;1;1;1;3;5;13;9;209;455;483;1745;323;789;7645;26373;61659;23671];
[10163;1;1;1;9;23;63;99;91;377;275;275;3005;1563;5945;23825;33211;52753];
[10180;1;1;1;1;31;55;31;109;481;581;771;197;6155;3465;8451;25925;41159];
[10187;1;3;7;13;5;33;113;161;265;493;1723;513;5111;10177;21755;5321;58831];
[10198;1;1;7;1;21;33;117;183;89;689;1253;2215;6565;3079;16343;22427;96447];
[10208;1;1;1;5;15;61;5;139;111;463;573;1907;4615;14975;5715;51017;69827];
[10214;1;1;1;13;3;3;117;249;25;361;1177;2901;1601;11381;18981;44811;47117];
[10220;1;1;5;3;29;5;49;221;247;57;553;1889;479;15581;7035;7293;53065];
[10237;1;3;3;3;15;49;91;187;213;981;1417;211;3719;13693;17671;16691;57147];
[10238;1;1;7;9;7;17;109;185;459;769;1783;899;885;2291;30023;26315;7337];
[10241;1;1;5;11;11;31;73;191;95;25;1953;1387;1077;7547;9661;57739;76799];
[10244;1;1;7;13;23;41;69;177;407;699;1055;3653;1239;8113;12823;1803;117815];
[10251;1;1;1;15;1;55;71;133;401;593;605;2855;4569;3533;14141;65457;125655];
[10253;1;1;7;9;31;55;53;11;65;17;561;925;1561;8929;19859;57111;12777];
[10256;1;3;3;11;7;59;125;205;473;655;1429;337;6829;7551;27873;11667;39231];
[10259;1;3;3;9;13;23;25;161;443;545;1967;1895;6929;5975;17801;41769;30429];
[10266;1;3;7;13;15;1;99;43;45;451;21;639;7121;4781;2813;419;17761];
[10284;1;1;5;13;11;9;53;83;443;441;1601;3177;1913;12211;25835;1733;4793];
[10290;1;3;3;1;13;15;11;187;471;699;1751;3279;2305;15259;31541;21357;73763];
[10331;1;3;5;9;23;11;125;57;261;479;879;719;3221;2943;10593;11521;83979];
[10334;1;3;7;13;3;39;119;135;85;417;1675;971;7577;12709;20407;26105;97021];
[10350;1;1;5;11;15;63;83;141;281;663;1745;2775;5605;9127;553;7177;115969];
[10355;1;1;7;1;19;47;7;165;87;95;361;1879;6351;2861;9103;37489;24525];
[10357;1;3;3;11;9;21;51;149;375;967;1583;1427;1223;11611;7481;36619;128429];
[10367;1;1;5;1;3;31;7;217;453;565;1517;2847;6937;1197;24339;44311;66843];
[10368;1;1;5;3;3;17;127;59;3;905;531;1179;3559;5175;24627;60941;129457];
[10377;1;1;1;7;15;15;1;31;373;643;279;3831;4881;9763;17641;43219;83109];
[10388;1;3;3;9;5;21;41;71;371;201;573;1481;3631;10783;6679;1089;117347];
[10407;1;1;7;7;5;25;73;63;173;197;147;981;1491;1597;11733;14285;74021];
[10421;1;1;5;11;17;15;3;175;391;503;1745;319;791;5607;18173;37319;92025];
[10434;1;3;1;1;9;37;43;81;439;951;805;251;4625;15617;13715;62263;3827];
[10439;1;3;1;1;25;21;67;191;499;205;1355;105;1637;563;22291;9045;6545];
[10440;1;1;5;5;9;3;75;75;287;303;1767;1789;3437;4637;9605;2537;64935];
[10443;1;1;3;3;1;51;27;155;375;149;885;187;1551;13109;27011;57301;41047];
[10446;1;1;7;5;21;23;1;81;163;231;2039;1519;1279;15379;25549;6711;81499];
[10457;1;1;3;5;3;37;71;243;165;365;379;351;4649;4287;13395;30329;78383];
[10469;1;3;1;1;25;63;27;215;223;699;2029;3737;5947;7287;20813;4931;19345];
[10476;1;1;3;15;21;7;25;187;219;53;1749;1797;3533;14307;53;11095;75469];
[10479;1;1;3;13;27;31;91;121;481;291;915;535;4291;5271;12181;55921;125917];
[10481;1;3;1;1;3;29;21;251;361;747;997;2989;1809;7235;17855;31027;100689];
[10494;1;3;7;1;21;13;49;93;183;673;881;1931;7009;2565;26021;53815;19807];
[10501;1;1;7;13;9;23;47;237;487;843;1357;919;1753;903;2911;31527;73027];
[10505;1;1;1;1;25;33;97;241;421;375;73;2541;6231;14659;15335;5915;110791];
[10516;1;3;3;7;21;17;97;125;7;271;167;475;4887;1847;30173;25913;36659];
[10532;1;1;3;15;15;37;67;5;463;423;823;941;1551;14175;15377;6017;118297];
[10541;1;1;1;7;31;51;71;127;73;517;881;3205;6219;11213;14783;64275;70033];
[10547;1;3;1;5;17;17;57;107;359;999;1415;757;4743;7775;14111;20075;73269];
[10550;1;3;5;3;21;57;87;43;307;777;717;3329;4159;12545;31355;31329;41377];
[10591;1;3;7;15;25;43;19;147;487;517;977;3625;2311;14173;15167;56563;110417];
[10597;1;3;3;11;23;1;67;157;461;169;231;1977;5657;865;711;24213;76895];
[10602;1;1;7;13;5;37;51;165;331;97;431;3819;1379;12083;27521;19689;100119];
[10610;1;1;7;15;29;21;59;193;397;467;951;3037;2955;13235;20981;63865;30069];
[10619;1;3;3;5;7;49;41;143;319;71;353;2159;3043;15317;24095;12017;64393];
[10631;1;1;5;13;25;45;57;153;311;805;953;1763;5655;3961;12085;58761;76533];
[10646;1;1;3;15;29;19;71;107;203;221;1173;1597;1179;9649;21659;10463;8195];
[10655;1;1;3;9;31;29;53;151;247;577;543;459;8141;5613;12029;24199;118603];
[10665;1;3;1;5;1;55;103;23;405;5;181;3805;1103;13389;6725;48733;99639];
[10673;1;1;5;9;1;47;115;231;151;885;427;2849;361;12969;705;41711;53587];
[10674;1;1;3;11;9;3;11;231;77;775;657;2721;3431;11919;10425;29405;91561];
[10680;1;1;1;5;5;7;79;41;181;333;963;3117;7703;2259;16671;51139;27997];
[10693;1;3;7;7;13;55;59;157;377;711;1475;1509;1375;6825;13729;28613;109199];
[10700;1;3;3;3;13;11;51;1;67;609;467;2161;7693;9019;1847;27969;74863];
[10721;1;1;3;3;11;33;87;217;239;505;1451;2801;1417;695;29883;15877;99969];
[10727;1;3;3;5;3;61;9;171;57;547;2003;2335;2259;3205;5639;21721;25893];
[10746;1;3;1;3;19;15;83;69;47;897;627;2839;7123;8567;14707;13159;125139];
[10748;1;3;7;11;1;59;53;33;135;1009;1829;3011;1245;421;28909;45517;55071];
[10757;1;1;5;9;3;27;11;243;235;683;1329;3145;2141;14027;3707;5933;51965];
[10761;1;1;5;7;13;63;79;105;27;195;1657;3107;1245;1681;29619;10589;78197];
[10770;1;3;3;7;21;1;5;79;73;125;1587;3053;5977;10745;28343;39023;56201];
[10776;1;1;3;15;23;21;39;41;173;913;1267;1323;2967;1979;16763;53753;21905];
[10782;1;1;5;7;11;11;117;151;409;345;1461;1703;687;557;31651;35507;54909];
[10791;1;1;1;15;15;49;55;223;289;765;1737;1117;3717;15465;31949;55061;97091];
[10792;1;1;5;9;21;29;99;13;119;35;1461;61;5155;6785;15957;11295;52203];
[10805;1;3;5;7;23;39;73;161;465;715;153;3529;2243;13773;16573;26233;130263];
[10810;1;3;7;9;11;51;5;149;501;119;2047;3417;3955;15055;31633;473;127305];
[10832;1;1;1;9;31;57;91;119;215;11;1013;3969;1285;11521;8039;36737;86365];
[10835;1;1;5;3;7;17;9;27;59;883;541;3027;6219;1091;2453;38247;21323];
[10841;1;1;1;1;25;39;55;249;61;313;467;1763;4067;8367;32431;44463;66439];
[10842;1;3;3;1;13;3;37;209;21;653;1971;3649;6165;3789;12793;56327;60351];
[10847;1;1;7;9;31;33;21;51;313;631;515;1761;4149;2601;12481;25975;94061];
[10853;1;1;7;15;3;7;55;129;297;735;779;633;3265;11713;3893;61197;113991];
[10860;1;3;5;13;1;15;27;253;435;595;1163;2753;7399;15225;26215;59753;74933];
[10871;1;1;7;7;15;23;111;43;467;957;1687;2893;2315;2025;1475;9061;101611];
[10878;1;1;3;3;29;41;53;169;125;415;361;869;3399;8821;18193;38575;73979];
[10881;1;1;1;15;3;5;27;5;293;765;1809;1961;955;12441;10915;2363;49617];
[10888;1;1;5;15;19;11;3;91;59;323;545;1177;7967;2729;14085;3283;79859];
[10894;1;1;7;13;11;17;29;163;295;951;311;3471;1339;10719;701;32377;41685];
[10901;1;3;5;7;21;19;81;247;495;767;251;3455;6383;7221;19943;64865;33193];
[10915;1;1;7;15;23;41;63;195;311;619;211;743;889;7627;12527;15865;40103];
[10918;1;1;3;1;23;23;57;221;153;27;939;3949;411;6357;31985;939;91001];
[10922;1;3;5;15;7;5;35;135;245;921;307;823;775;4891;24575;53503;48147];
[10936;1;1;5;7;9;31;23;139;477;495;287;807;1855;8321;13963;52197;78509];
[10954;1;3;3;3;29;59;33;83;211;65;623;1269;1745;16383;10759;57199;14035];
[10968;1;3;3;15;25;55;69;171;411;937;731;2275;2597;4133;5089;50507;39989];
[10971;1;3;1;9;5;47;51;21;171;913;233;43;2673;471;27077;57039;32579];
[10973;1;3;5;3;29;35;5;105;233;379;77;1775;2409;4597;19879;12691;49739];
[10978;1;3;7;13;17;29;117;177;163;927;45;3227;7263;5551;9219;32101;122473];
[10998;1;1;7;5;31;39;75;147;311;991;1431;3821;6891;9637;17887;661;23067];
[11009;1;3;5;13;31;53;69;79;153;329;207;479;2395;6505;29553;52023;31531];
[11021;1;3;1;7;15;7;87;233;25;275;981;1207;3083;16349;30185;60611;120607];
[11029;1;1;5;3;21;7;47;173;291;965;65;545;7465;4471;2249;34281;107217];
[11030;1;1;3;11;19;53;17;243;193;297;1937;1513;4979;14867;15497;10049;9135];
[11034;1;3;1;3;25;39;29;63;231;145;247;1745;3439;8635;26687;18595;67123];
[11050;1;1;7;9;29;33;89;175;429;675;891;1739;3567;5453;30427;33671;83395];
[11063;1;3;1;5;31;25;69;237;235;307;1217;3805;153;13387;6209;14179;128725];
[11064;1;1;3;3;19;45;117;135;67;601;369;3369;5505;2049;24099;22515;96575];
[11077;1;1;1;3;3;45;29;255;327;77;1103;4067;2875;6487;5903;26625;19631];
[11078;1;3;5;1;31;63;115;7;255;855;913;1779;7001;14387;26765;51987;3191];
[11105;1;1;3;11;15;43;71;247;303;231;445;3963;3699;11851;18941;43465;63431];
[11106;1;1;3;5;31;33;93;127;267;399;653;1997;5005;14535;4813;64065;2159];
[11126;1;3;7;13;31;39;61;155;141;515;1217;161;4309;3697;22445;43599;43329];
[11129;1;3;3;3;7;51;103;147;511;971;195;3731;6629;12125;12053;34951;60059];
[11135;1;1;5;11;21;49;99;31;55;309;1805;2253;7095;15265;28445;54813;48615];
[11151;1;3;1;15;9;41;61;125;65;143;1567;3259;6757;653;31601;63127;52179];
[11159;1;1;5;3;29;5;19;197;153;447;7;1713;469;6043;1259;63641;29171];
[11165;1;3;3;7;3;41;95;245;445;15;607;565;2361;2673;21077;20153;6199];
[11176;1;1;5;1;5;59;93;127;485;663;683;635;1599;16377;31819;6539;27789];
[11179;1;3;1;3;31;3;11;215;441;1005;1815;3945;5109;5539;23935;62671;90731];
[11182;1;3;3;1;13;47;19;229;191;427;1141;2321;7105;1587;26347;63265;23377];
[11189;1;1;5;15;31;55;61;93;89;945;1203;3631;4457;15097;32019;41747;46009];
[11204;1;1;5;13;5;33;69;59;93;247;503;421;1923;9855;9825;14257;98663];
[11216;1;3;1;13;27;21;91;39;131;571;1527;2715;2061;627;19705;47165;84345];
[11232;1;1;1;7;3;3;7;251;225;959;1017;2423;6163;1549;7473;3193;104259];
[11235;1;3;3;1;5;5;115;221;505;649;1525;2459;167;1899;23939;29253;122835];
[11242;1;3;1;5;15;9;123;221;133;43;31;1211;4737;5001;20065;6369;93865];
[11250;1;1;5;11;11;5;23;29;333;133;1469;1895;5879;15599;2131;25005;96271];
[11264;1;1;3;11;25;11;19;57;397;645;1233;2433;6371;10577;15489;60709;3957];
[11273;1;3;1;1;19;3;33;131;429;835;1363;2213;3185;14385;8831;43159;32975];
[11282;1;1;5;5;23;11;127;139;213;259;897;1913;5737;1287;26617;4885;30193];
[11288;1;3;5;13;3;27;99;31;11;27;1003;2473;7055;12923;4269;41433;90637];
[11291;1;3;1;7;17;25;95;151;199;237;207;1879;2943;9845;3765;53533;111191];
[11293;1;3;1;9;19;27;5;249;85;185;1883;1401;2041;12721;20593;30993;2601];
[11318;1;3;3;9;23;1;15;133;387;779;707;2723;4485;989;27125;37295;125319];
[11321;1;1;7;3;9;41;81;151;349;941;357;3817;7123;10079;27519;107;102281];
[11329;1;1;1;1;13;5;111;167;73;85;1185;1213;333;153;13101;38087;39389];
[11336;1;3;3;15;11;41;99;231;377;539;1335;1059;5373;9611;27927;29801;85749];
[11339;1;3;1;9;19;37;125;27;15;699;1867;2711;1589;1675;32007;61339;96919];
[11342;1;3;3;3;3;27;21;159;249;783;1517;2923;2609;1207;13705;57371;43603];
[11356;1;1;5;15;17;55;77;1;401;897;987;345;5283;5827;17755;44371;13253];
[11383;1;3;1;7;3;3;99;237;487;405;771;3503;1199;4779;26893;45821;46383];
[11389;1;1;7;3;9;47;81;27;459;989;1891;3997;4081;4075;15079;65081;125185];
[11405;1;3;5;9;25;23;71;251;251;197;353;3553;2165;2953;3733;52369;100641];
[11411;1;1;1;5;25;43;63;187;495;345;1547;2293;7327;7797;14001;61865;40329];
[11423;1;1;5;15;25;37;67;23;315;801;71;1235;7293;7207;30929;9417;94735];
[11424;1;1;1;3;23;29;87;171;337;457;1597;3933;4151;1237;19563;56997;81497];
[11430;1;3;3;11;3;33;79;239;277;611;205;2283;7459;425;21999;26491;58681];
[11444;1;1;7;1;5;37;53;93;205;97;779;3623;7777;521;21915;46539;128811];
[11447;1;1;5;7;19;7;39;183;299;193;1351;3867;5709;11655;1231;15555;128023];
[11459;1;3;7;11;31;13;113;57;197;841;921;2087;2195;8279;8353;1955;22121];
[11465;1;3;3;11;21;55;61;105;357;747;363;3511;2547;16283;25747;56041;33695];
[11473;1;3;3;13;27;13;5;27;93;691;1869;2331;3131;14411;2355;37195;129273];
[11479;1;3;3;7;27;9;11;165;435;811;215;1617;347;4289;29373;15749;91445];
[11501;1;1;7;13;29;3;95;53;457;633;959;3705;7461;9307;21963;51599;6751];
[11510;1;1;1;15;29;25;95;1;125;61;683;2067;6485;9095;5571;61281;70865];
[11514;1;1;7;7;1;35;119;107;247;991;237;1865;3961;12583;11417;14913;90897];
[11522;1;3;7;15;11;51;73;193;289;381;1767;3803;3197;3797;15059;19393;98947];
[11527;1;1;5;3;13;7;91;223;347;59;1721;1501;6391;4141;14495;47283;47237];
[11533;1;3;7;11;17;39;43;247;35;423;1859;3199;5343;7061;8609;6819;88575];
[11536;1;1;5;13;31;27;57;19;499;1007;1965;795;1231;12755;24631;53343;82305];
[11548;1;1;1;9;13;23;127;161;245;467;2025;2545;3085;13035;27087;14461;35971];
[11551;1;3;5;1;7;3;99;159;75;341;1755;2337;5981;5055;19445;30043;61427];
[11552;1;1;1;7;13;33;41;73;267;21;961;3509;6839;13215;8471;46735;93071];
[11555;1;3;7;7;3;25;81;239;357;445;1483;389;3891;5131;21357;34757;111063];
[11572;1;3;7;1;1;37;119;121;195;935;1711;2049;7001;7117;9957;7309;102293];
[11587;1;1;7;11;1;49;107;95;149;329;289;1121;7217;15091;19071;13801;13];
[11601;1;1;1;13;17;17;7;105;81;1017;1867;1567;5133;7325;19797;16301;40471];
[11613;1;3;5;5;27;45;117;135;499;53;973;121;53;8771;11893;35827;57691];
[11614;1;1;1;1;7;23;11;163;17;871;129;2959;5583;12253;1419;28367;32539];
[11618;1;1;3;5;23;31;127;33;115;799;331;1873;1729;1383;23601;51145;72027];
[11624;1;1;1;9;15;49;105;163;51;539;451;3983;6509;1073;30757;13971;51371];
[11630;1;1;7;1;1;57;71;135;5;171;983;951;777;9257;3607;3239;76237];
[11663;1;1;7;7;21;17;49;175;9;807;289;2777;7309;14911;28349;43871;96019];
[11682;1;3;1;13;5;7;83;215;297;319;347;633;7285;8293;18811;31065;114077];
[11684;1;3;1;11;3;29;91;231;161;601;355;2719;2941;6065;21849;58051;46515];
[11702;1;1;3;9;25;41;111;135;71;755;29;131;1339;5053;15713;14557;106777];
[11705;1;1;7;13;21;59;13;45;503;71;1611;4021;2359;11653;7261;14537;33031];
[11713;1;1;1;11;5;31;1;181;37;527;1345;1979;4899;3289;25181;49959;44609];
[11731;1;3;3;13;21;25;33;105;57;637;841;1595;3881;5053;9441;58717;127255];
[11734;1;3;5;7;23;57;9;117;281;769;1573;2857;1139;6413;14001;21097;55215];
[11740;1;1;7;7;3;5;75;149;269;353;437;61;2451;11987;17243;5649;105107];
[11747;1;1;3;3;25;61;53;21;113;57;1415;2825;11;14977;6159;4181;96765];
[11754;1;1;7;5;15;25;121;159;71;773;601;147;6507;16171;16607;32017;77845];
[11761;1;3;1;1;27;19;59;109;347;991;165;683;6147;493;22017;19069;52857];
[11762;1;1;5;5;21;1;93;115;407;15;421;1305;3495;14287;31831;65347;35339];
[11787;1;3;5;11;29;35;87;27;453;769;1991;2757;2607;9225;293;49441;18185];
[11792;1;1;5;3;23;41;67;195;499;903;197;1121;4691;9277;29225;34597;37395];
[11814;1;1;7;7;21;7;65;245;241;909;1063;2271;1979;10287;1747;61523;72969];
[11823;1;3;1;13;23;25;3;89;385;481;1463;3431;6907;1129;3519;35789;82585];
[11825;1;3;5;3;31;17;11;209;77;991;885;3341;6895;3429;21611;38555;35475];
[11837;1;1;3;1;9;61;27;219;433;787;281;1155;2915;4449;30881;34461;15357];
[11838;1;1;3;15;27;55;51;101;117;799;1475;4013;5145;14991;27847;49537;57339];
[11846;1;3;7;13;13;9;13;167;283;883;1501;2635;1463;3353;14961;30349;62043];
[11855;1;1;7;3;3;47;119;37;389;655;701;2471;5749;6645;845;27065;82299];
[11864;1;1;7;15;27;5;95;195;227;991;1137;3715;4901;9459;1917;43857;126505];
[11876;1;3;7;5;29;35;45;165;361;257;641;1265;6533;11333;26081;12621;66909];
[11885;1;1;1;11;19;55;73;137;29;355;725;1161;6717;2035;19769;43531;72577];
[11904;1;3;7;5;19;3;99;17;387;621;137;117;6567;7667;14979;17981;68319];
[11909;1;1;5;5;7;53;31;33;245;371;691;2763;95;16369;7853;29839;34957];
[11913;1;1;3;1;9;1;83;177;17;141;1739;1791;3849;3093;22271;53755;7817];
[11916;1;3;3;1;3;51;71;69;439;987;807;3353;4747;16031;29591;61091;95675];
[11940;1;3;5;1;17;47;51;211;7;5;1751;1735;1647;13389;13861;49427;13577];
[11943;1;3;7;5;11;23;17;55;11;61;809;927;6533;1509;29261;21555;55075];
[11972;1;3;1;1;15;51;37;47;183;117;597;3225;1435;13359;19127;17339;17345];
[11981;1;1;5;3;5;11;33;179;295;129;29;713;1561;27;21087;50305;39253];
[11990;1;1;5;7;17;25;105;241;41;915;1223;2625;617;10983;10749;2137;101831];
[11993;1;3;5;7;15;15;85;23;193;625;1803;2903;1935;523;8377;12165;105851];
[12000;1;3;3;7;3;35;5;107;191;855;405;1659;5523;5011;6401;45187;31345];
[12005;1;3;3;1;9;21;103;75;501;669;547;3685;411;2663;14743;13869;124389];
[12015;1;3;5;13;15;37;39;79;19;165;1685;1367;5951;12303;13423;51083;119933];
[12020;1;1;3;1;7;25;1;221;415;591;859;1457;1789;2269;15947;31913;86397];
[12038;1;3;7;15;11;49;15;171;45;925;407;1719;4505;5695;17397;28849;77];
[12042;1;1;3;11;21;33;91;115;263;141;753;3335;7695;1981;6029;22629;2467];
[12056;1;3;5;3;25;5;21;67;429;323;223;2395;761;14817;12387;37905;19551];
[12065;1;3;1;15;31;43;35;255;73;533;1093;965;557;607;6913;35283;12261];
[12066;1;3;1;15;25;13;39;83;77;269;1205;1577;4095;6669;8643;48807;98227];
[12072;1;3;3;7;31;57;25;177;441;973;1255;675;5579;4899;27925;52555;70845];
[12080;1;3;1;5;13;47;15;75;387;461;1909;841;7;9567;913;41411;12565];
[12083;1;1;5;7;5;21;17;189;319;645;403;2723;6747;15471;26533;12709;49417];
[12090;1;1;5;7;7;41;99;179;137;435;1061;3987;4583;4101;23781;54263;36695];
[12092;1;3;1;11;19;37;125;177;111;921;1003;1433;1399;3991;28193;40471;97041];
[12103;1;1;7;1;5;33;7;139;127;413;1171;2237;265;10145;18793;28957;25037];
[12109;1;3;1;1;25;37;13;17;471;195;1645;3165;5635;8433;28507;453;107709];
[12112;1;3;3;11;1;55;119;97;243;371;95;97;7833;777;12177;1861;56323];
[12117;1;1;7;5;7;29;59;219;405;411;275;111;4899;10367;24331;57295;47065];
[12121;1;1;3;3;19;23;91;111;221;195;1013;3001;3227;6359;30383;49699;49157];
[12137;1;1;5;7;1;21;125;23;177;291;249;861;1899;14101;5079;5211;14373];
[12143;1;1;7;11;11;59;33;41;291;919;253;609;1657;14633;15189;22245;99815];
[12145;1;3;5;3;23;49;71;137;393;343;1845;343;5853;6639;17435;62143;76041];
[12148;1;1;5;3;9;27;55;193;25;965;1453;2739;3785;12497;29607;11111;25145];
[12168;1;1;1;1;29;11;111;73;491;629;405;2779;5313;589;1459;47555;67945];
[12174;1;3;1;7;13;21;99;75;79;963;207;1725;6875;8359;10573;45219;130463];
[12188;1;3;7;13;1;17;105;227;487;891;1053;1333;7651;5415;18661;22085;82055];
[12191;1;1;3;3;31;27;91;93;383;331;965;3035;4931;13265;9729;28985;118227];
[12192;1;3;1;1;11;9;59;191;253;909;301;3811;255;14937;28627;54509;95993];
[12201;1;3;3;5;11;5;105;77;323;713;637;1857;2697;12473;12261;2933;101287];
[12224;1;3;3;11;9;63;19;19;213;859;1479;2849;1067;5749;13511;14933;11125];
[12230;1;1;5;9;19;19;13;49;237;511;533;543;575;8095;27335;18847;18173];
[12239;1;3;5;5;9;53;47;157;35;827;637;2327;787;5269;5145;10135;111273];
[12242;1;3;3;7;27;41;69;173;53;655;809;481;6999;3101;20781;2481;94957];
[12251;1;1;5;11;17;23;95;201;363;613;863;1365;1131;15417;20705;8283;55235];
[12258;1;1;5;13;3;15;37;219;291;595;1665;1861;1953;15385;20569;46085;15163];
[12264;1;3;3;11;23;43;125;133;85;45;819;243;7325;8723;1499;58139;120353];
[12310;1;1;1;11;21;49;91;145;175;619;1817;3533;8155;7521;30361;45431;130175];
[12319;1;1;3;1;11;59;57;51;37;903;1221;3813;8043;14165;31503;7905;61515];
[12323;1;1;1;1;15;9;115;175;285;839;97;3119;719;15283;22947;25417;40665];
[12325;1;3;1;7;5;49;127;111;373;747;393;2351;4577;15227;23149;16901;80253];
[12332;1;1;5;3;15;5;95;197;251;275;831;1389;3907;12343;11599;24369;65361];
[12343;1;3;7;5;25;37;11;75;417;789;745;811;2189;15381;4785;41657;2897];
[12344;1;3;1;13;29;55;55;33;279;383;1645;975;4683;1357;1149;30271;90527];
[12352;1;3;5;3;5;3;79;61;371;225;141;369;1037;12249;29431;37253;9899];
[12370;1;1;3;13;13;7;127;147;507;119;1085;1949;6289;10179;10107;55989;74395];
[12388;1;3;1;7;21;35;53;209;103;365;683;553;4977;14371;24037;11453;45369];
[12395;1;1;5;11;27;39;41;145;437;55;893;2375;4977;5451;21225;46815;1423];
[12403;1;3;5;1;23;53;113;75;209;323;1975;3809;1829;14625;3821;53773;129173];
[12409;1;1;5;3;7;51;97;73;289;481;339;1375;3101;4395;13933;33267;68115];
[12410;1;3;5;1;5;45;83;57;3;667;109;3979;6447;8603;20147;49291;18023];
[12415;1;3;7;1;11;7;45;233;65;745;1009;2979;5965;10681;3499;23077;87479];
[12419;1;3;3;3;13;25;25;189;197;83;1429;2857;2877;8577;24811;33049;46009];
[12426;1;1;1;7;11;47;47;255;89;625;449;3747;2035;3509;4901;2961;14073];
[12439;1;1;1;13;9;55;35;47;389;573;847;1037;1345;5487;7575;57435;77303];
[12445;1;1;5;11;25;51;113;109;79;339;95;2049;5881;13209;20041;26419;110319];
[12459;1;1;7;1;27;15;93;145;253;917;1211;2221;1087;14209;32097;20083;67841];
[12464;1;1;3;15;13;19;67;107;75;919;2047;3675;6231;1243;14335;35939;17281];
[12474;1;3;7;5;27;47;53;239;475;231;1645;825;4039;15985;10853;32951;34985];
[12484;1;1;7;5;15;61;107;93;51;221;717;2859;7885;9571;11841;45143;33723];
[12491;1;1;7;7;9;25;63;25;47;55;2041;3965;215;14857;31669;54775;42157];
[12501;1;3;5;1;5;45;123;109;471;599;479;475;3499;11963;23709;18851;66861];
[12505;1;3;3;3;5;29;71;81;315;329;1471;3995;623;5871;11171;15645;97251];
[12508;1;1;7;11;15;15;101;173;445;871;765;1121;1937;13055;7309;54175;85559];
[12511;1;3;5;7;7;13;43;237;361;981;19;3113;4681;3313;19147;35193;87281];
[12521;1;3;5;3;27;13;37;51;233;573;1599;2807;7149;12083;28927;7797;130879];
[12522;1;1;1;13;31;63;127;89;209;717;1075;3887;1427;87;18565;39973;55025];
[12530;1;3;1;5;15;11;121;247;273;613;1857;2059;7399;13951;9025;39523;68121];
[12544;1;3;7;13;31;9;61;143;375;433;471;1315;5299;1167;10099;11445;51693];
[12547;1;1;7;9;25;31;125;5;13;595;621;3551;7959;10643;14345;37683;118377];
[12561;1;1;5;11;1;33;45;31;447;229;893;3777;4101;2505;4855;14057;20133];
[12571;1;1;1;1;7;23;89;53;483;873;521;2115;1461;11241;1003;28749;68227];
[12580;1;3;5;5;3;17;23;219;281;975;895;4043;6505;5991;27401;38791;89239];
[12597;1;1;1;7;29;41;63;151;195;495;469;305;7437;1107;31147;30755;116551];
[12607;1;3;7;3;13;25;33;193;23;135;3;513;4169;15355;2255;32167;68691];
[12609;1;3;3;11;29;19;125;177;83;361;393;663;1859;1333;17507;10661;72387];
[12610;1;1;5;11;23;13;61;33;149;145;995;649;7587;6743;25225;54997;10193];
[12616;1;1;7;13;29;51;107;79;467;881;1227;1083;3277;2559;26819;57311;48095];
[12621;1;3;1;1;1;19;23;25;239;703;119;2525;8079;5433;8989;42517;116755];
[12624;1;1;7;11;31;9;9;113;381;363;447;3751;7523;15995;3853;42069;81455];
[12639;1;1;5;9;29;41;103;179;477;527;1593;3003;1095;6823;6911;44987;32445];
[12645;1;1;7;15;5;31;55;181;149;127;1745;2753;801;285;20199;33707;118397];
[12652;1;3;7;7;11;29;89;215;351;303;1519;2593;2045;14699;1657;40799;39641];
[12655;1;1;7;13;3;35;73;111;15;803;1819;3453;3611;8337;14239;14875;83983];
[12660;1;1;5;15;15;49;27;101;149;3;717;2229;7397;6579;10965;35997;28823];
[12667;1;1;5;7;3;17;49;245;343;657;15;749;6413;10811;2909;47309;34613];
[12686;1;3;5;15;13;35;67;99;481;379;2003;3367;3065;5845;7799;43931;15263];
[12688;1;1;5;13;21;49;81;77;395;919;1931;661;123;9965;10487;55131;1567];
[12697;1;3;5;11;23;39;41;121;159;473;191;1983;6411;10503;10523;40601;64153];
[12700;1;1;5;7;9;37;73;207;497;789;1671;325;1697;11281;31185;4961;124431];
[12707;1;1;5;15;7;51;71;91;449;707;621;2427;627;1747;12779;17569;98289];
[12710;1;1;5;5;31;3;89;163;77;647;1747;2965;1669;3311;17651;8111;30739];
[12719;1;1;3;11;15;31;77;173;405;913;459;2955;6153;13391;20439;64433;12371];
[12739;1;1;3;11;13;55;29;37;379;689;407;1373;397;5027;15497;25687;48193];
[12742;1;3;3;15;13;7;81;207;395;901;779;1683;2491;3807;31979;32403;81113];
[12746;1;3;3;13;29;31;25;81;459;991;793;3285;2775;16199;11423;52597;86041];
[12754;1;3;3;13;17;17;101;183;19;735;671;1097;2461;9863;25985;31915;73047];
[12765;1;3;3;3;3;11;71;63;429;899;351;1275;3907;14241;19135;14875;43325];
[12772;1;1;7;11;11;61;15;213;411;13;1409;1741;5257;8729;28351;6381;77501];
[12784;1;1;7;7;29;27;51;217;411;261;599;3027;7871;9133;32423;44275;34701];
[12789;1;3;7;7;1;1;127;209;151;845;1421;3115;7775;10133;6163;41165;91187];
[12800;1;3;1;9;1;35;75;3;81;477;131;1383;1377;6857;3863;12583;7855];
[12805;1;3;1;3;3;11;1;167;347;317;557;3763;7175;13341;759;23275;78039];
[12809;1;3;5;11;19;53;85;139;67;757;487;919;6001;16031;24959;28013;65771];
[12815;1;1;1;1;23;9;83;55;249;305;1305;109;5559;5129;30973;19889;6691];
[12827;1;1;1;3;21;19;85;89;213;847;861;1651;6613;6001;8157;2555;98673];
[12830;1;1;1;15;25;15;125;133;177;295;549;1763;2811;4381;1079;7813;87909];
[12833;1;1;1;5;5;17;25;225;353;997;1565;2225;7265;16227;28209;9011;97193];
[12840;1;3;7;15;13;13;35;239;331;965;1547;1627;6409;7745;30899;36915;59293];
[12851;1;1;1;13;27;45;23;179;193;801;381;3783;3551;11855;11041;49911;62101];
[12868;1;1;7;3;3;31;61;5;421;939;1637;217;389;1797;32141;28817;6997];
[12871;1;3;3;5;21;31;83;65;421;577;1137;2561;2943;4171;2803;23325;92315];
[12886;1;1;3;3;27;33;75;81;477;3;1903;773;5551;10069;7285;58103;98311];
[12899;1;3;7;15;1;17;95;209;65;747;1633;581;7395;1393;21795;15735;129757];
[12923;1;3;5;3;17;3;9;131;51;693;1571;1865;8137;915;13345;35137;59005];
[12926;1;1;3;7;23;27;61;163;449;87;717;1075;4309;4887;11741;24549;96729];
[12932;1;3;7;13;21;5;3;97;191;999;1193;1215;5907;10491;2281;6455;68625];
[12935;1;1;5;7;9;9;101;5;375;137;1473;1265;5307;259;20699;25367;129393];
[12939;1;3;7;7;21;1;77;65;23;139;945;491;1069;253;12335;26861;129467];
[12942;1;1;3;9;15;33;85;225;45;311;281;1601;7325;12265;2591;51955;130681];
[12953;1;1;1;3;27;33;17;89;495;91;527;3347;7883;9481;28731;54729;15265];
[12959;1;1;3;3;9;47;115;161;299;493;1857;3597;7175;15603;11523;33837;57557];
[12960;1;3;7;3;15;47;127;195;391;869;99;429;7125;10413;5063;61845;71843];
[13002;1;3;3;1;7;31;27;69;7;83;315;2749;5693;13377;28091;13065;111029];
[13004;1;1;3;15;15;45;125;229;459;611;1167;3375;3587;81;9275;45327;39749];
[13016;1;3;7;11;9;3;43;161;221;209;51;1475;3577;13973;15285;35553;83935];
[13021;1;1;7;9;15;55;25;119;39;537;317;1331;2161;1791;19221;63459;124595];
[13035;1;1;1;11;9;7;113;187;295;67;1795;113;119;9127;32119;7719;67591];
[13038;1;3;7;13;1;53;17;19;331;711;359;2945;5847;7237;23617;17411;2203];
[13052;1;3;3;7;21;63;115;159;225;161;1255;2381;7411;95;1625;30493;56685];
[13058;1;1;5;9;13;57;5;107;195;271;677;2081;6027;11091;14171;19007;102119];
[13069;1;3;3;3;19;13;31;155;209;89;955;523;615;5319;16079;9289;49135];
[13082;1;3;1;13;1;31;69;143;329;813;635;891;2967;5563;19643;35813;14345];
[13093;1;1;5;5;17;47;97;49;123;997;15;3685;3925;4973;11195;17115;63709];
[13094;1;1;7;13;13;17;99;149;309;281;329;905;6487;4495;31831;24413;26431];
[13100;1;1;5;5;5;47;113;115;61;157;955;2323;4445;229;24049;14753;15189];
[13115;1;3;7;15;25;21;13;137;377;45;629;1339;8037;5073;24741;48589;28953];
[13125;1;3;3;9;3;41;7;101;333;59;1213;1871;3993;11261;4403;42785;58753];
[13132;1;3;1;7;5;33;87;73;317;575;1459;905;1033;14179;19595;30269;103853];
[13143;1;1;1;1;19;49;63;181;227;401;695;1811;2383;3835;14379;30685;114731];
[13144;1;1;5;15;9;41;35;91;357;659;155;3725;6509;405;25449;37719;6013];
[13153;1;1;7;3;11;59;33;151;291;393;741;3961;2787;993;10361;11737;42047];
[13160;1;3;7;3;15;15;55;59;419;203;55;801;2719;15487;13213;58473;50315];
[13165;1;3;7;13;17;21;113;111;159;163;711;1135;1133;15519;30515;55777;25025];
[13173;1;1;3;5;13;25;23;3;93;873;559;1815;3381;5311;14365;34349;17333];
[13174;1;3;5;7;15;43;85;33;23;903;1247;3279;1393;12059;19251;19389;5097];
[13187;1;3;1;11;21;59;3;153;403;95;1939;2679;419;9035;31219;2897;15727];
[13190;1;3;5;1;11;21;35;169;453;15;791;3931;1021;16321;6033;10639;16173];
[13204;1;3;1;11;7;57;39;61;381;465;451;2863;575;5597;31041;8625;82373];
[13218;1;1;3;5;13;5;63;1;75;245;1305;285;3367;10107;5853;35275;128255];
[13247;1;1;1;3;1;57;21;91;139;669;765;1867;2153;10347;26119;35517;4725];
[13250;1;3;5;1;21;41;59;247;473;1015;975;485;2161;11941;10341;35245;55587];
[13262;1;1;5;9;7;59;33;149;97;619;393;3613;6037;10895;19461;15975;47919];
[13267;1;3;3;15;7;17;95;13;147;361;915;2585;4483;3159;12255;44685;116163];
[13274;1;3;1;15;27;31;75;31;423;233;1453;2815;3633;6531;25721;29649;80645];
[13304;1;3;3;3;19;7;73;33;163;495;1483;2277;6455;6523;9331;21869;52175];
[13309;1;3;5;13;5;1;63;35;335;189;713;2997;3277;10049;4681;16753;17107];
[13315;1;3;5;9;3;55;29;171;395;585;671;1875;4449;12895;5455;11023;106189];
[13317;1;3;5;3;25;53;33;169;109;285;787;861;5549;5171;15293;2977;14559];
[13324;1;3;7;1;21;25;97;115;1;999;1033;3471;129;16093;495;16859;34615];
[13332;1;3;5;9;13;5;109;41;57;957;231;3771;2917;15649;8869;14857;64943];
[13342;1;1;7;7;21;41;101;59;167;441;997;2951;7891;16325;12669;53829;100705];
[13346;1;1;7;9;19;59;23;141;193;237;1067;1823;3351;3239;3135;9275;37069];
[13355;1;3;3;9;3;17;95;73;19;231;779;3065;2245;2967;24971;62589;16729];
[13358;1;3;3;13;25;19;117;147;443;123;157;2037;327;14715;5693;54641;33325];
[13360;1;3;1;9;21;21;21;125;49;787;767;2831;511;2461;31537;27155;44053];
[13369;1;3;7;9;31;19;125;67;119;465;287;1869;3979;15723;21069;8581;66939];
[13372;1;1;1;11;7;37;123;237;353;499;113;3829;217;4751;7385;20343;83699];
[13398;1;3;7;13;9;3;53;27;487;87;35;2645;3481;14409;27875;31695;78489];
[13404;1;3;3;13;9;43;67;51;153;83;591;1991;1787;11973;7273;34801;47199];
[13407;1;3;7;1;15;53;71;11;205;853;2011;581;1281;7819;23083;33731;74951];
[13414;1;1;5;5;17;63;109;219;225;997;1251;3287;1441;13489;22723;45191;50249];
[13426;1;1;5;3;13;1;43;53;293;685;1369;1515;7479;3233;20007;65235;102467];
[13432;1;3;5;7;29;45;63;45;219;445;2047;317;7553;325;1465;949;35163];
[13466;1;1;3;9;7;31;73;211;501;233;1495;701;5857;10763;9743;10289;23801];
[13481;1;3;7;3;23;47;99;61;179;833;1425;1275;4467;4367;5567;23513;68677];
[13490;1;1;5;5;27;33;119;229;329;51;1025;3167;3405;4039;4135;6655;43771];
[13496;1;3;7;15;5;49;91;55;425;15;2003;1571;3539;10375;29645;5889;51887];
[13504;1;1;7;3;13;55;85;91;181;723;1941;75;4443;11507;7027;14189;50685];
[13516;1;3;5;5;29;49;13;3;97;165;41;3039;3325;2161;775;38501;42381];
[13527;1;1;5;11;9;57;47;109;9;585;375;1839;937;6877;29847;60163;103081];
[13533;1;1;3;13;5;47;11;195;253;235;275;2313;163;14683;5681;13381;84553];
[13537;1;3;3;15;15;1;93;157;437;557;307;1179;6857;3101;16723;50579;69603];
[13552;1;1;5;9;11;29;23;219;337;689;1155;2007;6853;6749;20127;13199;48433];
[13561;1;1;1;13;1;61;73;213;335;539;903;2719;775;2775;29109;33367;3281];
[13567;1;3;1;5;15;31;65;231;439;623;1871;2299;5365;10333;9147;2781;63813];
[13582;1;1;3;1;1;25;23;229;173;279;181;1299;2893;15475;12473;46097;123387];
[13587;1;1;7;13;7;43;17;187;467;113;1293;2013;6091;14621;22195;24079;45379];
[13589;1;3;1;7;1;7;119;159;377;11;705;2853;3767;13739;23375;25563;73987];
[13593;1;1;3;15;21;13;111;119;401;1005;777;1699;2431;15139;27887;28415;71519];
[13596;1;1;7;9;1;49;19;171;297;77;1343;1249;5769;13889;21401;24915;17641];
[13615;1;1;7;11;31;45;51;231;123;817;13;791;6235;2787;475;1717;5071];
[13617;1;3;3;13;5;9;21;129;253;731;785;2275;7343;7841;5477;8973;101033];
[13623;1;1;7;13;23;1;119;221;293;709;2031;3019;1529;2007;10823;43193;82661];
[13641;1;3;1;11;29;29;87;79;415;679;1899;3453;7355;8627;28225;41857;106645];
[13647;1;1;5;15;9;13;21;241;491;927;999;2131;3501;11063;28595;54691;21297];
[13650;1;1;1;3;5;41;85;89;483;309;791;825;3043;2715;16573;6551;77875];
[13659;1;3;1;1;25;21;107;123;79;1019;821;1251;4943;1429;17843;37013;53285];
[13671;1;1;5;3;7;5;35;123;445;315;627;2543;1261;13737;15991;36591;18309];
[13677;1;3;3;5;25;43;65;249;309;1023;737;1933;4735;7725;12063;53023;126677];
[13678;1;3;1;9;13;37;77;61;179;275;277;1431;2869;14563;665;60553;7661];
[13680;1;3;5;3;29;1;127;73;363;311;1591;3863;6481;4725;8287;61311;39011];
[13685;1;3;1;7;13;23;115;215;385;563;1033;2343;5023;11013;12131;26997;48645];
[13689;1;1;5;13;3;59;41;155;263;507;1175;2967;7929;8237;11841;15365;51881];
[13701;1;1;3;11;19;35;89;115;121;315;1697;2121;1867;6865;23639;26525;44687];
[13706;1;3;5;15;9;5;125;183;149;447;309;1743;6089;369;16153;63799;57657];
[13720;1;1;1;7;7;39;89;139;457;741;1613;2883;5057;12495;18669;55469;97941];
[13729;1;1;5;7;29;39;97;9;481;667;1353;3387;2813;16205;8353;22121;92965];
[13735;1;3;7;9;11;55;79;159;349;717;829;3157;1457;6199;5861;2553;20387];
[13736;1;1;1;11;3;51;113;53;287;109;1717;2405;7207;4473;11145;2549;591];
[13756;1;1;3;13;3;61;31;141;217;487;299;2755;3389;10053;1105;21129;74203];
[13759;1;1;1;3;11;55;7;113;413;449;787;3279;5123;16025;15005;12175;6795];
[13761;1;3;1;1;25;23;107;191;3;3;49;1083;3275;10385;7989;53739;25505];
[13771;1;1;5;13;7;17;59;13;471;147;1627;2119;3555;15555;10333;49363;80959];
[13782;1;1;1;15;23;33;61;191;207;939;45;2781;71;9661;28433;13089;76419];
[13786;1;3;3;7;29;47;111;19;315;381;851;1303;2627;6255;30369;37723;12949];
[13798;1;1;1;13;31;43;3;193;5;99;769;2523;1949;129;9693;60535;67059];
[13810;1;1;3;15;5;33;73;149;253;985;863;1551;4369;5911;8269;35463;117055];
[13819;1;3;1;5;27;57;3;105;253;731;119;3287;613;4627;22003;56027;123005];
[13826;1;1;3;3;27;47;67;147;495;865;1233;3707;2511;2951;7367;15625;86417];
[13831;1;1;7;1;7;7;13;255;457;529;953;1481;5565;12495;4723;41615;121829];
[13837;1;3;5;11;1;51;91;153;323;609;1353;2995;4035;13835;28619;46217;4967];
[13846;1;1;5;7;25;59;81;101;185;709;1249;2285;6579;8655;17563;9707;63845];
[13856;1;3;3;9;31;25;17;19;111;627;1187;2621;6529;9457;25027;18069;47559];
[13862;1;3;7;15;7;15;103;201;391;1023;817;535;2713;1317;13469;56043;70847];
[13866;1;1;3;7;17;57;35;99;439;367;27;2695;3519;8337;14047;58489;69];
[13885;1;1;1;3;17;23;71;189;57;39;715;1779;3081;14657;21895;59203;31005];
[13891;1;1;7;13;1;47;69;159;353;517;271;973;5077;15707;11095;19671;3389];
[13893;1;1;7;13;25;55;115;21;43;939;1697;101;4751;1993;2389;28353;45251];
[13905;1;3;1;15;11;57;17;49;121;419;909;121;5047;4235;13051;21529;42097];
[13908;1;1;1;3;19;37;31;233;251;175;929;1527;7527;3605;17075;61053;56235];
[13912;1;1;1;3;9;5;117;131;251;475;1695;1381;2445;5921;14921;937;80791];
[13917;1;1;3;9;11;5;31;215;37;567;1537;2183;3291;1601;14025;48807;7243];
[13918;1;3;1;9;7;13;81;249;321;473;1419;3977;7037;14191;10865;56131;43225];
[13946;1;1;1;13;15;23;31;69;449;491;1461;729;7955;4003;16817;37273;72025];
[13948;1;1;5;13;7;41;93;169;347;1013;301;2813;1455;13187;10769;60807;46333];
[13964;1;1;5;3;23;15;1;161;29;35;415;235;93;14543;29585;29657;36489];
[13970;1;3;1;3;31;63;39;235;153;549;43;147;2317;3537;25561;58287;58725];
[13975;1;1;3;5;5;11;59;97;349;307;501;1701;4243;13717;17419;23387;29533];
[13979;1;3;1;7;7;19;33;243;67;353;2023;3111;7173;10979;28117;40175;45337];
[13997;1;1;1;5;15;59;55;135;107;543;1743;2695;3293;111;32629;8249;52273];
[14000;1;3;5;13;15;57;39;79;5;451;571;1445;1393;2125;31713;59655;20897];
[14006;1;1;3;11;29;61;1;37;173;513;1779;2649;3289;4679;2039;47587;28973];
[14020;1;1;5;5;15;19;17;143;387;359;275;625;7383;15537;10311;40005;20729];
[14023;1;1;3;9;7;23;71;179;85;447;345;3459;2857;8331;5489;62207;64933];
[14024;1;1;1;1;11;61;47;131;213;611;701;713;1269;9563;25223;50697;88679];
[14029;1;1;5;15;21;5;77;59;455;243;459;2809;13;9325;32047;3939;48389];
[14035;1;3;7;1;21;53;111;225;407;119;713;3635;1539;15321;29827;36069;74483];
[14044;1;1;5;13;7;45;75;43;191;715;169;759;33;11329;1069;36103;28055];
[14047;1;3;7;5;7;13;7;35;27;391;517;1439;5699;1067;23857;7293;66167];
[14058;1;1;7;11;3;31;1;83;299;345;65;669;1529;7569;28959;50561;69493];
[14066;1;3;1;5;25;25;43;149;83;225;1589;1691;7777;773;10421;49523;23533];
[14075;1;1;5;11;25;29;81;11;497;43;951;2551;821;13805;12315;61299;81397];
[14080;1;3;1;9;29;23;109;123;235;255;1519;3289;7761;14575;11851;1719;51655];
[14095;1;3;5;15;21;49;13;43;87;517;687;1457;1501;15959;31907;13771;69379];
[14100;1;1;5;3;21;11;87;9;343;317;845;1663;7933;14063;24915;31487;17445];
[14114;1;1;3;13;21;31;87;99;185;333;993;3899;971;2851;23643;195;66957];
[14116;1;1;1;15;19;47;23;1;67;57;165;3903;421;10561;11621;13815;10349];
[14123;1;3;5;11;9;19;73;17;229;913;459;3809;2667;9775;3693;52945;90837];
[14134;1;1;5;15;3;25;109;131;507;637;1615;859;6785;14891;24801;39095;79557];
[14143;1;1;5;7;1;51;71;251;19;799;835;1119;2349;15083;16509;55621;123501];
[14151;1;3;5;9;13;39;127;1;233;37;735;3307;5163;4529;5961;12893;103641];
[14160;1;1;7;5;23;15;49;123;511;201;2025;289;3847;15755;24279;52543;42017];
[14163;1;1;5;3;9;61;19;37;3;361;1065;2971;2517;1259;27359;3823;60181];
[14179;1;3;1;7;15;17;57;249;57;979;147;2407;2579;3159;8467;8433;72873];
[14181;1;1;3;1;25;7;47;117;449;321;143;3867;165;7961;27597;10033;2437];
[14193;1;3;5;13;19;49;1;83;477;549;509;2911;1559;14017;10469;62171;82829];
[14209;1;3;3;7;27;21;15;63;31;45;1223;3903;5469;11983;29627;27453;32019];
[14210;1;1;7;7;9;9;7;77;349;467;61;3465;6921;15761;15179;38649;2469];
[14224;1;3;1;13;9;59;55;67;271;617;643;4071;7963;8153;5121;43917;26219];
[14245;1;1;3;7;29;21;63;103;327;623;931;1511;3125;229;28949;61315;72667];
[14249;1;3;7;1;19;37;49;63;403;885;161;121;1447;9227;15019;50049;26939];
[14255;1;3;3;3;23;57;95;79;485;173;93;835;7161;11247;3485;5759;36393];
[14267;1;3;7;13;23;33;5;97;235;531;313;2925;2223;847;18591;15477;3129];
[14270;1;1;3;13;25;25;101;183;477;947;1251;2631;7987;13417;23759;55305;123817];
[14277;1;1;5;9;27;63;49;137;179;861;33;2375;3827;6485;19689;7867;124429];
[14305;1;3;7;3;15;43;63;103;45;947;1837;833;7055;7487;19669;12045;78377];
[14308;1;3;5;3;29;35;57;19;471;985;1147;741;5403;10057;25375;50889;82719];
[14312;1;3;3;1;17;19;111;13;121;821;1831;4043;123;9529;1511;10917;105961];
[14325;1;1;3;11;1;43;23;75;345;9;1379;2157;5887;1197;14849;17103;91925];
[14332;1;1;3;3;19;11;1;179;343;1023;1801;915;255;519;5787;32913;43471];
[14345;1;3;5;5;3;3;3;211;461;55;851;3165;2903;15077;8537;2037;109057];
[14354;1;1;7;15;7;7;43;249;27;511;1369;735;6093;12575;26675;21745;117053];
[14372;1;1;5;7;21;53;45;83;415;645;325;4027;5181;8485;1917;55623;45203];
[14387;1;1;3;15;7;1;121;221;387;403;1877;1671;2113;2379;5667;39867;8079];
[14390;1;1;1;7;5;29;35;77;197;661;1859;2539;4045;13497;305;44987;31215];
[14402;1;1;5;5;13;37;13;85;287;347;579;2283;7911;5463;21141;9035;105067];
[14408;1;1;1;9;17;17;63;97;57;629;1917;1133;779;12365;17127;52549;18755];
[14413;1;1;7;11;7;17;65;137;485;841;653;2921;4935;16273;23333;7399;43129];
[14431;1;3;1;11;31;55;93;225;319;35;947;1909;7733;8303;20739;55713;6633];
[14438;1;1;1;3;11;25;1;165;305;275;607;3845;5203;1989;13803;597;39751];
[14447;1;1;5;11;31;43;83;237;453;59;457;741;411;15895;18891;30133;66767];
[14455;1;3;5;11;3;23;65;81;299;527;1057;2731;3839;6023;28887;64929;41405];
[14461;1;3;1;1;3;5;11;169;123;957;1495;1717;4079;13239;28339;33677;30591];
[14466;1;1;7;15;3;1;37;245;169;273;2039;415;6555;13131;11181;62179;36885];
[14480;1;1;3;11;1;55;19;19;425;113;1367;2101;5581;985;2475;53983;68999];
[14490;1;1;5;9;5;33;101;193;303;579;1265;2791;479;12083;17609;31801;113089];
[14492;1;1;3;3;17;61;59;249;81;821;1;431;5327;8675;23469;15349;67711];
[14508;1;1;7;9;31;51;89;19;469;843;561;559;4823;7803;31699;44537;56835];
[14513;1;3;7;9;11;57;27;43;469;655;433;3081;6719;6651;30823;61503;110711];
[14516;1;3;5;11;9;53;25;147;61;533;1369;879;7935;13829;26655;17327;52983];
[14519;1;3;7;11;15;27;97;175;435;53;75;807;549;5277;1831;19421;55669];
[14525;1;1;7;15;23;5;99;133;485;587;65;2585;7667;2783;19437;52769;1587];
[14534;1;1;7;7;13;39;111;165;489;355;1963;333;2993;5233;9173;18951;93737];
[14537;1;1;5;7;1;29;67;135;427;91;53;3109;3745;9529;17567;42361;84577];
[14543;1;3;5;1;31;35;59;181;87;345;1975;781;603;16365;19453;9933;112739];
[14545;1;3;3;1;31;41;127;35;263;403;1811;383;1523;8477;5973;41569;99309];
[14552;1;3;7;7;5;25;11;201;231;679;519;2481;7415;12397;21265;49419;13903];
[14562;1;1;7;5;1;11;63;221;327;509;419;871;7891;11835;11099;10669;43853];
[14571;1;1;5;11;19;11;37;105;265;513;1013;707;6083;14571;17573;7645;5363];
[14574;1;1;1;13;19;19;67;93;113;509;1013;4037;1939;7015;24487;57183;123463];
[14582;1;1;1;1;21;17;95;25;261;1005;685;691;4467;14723;24043;32287;19651];
[14611;1;3;1;15;15;15;57;191;27;719;229;1977;241;9021;21335;30967;81207];
[14614;1;3;1;9;23;61;103;67;361;925;811;1007;5707;11479;5907;3897;65141];
[14620;1;3;5;9;17;61;11;15;351;715;939;2141;4857;8397;9693;26845;120007];
[14633;1;3;1;5;19;55;99;19;291;309;287;1969;4341;7579;30909;37277;54927];
[14641;1;3;7;3;19;29;43;163;367;753;1733;1463;7927;10671;16817;41229;113887];
[14648;1;3;7;1;11;51;39;207;283;73;1423;2473;7593;3581;30179;6369;112217];
[14671;1;1;3;15;15;25;43;5;271;611;959;537;303;3659;18073;8147;81531];
[14674;1;3;7;1;27;55;77;11;367;209;1967;3409;935;5309;18857;46225;8367];
[14689;1;1;5;11;11;63;75;73;43;869;2021;3285;269;9113;32699;2091;17327];
[14690;1;1;5;11;9;25;31;245;109;805;1645;3607;817;9571;12767;65441;129977];
[14692;1;3;7;5;11;61;67;223;433;387;935;1615;7915;6133;24087;55323;100619];
[14699;1;1;1;15;25;61;7;39;311;353;183;33;2591;4951;31377;9081;9707];
[14710;1;1;3;3;1;9;65;229;185;47;1255;1365;2231;6843;26927;27195;60651];
[14719;1;1;7;5;7;25;91;133;159;737;1767;3117;7321;6159;3361;27793;33473];
[14730;1;3;7;3;11;7;5;125;369;951;1277;65;7703;1817;11773;25657;67045];
[14732;1;1;3;9;21;27;21;41;131;605;1;119;1553;1361;31973;43135;119321];
[14743;1;3;7;1;25;63;55;173;323;403;1401;1367;3455;15335;13045;20759;8309];
[14744;1;1;3;5;3;61;59;7;39;439;721;2829;3035;2293;32015;28509;104831];
[14750;1;3;5;1;29;35;71;87;351;917;1661;547;4501;7107;5493;17833;130729];
[14759;1;1;5;5;7;5;69;57;319;595;1749;3789;1437;6327;24089;7387;125109];
[14763;1;3;5;9;15;53;95;59;217;37;1561;401;5259;4361;1049;3437;30559];
[14768;1;3;7;13;15;15;107;167;475;157;1565;2219;1891;1433;11829;43433;48111];
[14773;1;1;1;3;11;41;25;211;243;355;1831;2093;2747;2523;9885;9503;120089];
[14777;1;3;7;5;11;3;1;231;243;541;341;887;3567;14759;26763;35705;29417];
[14786;1;1;7;13;17;35;117;177;81;361;1425;2437;6821;1061;15019;19135;106007];
[14795;1;3;3;11;19;5;39;23;367;9;879;3583;2527;14375;28359;27393;55041];
[14800;1;1;7;11;9;41;63;125;33;337;587;3939;2635;4559;1007;38991;35651];
[14812;1;1;3;1;19;11;83;13;227;649;415;1661;3285;55;3683;22319;2127];
[14816;1;3;7;13;19;49;113;129;83;5;19;1095;6561;11049;3805;11355;84265];
[14836;1;3;1;9;19;41;111;193;429;319;67;1717;1819;12959;31449;21035;113161];
[14840;1;1;5;11;19;19;115;237;145;681;1525;2215;7915;15529;7533;45981;85461];
[14856;1;1;1;1;25;3;73;207;15;69;43;1643;7707;12505;27101;40735;6091];
[14859;1;1;5;11;21;61;119;7;37;147;1379;3165;6555;3867;24027;45161;93015];
[14870;1;1;3;9;9;25;51;125;511;209;75;2849;2299;2901;25157;13079;67733];
[14873;1;3;7;9;31;49;99;21;89;1;1391;1741;2733;7283;12087;9287;39713];
[14879;1;1;5;5;1;5;89;109;499;343;431;401;2023;5541;16615;40059;119195];
[14880;1;3;5;15;27;27;9;159;395;31;865;2793;55;10961;23123;63731;54385];
[14889;1;3;7;1;11;47;123;239;399;383;1497;4075;4659;2911;2101;8295;115717];
[14892;1;1;3;1;11;63;125;171;65;15;349;753;2981;6713;6219;14093;78797];
[14895;1;1;1;13;9;15;1;113;221;867;1907;103;1411;27;22743;377;116907];
[14900;1;3;1;5;27;5;27;245;221;575;2009;1561;4263;11843;28331;12865;10483];
[14903;1;3;7;9;1;51;119;241;439;913;1191;2343;2055;10247;18283;40175;63321];
[14910;1;1;3;15;21;59;45;151;485;293;981;3523;7689;2789;5003;62383;126221];
[14912;1;1;1;1;13;15;39;201;405;513;1721;2077;5995;2433;20421;12695;20393];
[14942;1;3;5;15;11;35;113;133;187;583;577;291;7563;12959;9383;44255;81763];
[14948;1;3;7;15;9;55;57;227;189;595;1311;1131;1323;11347;12777;50963;13827];
[14957;1;3;5;3;11;49;77;157;107;959;761;1457;7121;3027;9269;26291;125261];
[14963;1;1;5;9;23;53;125;211;303;433;1103;41;2643;5325;11885;23825;80415];
[14975;1;1;7;1;29;25;51;107;209;165;707;1855;7429;1583;5941;47509;90105];
[14985;1;1;3;3;1;15;121;165;181;259;1949;3049;3545;3093;5967;49207;37129];
[14993;1;1;5;13;9;59;93;87;57;343;389;1995;4001;11495;12909;13491;61759];
[15003;1;3;1;5;11;27;27;133;459;733;1845;1795;4613;3397;12313;52839;129583];
[15010;1;3;5;3;19;1;7;145;255;337;1649;1473;4113;4425;12233;55477;69157];
[15022;1;1;3;1;25;27;93;59;415;437;25;1565;319;8981;2453;53579;45033];
[15039;1;3;7;1;27;49;47;233;341;101;2017;2827;8085;237;6363;61139;88903];
[15041;1;1;1;5;23;47;65;251;423;957;1751;3541;5405;1335;22703;12587;60201];
[15047;1;1;3;3;5;51;85;195;423;519;1797;3821;5915;12257;5377;62733;41197];
[15048;1;3;7;15;3;47;97;1;5;175;1449;1609;6873;12017;5579;2665;58389];
[15056;1;3;3;15;19;37;35;29;79;767;21;1279;1997;11611;14381;35607;127701];
[15066;1;3;7;7;7;43;47;33;69;155;703;1373;1589;6997;8627;50647;16989];
[15068;1;3;1;5;13;33;69;133;399;361;1633;321;2077;8857;13419;23227;40003];
[15075;1;1;1;15;15;9;45;181;427;1005;341;1697;6423;5727;7163;10401;38957];
[15077;1;1;7;1;17;5;17;95;279;171;825;2459;5243;10683;1849;32809;8995];
[15082;1;3;5;15;27;47;103;69;69;255;961;2173;5297;5987;5863;14311;117569];
[15096;1;1;1;11;21;27;61;239;183;1013;1955;3171;4183;965;14885;49605;87851];
[15102;1;1;7;9;9;53;99;211;267;803;1545;4011;7613;13889;28277;6817;26515];
[15116;1;1;3;9;1;19;33;227;461;679;499;1069;837;12129;20779;12937;104367];
[15122;1;3;3;15;7;3;29;245;179;1015;1651;3753;4185;15357;17379;52835;51953];
[15127;1;3;3;3;3;25;95;239;263;427;1749;183;5251;361;32549;24331;30789];
[15133;1;1;7;1;5;3;79;9;403;195;1433;385;8105;7893;16415;23253;127837];
[15137;1;3;7;3;23;45;115;27;473;241;361;1787;4247;13451;5627;32923;29375];
[15138;1;3;7;1;5;55;43;37;481;899;51;2459;5005;12365;19261;32797;45843];
[15149;1;3;7;5;9;41;83;163;241;899;567;231;4897;15175;10329;6625;95927];
[15152;1;3;1;1;7;51;61;55;253;315;1893;2635;4061;257;14147;36639;24893];
[15155;1;1;5;1;13;63;115;119;205;309;277;2191;341;4715;13111;58043;51241];
[15158;1;3;1;15;17;23;89;121;205;15;295;667;421;14071;27719;1335;9887];
[15187;1;3;5;5;17;49;5;93;251;613;1029;945;1547;10479;20183;26787;120441];
[15189;1;3;3;15;17;11;63;97;499;313;881;2233;4287;5141;13841;40725;49285];
[15190;1;3;3;11;19;33;105;203;325;337;353;1923;7157;8623;23881;4513;71495];
[15196;1;1;5;1;3;15;119;43;85;869;1597;2433;845;5065;12813;64849;58491];
[15199;1;3;7;7;25;63;119;93;303;665;571;1795;5853;13527;12715;36483;57723];
[15205;1;3;7;13;19;43;55;85;189;627;1457;3185;3491;1913;13399;30681;69015];
[15212;1;3;5;9;5;41;51;65;147;425;569;1317;1557;7631;17243;37847;51161];
[15236;1;1;3;7;29;39;61;127;489;89;749;2073;195;14367;13533;27403;16365];
[15243;1;3;7;15;13;35;45;157;373;415;725;779;3559;7489;11369;36501;60761];
[15246;1;3;1;3;13;45;25;215;385;709;499;3861;761;15597;3335;37013;13173];
[15260;1;1;7;1;13;49;89;135;175;1015;67;957;4893;9843;13027;14709;59721];
[15267;1;3;3;11;19;37;109;143;135;535;1543;3991;189;6739;28087;18845;41819];
[15274;1;1;7;5;1;7;11;5;211;251;1593;2527;3539;10471;25595;60119;89213];
[15279;1;1;5;7;13;51;121;167;299;403;977;521;279;15521;15901;935;14065];
[15281;1;1;7;13;7;21;27;205;377;801;1365;1567;6651;139;14229;30827;50429];
[15282;1;1;1;1;17;11;75;87;217;413;1923;1765;2037;14061;12433;30671;24883];
[15284;1;1;5;13;17;51;91;241;95;505;349;2689;1117;4435;1713;44501;125619];
[15291;1;1;3;15;11;21;25;59;511;353;799;91;4517;16005;17061;21841;46311];
[15293;1;1;1;5;19;53;109;177;213;373;761;453;5753;69;3503;49411;111105];
[15302;1;3;1;5;21;27;103;167;109;55;1849;3999;7801;4185;9789;7515;124983];
[15319;1;3;7;7;25;9;65;127;141;169;1079;3377;691;5119;6629;3517;28963];
[15329;1;1;3;11;15;61;127;35;87;891;1459;483;6763;16173;5633;6939;63411];
[15336;1;3;5;3;7;63;111;85;415;273;1705;4045;5551;2377;29025;16831;90203];
[15347;1;3;5;13;7;23;103;227;477;985;1059;1489;7233;1917;10409;38759;86761];
[15353;1;3;5;7;31;33;75;41;355;577;225;5;897;15653;27415;83;14911];
[15361;1;3;5;5;23;13;5;43;165;53;149;2005;4545;477;17885;21343;35751];
[15371;1;3;3;3;25;51;33;203;291;835;241;3255;3709;3573;9859;33027;122801];
[15397;1;3;5;7;13;7;3;141;455;67;2003;3411;4717;157;29491;14429;44849];
[15404;1;1;1;11;3;33;101;93;219;371;1191;1521;1663;8485;24815;38283;120867];
[15407;1;1;3;9;25;61;71;173;69;181;1525;2129;2979;19;13489;627;72619];
[15421;1;3;1;7;25;33;39;247;221;7;683;1837;8037;9125;4259;63049;63021];
[15433;1;3;3;9;17;15;9;189;357;707;521;711;8189;12945;29675;11851;126813];
[15441;1;3;1;1;23;3;57;133;245;301;957;239;3139;7949;27133;18229;93015];
[15442;1;1;3;1;29;23;35;87;231;257;1997;271;3019;3409;10613;42245;111309];
[15463;1;1;3;3;1;21;17;37;393;943;791;3101;6715;11907;25369;9061;75381];
[15472;1;1;7;7;17;31;25;7;183;819;1265;3343;6845;2039;3779;41861;38309];
[15478;1;1;1;5;17;25;1;41;173;995;863;3515;1779;2159;28223;64661;40697];
[15488;1;1;3;15;29;49;81;241;511;817;1301;3593;6759;7483;8859;30339;106137];
[15493;1;3;1;11;17;61;95;231;3;693;37;1091;3111;11941;17475;8073;62373];
[15498;1;1;1;3;7;25;93;7;291;957;859;2519;241;10963;10403;933;50599];
[15511;1;1;7;1;7;33;121;91;369;333;229;4073;6063;6491;31711;65061;107843];
[15521;1;1;5;15;17;1;117;195;445;547;867;2893;4835;6513;29091;60367;33409];
[15534;1;3;3;7;15;5;125;131;165;127;207;853;5927;3605;17083;44481;111333];
[15539;1;1;1;9;3;43;75;191;319;889;1513;3301;1535;4693;10367;12491;43175];
[15541;1;3;5;5;29;19;75;221;393;977;1373;1571;7377;1763;18073;11381;101241];
[15560;1;3;1;15;3;15;73;91;165;213;1077;1267;2411;15807;3979;12731;86597];
[15563;1;1;3;7;3;21;5;135;95;337;1853;1675;2449;12535;18505;60127;76949];
[15574;1;1;7;3;15;11;63;127;329;169;1569;675;4801;5859;3243;25811;77841];
[15578;1;1;1;9;19;13;73;119;105;537;951;1033;5303;5775;815;19277;57607];
[15584;1;3;5;5;23;21;91;231;117;1007;1603;841;2595;11223;17171;25963;17049];
[15593;1;1;5;11;15;43;7;229;55;129;599;993;563;15677;16703;36253;17847];
[15604;1;3;1;9;25;3;109;21;87;721;1927;3219;3395;3267;9117;13591;89267];
[15614;1;1;1;15;11;17;47;49;125;925;333;945;2411;10907;12021;47857;84303];
[15619;1;1;1;1;23;11;99;215;105;417;823;1289;421;12285;17711;35389;1935];
[15622;1;1;1;15;27;7;23;141;7;929;147;681;5473;4173;28645;42053;83573];
[15633;1;1;1;11;5;61;71;65;287;697;1183;3257;7251;14011;21349;42445;4701];
[15639;1;3;5;9;5;23;45;217;369;189;1495;107;425;10467;4909;64293;17885];
[15646;1;1;3;11;21;45;75;65;57;893;783;3429;409;13617;483;62489;2919];
[15673;1;1;7;3;5;61;51;255;501;839;367;1165;7055;8139;23891;18807;20739];
[15674;1;1;3;7;23;15;97;139;323;463;921;1529;6655;8697;23577;56761;62023];
[15684;1;1;5;11;13;11;57;225;277;713;1427;95;1135;7721;30731;32625;107891];
[15691;1;1;5;7;23;35;39;91;291;609;919;3325;6843;7659;5603;37471;41495];
[15694;1;1;1;1;25;11;117;15;389;589;1345;423;6531;9903;20243;9523;22991];
[15696;1;3;5;15;29;7;57;113;387;883;1141;3295;2973;4129;16973;33429;109997];
[15701;1;3;5;3;25;1;73;207;353;203;1479;985;6373;3079;28403;63675;21787];
[15705;1;3;1;5;31;39;107;197;359;45;203;559;4721;6579;11305;12957;10061];
[15715;1;3;7;15;9;3;55;153;373;981;575;827;4757;15743;14295;43875;17847];
[15729;1;3;5;1;17;1;93;87;207;997;1695;3643;6973;9507;29309;58531;6849];
[15730;1;3;1;11;3;39;17;241;83;931;39;3839;6437;5159;28869;61859;96873];
[15741;1;1;5;13;29;43;71;159;261;563;695;1205;2273;8077;12569;17187;54369];
[15745;1;3;7;5;11;57;17;31;311;1001;1419;3899;6679;15531;28877;28221;105413];
[15748;1;3;3;13;23;29;127;19;345;1003;1571;2219;3199;9903;18701;31865;108879];
[15757;1;3;7;13;23;51;95;43;35;439;25;323;2365;12407;27525;57795;74495];
[15765;1;1;1;1;17;43;57;185;439;929;69;813;6205;3139;3853;56967;19073];
[15766;1;3;7;1;27;5;43;211;395;113;1675;1505;6171;5169;9991;21641;27101];
[15775;1;3;3;1;17;41;59;131;131;339;955;1145;5301;4585;20441;43227;23123];
[15776;1;1;7;9;9;55;61;31;71;229;963;3247;4677;9595;21715;36391;86997];
[15779;1;1;7;5;9;17;55;179;27;229;79;1335;5887;1003;22085;34377;51367];
[15786;1;1;1;5;11;45;15;219;411;27;1003;1553;303;13571;13985;6801;52407];
[15788;1;3;3;7;7;55;111;255;453;409;1863;1449;4103;8725;26923;5017;43657];
[15813;1;1;1;15;23;3;95;57;29;727;1111;3309;1089;471;16099;11517;51563];
[15814;1;3;1;15;17;57;83;163;251;987;1159;2079;3463;13109;7443;8665;123397];
[15842;1;1;7;1;27;13;35;209;471;843;1029;1383;5413;2085;13431;26557;47033];
[15851;1;3;1;1;21;21;83;135;303;27;1407;1751;331;9207;31891;59287;120687];
[15862;1;1;1;9;11;35;103;157;1;855;175;3203;4381;3113;27589;4567;31897];
[15875;1;1;3;5;21;5;123;161;301;101;909;947;6893;15459;29139;49377;94901];
[15878;1;3;7;7;21;27;5;69;427;409;1389;3737;847;2775;603;1001;87651];
[15889;1;1;3;5;1;57;109;89;99;593;581;3527;1557;4971;27523;26909;35787];
[15896;1;1;7;3;31;19;83;65;239;919;15;2289;4117;9127;6033;49667;89343];
[15901;1;3;7;7;9;31;87;117;195;681;1711;1753;2221;10053;1985;6273;21801];
[15908;1;3;1;7;21;61;53;231;309;115;1729;3883;6085;4825;31455;50097;59779];
[15911;1;1;1;9;29;25;45;91;145;927;147;371;2603;12537;17267;59895;128009];
[15915;1;1;1;1;15;41;63;43;167;215;15;3387;1811;12391;25721;6961;13701];
[15938;1;1;7;1;27;63;25;85;337;799;87;2237;4085;14529;11493;60149;86399];
[15944;1;3;1;11;1;41;103;145;279;805;1201;823;5411;4227;25999;14373;36295];
[15950;1;1;7;3;27;51;83;105;155;657;1879;3869;2559;2939;19785;47167;34503];
[15955;1;3;1;5;3;31;47;241;257;15;983;4095;3745;3901;1639;5421;81585];
[15974;1;3;3;5;31;13;127;125;175;577;1103;3573;6229;13969;6267;19067;3933];
[15978;1;1;7;1;31;17;15;15;411;553;1929;3731;1955;11749;21991;39189;124427];
[15980;1;3;5;5;19;63;93;201;491;599;1093;767;3411;13087;23569;42981;35757];
[15983;1;1;1;15;27;7;51;101;429;939;111;781;2055;14227;17821;42097;32485];
[15991;1;3;7;13;11;21;3;161;353;389;285;2633;6245;7089;21907;40765;88869];
[16004;1;1;5;9;7;27;101;203;243;897;1375;1619;5275;12935;22103;38005;65603];
[16011;1;1;5;9;13;25;15;21;447;7;947;1613;5055;129;18057;58551;6603];
[16016;1;3;7;15;17;41;11;55;103;339;349;1813;7423;11837;20641;51951;61615];
[16019;1;3;3;15;21;59;113;3;123;689;465;3039;4109;3241;30317;65053;117845];
[16025;1;3;3;1;31;33;73;155;245;401;473;51;1387;489;10573;55401;106733];
[16041;1;3;3;1;31;37;15;139;127;201;229;1753;7287;9045;18321;63485;26399];
[16064;1;3;5;5;5;23;93;3;125;715;1827;419;1213;9031;25139;20771;41345];
[16067;1;3;5;15;23;15;13;145;105;477;1131;2699;1929;10447;9655;26791;80101];
[16074;1;1;1;13;1;35;75;73;269;851;737;1909;6805;11359;28991;52435;83767];
[16082;1;1;7;5;11;31;31;91;111;161;1865;2545;133;12215;8957;20671;92975];
[16103;1;1;7;5;25;53;55;121;53;457;831;2493;339;10955;30783;9095;97921];
[16109;1;1;5;3;25;33;81;51;211;737;1865;4039;6931;8473;22459;24885;96355];
[16122;1;3;7;13;23;5;101;171;65;793;443;411;7629;14791;28633;9055;123763];
[16149;1;3;3;1;11;7;99;79;461;481;1689;3777;2125;4783;13061;19537;68109];
[16170;1;1;3;11;31;53;109;7;49;925;1017;2371;1537;13557;75;40677;49181];
[16175;1;3;3;3;9;1;95;113;189;389;377;393;6523;3183;6461;30201;66549];
[16178;1;1;7;15;13;19;41;171;475;157;949;3245;5581;2783;25263;53023;11155];
[16189;1;3;5;7;29;63;61;65;315;595;905;899;5059;4243;27287;14023;64213];
[16202;1;3;1;3;15;37;109;161;9;867;1023;2513;4593;7747;1505;4801;127091];
[16204;1;3;1;7;11;59;75;129;469;695;63;2757;6357;8675;6193;23439;66445];
[16222;1;1;3;13;17;9;47;91;161;265;139;129;6707;9659;8917;54757;77835];
[16231;1;1;3;13;19;37;113;255;99;913;1445;487;337;1001;16395;37141;66595];
[16238;1;1;1;15;3;63;69;43;185;293;1137;2061;2377;8741;26817;5833;7807];
[16262;1;1;1;5;3;29;39;33;263;355;597;539;5055;13075;8977;19829;88171];
[16265;1;3;7;9;17;49;125;101;447;597;1337;559;2807;7925;12421;17427;34815];
[16276;1;3;1;9;11;57;31;163;503;925;911;3721;2515;8429;25749;55209;90105];
[16285;1;3;5;3;21;57;119;233;319;745;563;3057;2683;7063;11513;49157;64561];
[16313;1;1;3;9;15;21;93;99;227;479;965;51;6941;9887;32409;23171;98387];
[16314;1;3;5;5;19;1;47;49;233;931;971;2369;2827;1291;18653;725;19791];
[16321;1;1;5;15;3;7;71;251;341;861;1203;793;7627;10929;10717;10677;49743];
[16327;1;3;1;7;3;43;9;187;247;621;1069;2875;1525;4221;18813;35807;117609];
[16333;1;3;3;3;29;39;83;201;205;337;231;547;2893;2483;6197;26869;18921];
[16334;1;1;7;3;23;29;33;137;491;691;979;65;5711;11685;5137;37993;37075];
[16364;1;3;3;1;11;3;99;119;203;901;1887;879;7547;4613;31233;13279;105089];
[16369;1;1;1;13;25;23;111;167;313;141;127;1223;5711;4101;10977;34695;128303];
[16370;1;1;7;15;5;3;89;151;289;769;539;2883;8121;15403;22345;63765;117015];
[16375;1;1;1;13;15;9;71;95;37;705;1575;3735;7445;2027;27523;53321;106085];
[16376;1;3;5;7;5;29;7;25;181;491;1173;1947;3321;9233;17265;26999;97783];
[16379;1;1;3;15;1;63;111;113;279;123;345;1529;2725;8643;8551;30073;26689];
[16393;1;3;7;7;5;55;117;211;293;851;1491;3265;4009;14949;10297;16219;69983];
[16402;1;1;3;11;23;45;35;91;97;191;417;3545;1733;3955;10763;10229;75027];
[16408;1;1;3;13;3;61;69;205;379;627;295;3979;85;11305;2493;35583;3133];
[16418;1;3;5;9;5;63;67;201;351;367;1009;739;5409;8715;28939;31511;34599];
[16438;1;1;1;5;3;25;21;25;477;301;623;157;563;9457;24515;30135;107165];
[16441;1;1;3;15;5;41;49;171;469;427;857;2165;1437;2151;24061;63243;105331];
[16447;1;3;5;11;21;25;59;167;29;653;1503;2223;3889;4605;28381;36075;74907];
[16450;1;3;7;7;17;55;73;127;33;319;1565;2761;6473;2187;19939;56687;112137];
[16455;1;1;1;9;7;53;105;3;299;15;1009;607;6885;12875;20719;16841;70471];
[16459;1;3;5;9;7;33;23;163;279;739;1541;3017;2309;11827;3875;44337;82063];
[16483;1;1;1;5;19;53;109;193;331;339;477;4093;5177;13527;25731;64137;81411];
[16490;1;3;7;13;15;63;101;145;127;13;1431;3581;4993;14287;12125;60217;102563];
[16492;1;3;1;7;17;27;127;81;223;763;761;2061;1031;12251;14141;23587;124813];
[16495;1;3;5;13;27;21;9;249;285;875;65;4075;6749;13417;3079;29343;87075];
[16523;1;3;5;13;1;31;61;21;169;145;1681;1229;5059;13555;21373;35597;70669];
[16528;1;3;7;15;23;31;43;237;139;9;1905;3197;801;14205;13323;18717;88523];
[16543;1;1;1;11;1;7;21;83;15;459;537;4029;6973;4019;1;35147;16329];
[16553;1;3;7;15;23;11;17;101;235;683;913;3529;4363;13899;3603;27741;74143];
[16562;1;1;7;7;3;3;91;107;499;723;315;2805;5909;11041;18281;54981;76041];
[16564;1;3;7;9;15;7;93;171;275;647;655;3565;2199;14795;21945;9373;122299];
[16576;1;1;1;5;27;53;73;27;431;707;53;1281;49;13199;1973;18935;114821];
[16588;1;1;3;3;25;1;17;159;217;413;1393;2119;5611;7659;6003;19927;22287];
[16612;1;1;7;15;29;59;77;9;205;795;627;2167;2477;6841;17663;34871;79823];
[16630;1;3;5;9;13;35;79;237;11;335;789;2291;13;853;20373;39049;407];
[16654;1;1;5;7;13;27;21;173;137;659;123;2677;2153;14879;26737;56291;47613];
[16656;1;3;5;15;23;47;15;109;311;597;261;2407;8139;3215;28169;60731;79937];
[16668;1;3;3;5;11;61;71;29;189;741;1171;397;2669;10627;20037;51703;6697];
[16672;1;3;3;3;9;41;125;1;381;399;349;3265;6337;8113;14869;5305;83409];
[16675;1;1;3;13;5;19;33;225;45;55;1809;1037;5443;15719;9963;363;15145];
[16678;1;3;7;1;31;25;103;29;207;169;305;913;7501;15323;10575;13477;65245];
[16681;1;3;3;15;13;23;69;255;333;157;279;1989;3439;12955;13649;52431;90009];
[16689;1;3;7;5;23;61;111;121;79;469;89;1545;3405;12393;2035;15989;84855];
[16699;1;1;7;5;17;21;127;151;283;521;5;3023;5365;11633;21177;42207;48925];
[16719;1;3;7;5;21;21;61;17;415;879;1485;3727;935;9899;23241;651;103701];
[16734;1;3;5;15;31;47;19;245;249;467;253;1575;337;863;19353;13153;125453];
[16737;1;1;7;15;9;41;39;63;139;875;1011;1961;1627;7461;28961;47195;16239];
[16750;1;3;3;7;27;55;51;245;231;619;43;91;2125;2685;23661;10189;43085];
[16752;1;1;7;9;27;55;35;139;187;143;1545;2685;3173;12065;21607;42619;105279];
[16757;1;1;5;3;29;63;15;197;49;995;389;1959;2441;11509;31753;40539;26989];
[16761;1;3;7;15;19;37;17;37;305;469;945;2335;1493;13843;19905;49031;107893];
[16773;1;3;1;11;3;35;113;181;223;27;485;2435;3423;11321;1687;45755;18017];
[16774;1;3;3;13;17;47;109;145;287;769;1373;3423;1251;14357;3209;28363;97987];
[16801;1;1;3;13;7;25;93;11;23;331;517;1705;1957;291;763;10411;120367];
[16802;1;3;7;15;25;9;1;33;83;61;97;509;5387;8701;14243;31883;7375];
[16822;1;3;1;5;19;11;59;95;265;205;533;1857;693;12469;24445;19449;130623];
[16831;1;1;7;7;1;5;15;159;333;361;391;1889;2645;15115;30709;60515;13315];
[16840;1;3;5;15;25;61;69;213;183;575;1573;3147;1753;2387;23063;12853;108507];
[16854;1;1;1;15;17;31;11;177;411;23;469;3985;2159;2273;14175;20425;107741];
[16858;1;1;3;9;5;35;55;225;263;641;1393;1277;595;2671;7039;64999;114387];
[16863;1;1;3;3;11;23;1;161;77;755;1325;1773;4291;13119;29677;27295;81713];
[16867;1;1;5;13;31;45;115;141;449;171;1413;2411;7937;10859;19453;64403;45169];
[16876;1;3;5;7;1;27;117;157;99;119;1281;2633;5117;16009;19545;7421;30807];
[16891;1;1;3;13;19;11;61;239;331;731;1723;1773;2623;15255;17197;63793;100433];
[16894;1;3;7;11;11;7;119;33;195;521;811;2599;3113;5497;16751;2541;21813];
[16898;1;1;1;15;23;47;25;73;429;213;557;1613;7055;7211;2225;1345;58033];
[16907;1;1;1;13;15;39;69;71;11;543;267;2803;4853;9819;603;4629;78343];
[16915;1;1;7;1;15;55;47;223;63;679;1135;3225;3845;12031;6761;20337;29021];
[16917;1;1;3;3;3;51;127;103;43;379;169;2549;7775;2553;27415;30671;34043];
[16922;1;1;3;11;1;31;89;113;475;857;499;3901;5343;8819;4503;58757;60513];
[16924;1;3;5;11;27;49;97;217;91;971;1835;3447;2021;3747;20533;13659;84007];
[16933;1;1;5;1;31;39;49;21;135;983;579;3509;3611;15101;29781;49941;14353];
[16938;1;1;1;9;7;17;55;233;295;161;823;3823;4771;13531;24197;42629;60269];
[16952;1;1;3;15;23;5;101;167;55;297;1733;3819;7041;9915;27803;60359;10249];
[16960;1;1;7;9;25;47;67;253;303;313;1389;3785;2729;11471;27267;42783;111595];
[16963;1;1;5;13;25;63;17;195;457;793;1553;1673;6799;12171;9003;22195;90229];
[16969;1;1;3;15;11;43;43;221;423;985;873;599;1753;4875;7149;34625;8941];
[16978;1;3;5;11;1;7;109;163;309;477;1291;3019;1933;14055;15005;1141;66867];
[17014;1;3;3;15;21;35;95;131;413;1009;147;2165;6333;8313;20873;18377;23579];
[17020;1;3;1;5;21;49;29;187;67;419;253;2345;3179;12331;23127;8799;102493];
[17034;1;1;7;5;29;59;13;189;377;595;1893;527;7993;14867;24671;14585;38645];
[17036;1;3;5;13;3;11;99;69;253;833;1961;2719;3953;8143;21277;16257;26929];
[17042;1;3;7;3;3;19;19;57;393;187;945;2107;669;14785;13895;26907;92439];
[17047;1;3;5;15;11;5;73;167;99;887;1213;2019;3781;14345;30249;16215;1893];
[17051;1;1;5;1;17;11;69;145;97;393;1587;2513;1011;6933;7945;41387;34361];
[17054;1;1;5;1;5;59;57;1;501;855;1485;977;4981;7631;31853;30737;103023];
[17063;1;3;1;5;3;27;55;171;317;641;1875;2523;1631;4971;18743;25119;118913];
[17069;1;1;3;15;7;39;73;209;125;29;1031;1569;1793;5461;985;59441;92997];
[17075;1;3;5;11;27;23;57;13;65;555;1309;1149;5125;11573;3835;57913;78699];
[17077;1;3;7;5;29;7;51;131;443;623;1491;1067;6647;6277;25799;54843;90869];
[17089;1;1;1;11;7;33;67;113;319;665;11;1225;3137;16269;20101;40263;31091];
[17090;1;3;5;15;7;5;101;153;165;173;97;1651;6633;6071;29079;35641;77305];
[17107;1;3;7;13;9;45;103;55;121;1021;1841;315;8127;6547;1093;7181;39575];
[17126;1;3;3;11;15;17;27;55;341;443;377;681;3635;1091;16719;49403;85507];
[17135;1;3;5;5;29;53;51;213;273;475;981;549;539;14989;4037;23911;45997];
[17150;1;3;5;3;27;37;73;115;331;911;991;4049;6299;3919;10231;31507;98651];
[17162;1;1;5;13;21;13;1;175;137;837;1067;2845;307;4399;15671;1309;107409];
[17169;1;1;3;1;5;47;111;75;193;389;157;3731;6237;5053;9933;28413;32939];
[17172;1;1;7;5;29;1;51;85;267;935;1021;3135;3135;9263;32597;6779;71473];
[17175;1;3;5;9;21;59;27;99;155;507;1911;3501;4307;6755;17127;29815;1577];
[17176;1;1;5;1;15;63;45;105;125;299;689;3935;7229;5007;25003;30453;27819];
[17191;1;1;7;15;19;9;67;151;45;985;2015;833;5435;15383;25881;46735;56717];
[17209;1;1;5;15;27;59;119;163;293;63;1251;1309;485;4937;27207;47481;114357];
[17218;1;3;5;13;23;11;111;87;329;467;1657;3309;3421;12013;23163;14105;88761];
[17220;1;1;5;11;17;63;9;61;299;585;341;3375;3213;15953;11455;5333;66889];
[17227;1;3;5;5;5;35;57;235;137;543;77;2811;857;12793;10791;55711;93353];
[17229;1;3;7;3;23;37;19;81;321;23;1625;2359;3569;4685;7385;32677;18073];
[17238;1;3;3;7;21;35;81;229;207;547;1397;2709;7159;1265;16823;9921;29159];
[17251;1;3;7;13;27;13;107;241;395;317;307;3927;1153;15915;25179;25173;21503];
[17257;1;3;1;5;1;51;25;135;381;229;1491;2009;3331;16165;8169;65161;9335];
[17258;1;1;5;5;17;15;57;221;183;225;1649;3701;299;12349;4691;64479;82237];
[17272;1;3;7;7;31;39;65;183;149;67;1697;3933;3709;15501;12583;60117;88691];
[17277;1;1;5;15;17;49;117;233;161;891;789;1347;4887;10713;10613;4389;42619];
[17308;1;3;5;9;13;3;83;69;381;777;743;2843;7233;3285;8931;48667;120777];
[17311;1;3;1;3;11;7;55;107;165;533;1897;3385;1069;12805;30125;42729;123977];
[17321;1;1;1;5;13;17;103;237;77;537;1843;2817;7467;13647;15259;3525;18313];
[17329;1;1;7;7;13;59;29;197;309;917;1173;2605;4313;12007;25611;60409;104931];
[17342;1;3;3;3;27;57;7;207;491;467;1973;3075;8043;3977;14517;13179;47111];
[17344;1;1;7;5;31;33;125;235;79;847;1893;3875;7513;1435;24959;46813;82053];
[17350;1;3;7;5;3;53;103;1;215;71;787;223;1399;6793;11281;39201;122119];
[17356;1;3;3;3;3;57;7;151;319;463;685;2917;4037;14929;11971;41827;57449];
[17371;1;1;7;3;5;11;15;139;379;563;135;65;5633;7535;1451;18289;62457];
[17374;1;1;1;15;11;23;37;57;205;107;995;151;3279;2015;28927;40731;95551];
[17392;1;3;5;9;15;43;95;217;203;215;203;2207;8189;465;2175;29285;25375];
[17402;1;3;3;5;19;59;51;123;285;721;1335;1777;1645;15811;16539;14637;123323];
[17410;1;3;5;5;11;35;23;23;259;789;567;1921;4743;6635;6965;43025;43175];
[17421;1;3;7;3;7;27;77;121;285;65;647;591;2553;7163;12057;43675;24227];
[17424;1;1;5;9;3;25;17;85;235;715;1913;2391;3719;11029;18359;6323;4703];
[17427;1;1;1;3;25;31;37;31;89;311;1797;3409;6785;9627;29721;58591;111429];
[17434;1;3;1;5;9;37;47;45;419;115;1009;1359;65;1161;15673;16075;63895];
[17449;1;1;3;5;25;47;27;87;441;547;1801;3589;3773;12215;14509;12669;99983];
[17452;1;1;1;3;19;33;51;91;447;577;491;539;3177;7033;21633;51737;47089];
[17463;1;1;3;15;23;53;93;113;143;973;999;2355;1489;3451;29821;23769;74633];
[17470;1;3;7;11;27;1;35;109;111;51;425;3203;2585;11255;20939;281;92133];
[17477;1;1;1;11;13;37;13;149;421;655;79;3093;6429;1145;27663;52861;81431];
[17482;1;1;5;13;19;23;105;39;97;239;469;1047;4727;12009;8055;45557;124219];
[17490;1;1;1;7;7;7;5;53;269;391;1893;2263;2109;11531;12109;31437;20445];
[17496;1;1;3;11;9;35;69;209;93;455;1117;3297;2597;15035;17943;19955;829];
[17508;1;1;5;7;23;23;101;71;339;553;1653;2997;1191;3121;4575;49979;17353];
[17511;1;3;3;13;13;9;51;181;33;185;111;589;3117;10105;28811;31529;79657];
[17536;1;1;5;3;9;57;103;65;211;473;519;3815;4087;2767;10213;37829;9523];
[17563;1;1;5;7;7;31;81;161;311;617;1689;3133;57;14595;22783;18475;85811];
[17570;1;3;5;5;21;51;99;249;7;525;885;3981;2851;529;947;29885;122901];
[17581;1;3;1;5;1;23;85;91;309;747;183;1347;2399;15777;16205;15687;117333];
[17590;1;3;7;3;29;21;99;137;297;229;1063;2747;6415;7791;4775;62863;50849];
[17608;1;3;1;3;11;3;53;153;103;911;1595;1899;1049;11643;21105;61587;92399];
[17616;1;1;5;15;29;55;99;101;181;453;1917;2081;4687;4335;2817;11861;103167];
[17621;1;3;7;15;11;7;9;3;477;281;1141;453;4993;7843;6169;49785;53827];
[17628;1;3;7;11;25;61;77;159;83;95;1223;85;6309;16145;18729;133;14193];
[17644;1;3;3;1;7;27;97;183;263;59;915;3857;3349;8123;11251;55163;125703];
[17649;1;3;5;5;17;33;57;55;503;811;953;349;1949;9127;31015;14475;116769];
[17652;1;3;1;1;3;53;59;131;421;971;89;3047;3513;13599;4569;54525;54779];
[17679;1;1;3;11;9;45;95;123;197;257;1073;1461;5;12701;12559;34989;71631];
[17691;1;3;3;7;1;27;55;191;447;561;1975;2665;1341;8969;18519;47389;70847];
[17693;1;1;5;5;3;31;15;165;95;423;233;2309;7777;3503;20105;3085;92349];
[17697;1;3;1;13;23;61;7;55;157;1;83;515;2169;14397;18149;56855;117265];
[17698;1;3;3;3;3;59;69;95;127;241;65;3145;491;13809;17529;20223;96579];
[17700;1;1;1;5;13;43;117;163;305;955;2007;3337;807;16019;5721;5479;90937];
[17704;1;3;3;1;19;9;127;5;113;491;1873;2127;7949;5207;32531;775;131065];
[17707;1;1;7;3;1;3;91;187;37;873;1039;4075;5645;243;15127;45615;3813];
[17715;1;1;3;11;3;37;67;59;439;763;213;1099;1659;12783;30297;60713;43497];
[17718;1;3;3;13;23;49;47;191;245;985;487;3165;7803;2437;19073;30605;119641];
[17721;1;3;7;7;19;43;7;253;93;99;145;219;699;2433;3009;565;99671];
[17722;1;1;3;13;7;5;9;23;219;155;925;3427;6631;16353;4115;20831;49525];
[17727;1;1;7;11;15;45;41;35;301;273;241;4031;5441;8281;9341;8499;73841];
[17729;1;3;7;13;9;19;79;3;163;197;509;2301;6971;11525;8805;33805;111595];
[17747;1;3;3;1;15;45;69;253;155;639;1045;749;3619;14871;18063;49763;66687];
[17754;1;3;3;3;29;5;41;171;265;677;1719;2623;1721;12243;18741;39595;92873];
[17756;1;3;5;7;27;23;69;61;453;399;1857;3901;6565;15595;1083;15065;91249];
[17760;1;1;5;7;1;27;9;145;95;983;685;2079;5117;5037;22695;53135;43569];
[17765;1;1;3;5;5;7;69;59;331;409;179;333;1293;3863;9473;12537;55605];
[17778;1;3;5;1;1;19;1;49;317;769;91;2073;1765;1197;15029;52553;57361];
[17784;1;1;5;1;23;13;11;69;345;877;41;817;617;14415;8337;53973;50007];
[17794;1;1;7;3;19;27;69;103;115;893;219;2891;2813;9933;26401;63323;30909];
[17805;1;1;5;5;27;15;119;3;11;783;541;2431;2395;3921;15471;34657;100295];
[17806;1;1;7;11;15;25;39;191;345;1001;1773;715;1627;15957;30085;34097;58747];
[17817;1;1;1;5;17;43;65;81;487;387;1359;145;2231;6693;15857;59539;79615];
[17824;1;1;3;5;15;19;17;233;247;611;587;2587;2321;2835;1477;41991;88143];
[17839;1;3;3;15;27;15;53;61;359;989;283;3569;5551;11849;20995;34065;69407];
[17842;1;3;3;11;13;31;41;87;379;47;1289;3143;4213;8643;17065;10707;62773];
[17844;1;3;7;1;9;61;59;121;453;663;27;793;4501;7713;285;13279;11633];
[17851;1;1;7;5;29;51;57;15;233;743;879;2317;3399;15741;605;57529;87427];
[17862;1;1;1;1;19;59;51;119;273;403;1649;3877;3561;10931;21139;2599;77957];
[17868;1;3;1;3;5;1;79;131;251;585;359;2073;7041;13611;22937;24645;72827];
[17871;1;3;7;9;19;39;93;137;359;565;1123;1301;4111;13683;1361;25147;38315];
[17873;1;1;5;13;27;31;11;243;111;243;1615;1649;2999;15873;19161;57485;35819];
[17896;1;3;3;5;25;57;61;207;219;969;303;1165;6753;13473;10789;52883;45205];
[17904;1;1;7;11;9;53;55;175;399;981;255;2499;373;13131;26803;48017;25599];
[17909;1;1;3;3;11;23;73;25;83;39;1813;747;3287;795;11917;55509;105057];
[17920;1;3;7;15;29;59;47;171;219;875;71;123;8131;15595;12471;62439;131];
[17923;1;3;5;13;9;27;119;233;323;943;375;3647;185;1639;431;27225;130175];
[17947;1;3;7;3;7;17;31;155;89;835;1015;2019;3973;7087;16899;29591;40797];
[17950;1;3;3;1;3;11;83;231;209;537;1227;1519;1059;14027;18591;34031;125755];
[17956;1;3;3;1;7;39;19;99;169;961;385;1621;7373;7459;8979;23643;17101];
[17959;1;1;3;11;11;23;61;37;359;981;209;2555;2673;6501;12731;10735;97321];
[17966;1;1;3;13;15;61;115;119;99;755;1933;345;3133;12071;26657;7133;18553];
[17971;1;3;1;5;17;7;29;119;445;911;89;19;6137;8037;19527;22467;29253];
[17973;1;1;3;11;31;21;119;21;249;371;343;4037;7539;14473;23829;46415;60911];
[17992;1;1;7;9;21;53;29;149;467;893;479;359;1007;13955;9667;10245;74761];
[18006;1;3;1;7;7;45;7;77;289;271;1329;261;5675;8275;7443;57945;117825];
[18009;1;1;1;3;21;57;117;77;287;119;1073;915;2521;455;7433;56953;84433];
[18010;1;1;1;9;27;47;1;189;303;375;215;3117;4541;12877;15523;32317;104213];
[18022;1;1;3;1;13;39;37;249;371;159;1073;1351;4703;2715;17463;3945;51523];
[18039;1;3;5;5;29;15;79;25;61;995;1081;3377;345;13773;4205;20589;83591];
[18046;1;1;3;1;9;1;41;39;389;509;561;3273;1911;15271;22655;34713;2045];
[18069;1;3;1;15;17;1;55;55;119;707;843;2657;3687;11557;18331;4935;110639];
[18074;1;3;5;1;23;35;119;215;471;643;1581;1965;2627;2991;3361;6737;111657];
[18076;1;3;5;7;9;19;33;197;33;993;1795;595;7113;14721;12647;41035;13669];
[18085;1;1;7;15;31;39;51;157;373;473;665;3541;6695;11741;5617;17189;129851];
[18086;1;3;3;7;15;37;33;175;391;159;717;593;113;9331;10685;59003;26975];
[18095;1;1;3;5;13;41;11;109;9;899;1503;901;6237;7789;9963;14923;63665];
[18100;1;3;7;7;25;61;3;231;235;29;1049;1997;5371;9047;29595;49239;108649];
[18109;1;1;3;5;27;1;53;209;315;747;1803;11;1815;6539;8839;18385;88681];
[18121;1;1;5;13;25;55;117;197;13;689;751;1203;2277;1763;23453;54459;118023];
[18127;1;3;3;11;21;1;51;101;429;723;273;3021;1491;9923;6629;63741;98813];
[18129;1;1;1;15;17;25;111;251;43;403;465;17;787;6045;32185;22921;115851];
[18132;1;1;5;11;11;13;13;93;489;941;1391;383;7735;1921;16199;53099;25181];
[18141;1;3;3;7;15;1;3;159;507;867;1589;2111;3839;8989;12589;37657;97055];
[18146;1;3;3;13;25;23;7;95;489;1001;105;2737;5013;14465;25383;57551;77425];
[18151;1;3;5;3;3;7;81;15;255;297;1183;655;741;3081;2141;34493;103707];
[18157;1;1;7;9;27;57;49;121;21;239;829;2001;613;9569;4419;20007;59109];
[18160;1;3;7;1;3;21;109;255;45;333;915;1245;5893;765;28289;53927;15335];
[18183;1;3;3;7;5;35;33;79;111;509;347;3915;2017;6461;11847;17807;48601];
[18204;1;3;5;1;13;63;87;65;507;277;339;3637;6289;719;9383;38887;55061];
[18218;1;1;5;15;17;5;59;107;355;1021;1849;1807;7679;305;31533;1221;98165];
[18226;1;1;1;13;19;7;37;63;267;399;1451;2149;1003;13635;18693;215;15887];
[18238;1;1;3;7;11;63;81;251;253;963;635;1697;6393;9775;24189;9099;106277];
[18245;1;3;3;13;17;47;63;47;279;879;271;1655;1897;10743;2607;16695;32779];
[18249;1;3;5;15;3;1;121;181;303;973;19;3327;3827;2197;31857;22835;122611];
[18260;1;1;5;13;25;41;105;197;195;85;1515;2735;7539;7557;24297;38721;46895];
[18267;1;1;1;1;15;63;33;7;43;971;781;1461;4483;2113;32459;37653;68017];
[18270;1;3;3;9;7;1;65;183;171;695;191;3675;6749;6823;3577;45031;81597];
[18273;1;3;3;3;9;61;13;159;295;329;943;3293;79;14497;21461;4667;96435];
[18274;1;1;7;9;29;37;117;215;295;591;1139;3093;7469;7995;13581;48075;5943];
[18276;1;3;1;9;11;11;117;255;419;551;1445;1987;1169;14227;31095;36041;63739];
[18283;1;1;7;15;17;25;81;27;87;463;1871;551;7449;12231;28645;32663;43037];
[18307;1;3;5;11;3;49;109;123;397;113;1269;2433;4463;1257;2127;6677;96009];
[18314;1;1;1;11;27;19;83;123;297;867;941;3929;3483;4641;32505;48999;66169];
[18321;1;1;5;11;5;21;11;255;369;859;657;587;5245;12973;22403;47935;121375];
[18334;1;3;1;13;17;43;83;51;339;967;499;1485;5203;10053;31707;31443;75033];
[18355;1;1;5;13;11;5;121;121;73;101;1751;3805;1333;14043;26957;27557;110899];
[18364;1;3;7;11;9;7;125;237;437;177;841;175;5509;9157;3129;54119;109315];
[18372;1;3;7;15;1;59;87;121;43;475;1589;1267;1501;1585;31705;33959;27247];
[18390;1;1;5;3;27;63;117;205;169;701;1081;2835;8049;11875;4143;17663;90043];
[18399;1;3;1;9;23;27;31;141;411;145;1177;3681;3403;6943;10729;47219;102713];
[18415;1;1;7;11;5;49;33;27;121;865;471;1871;6945;10051;4493;7121;65551];
[18420;1;1;5;1;17;27;53;13;31;403;1319;1381;1371;11693;18805;54683;30137];
[18434;1;1;7;11;9;21;71;155;79;145;943;3891;641;3163;28493;14729;83391];
[18443;1;3;3;13;3;53;21;189;245;803;1625;4005;1163;16033;5549;14301;115859];
[18446;1;3;1;5;17;59;61;31;293;677;1753;1803;1671;14619;22361;61453;78203];
[18460;1;3;3;1;5;51;99;231;175;97;1335;689;1913;6157;22757;52395;118347];
[18467;1;3;3;7;25;11;113;19;289;507;1143;3437;7965;12551;27603;8423;46713];
[18482;1;1;3;9;13;1;73;9;425;407;363;2915;4269;2903;9251;17733;80321];
[18484;1;1;3;11;31;47;37;211;433;237;1069;1891;6175;9305;30385;2497;94775];
[18501;1;1;3;1;23;5;113;103;427;587;1863;1863;679;2575;13059;16163;42289];
[18506;1;1;5;3;7;17;45;33;209;609;1897;95;5123;2239;5483;60715;126497];
[18516;1;1;5;11;1;55;67;223;41;967;337;2511;7879;1157;17635;64081;421];
[18519;1;3;3;9;27;33;87;97;231;895;1337;829;47;8481;14059;57209;109159];
[18547;1;3;7;1;25;5;41;161;393;523;1623;3761;1933;8319;17309;46717;97299];
[18569;1;1;1;11;5;55;19;191;41;791;1611;59;2633;13873;25859;42879;54807];
[18575;1;3;1;11;11;33;5;13;199;411;895;759;2735;16225;31469;24081;31857];
[18589;1;1;7;13;27;57;21;191;389;977;1013;3493;6401;15957;23181;52461;41853];
[18590;1;3;7;5;23;19;117;117;427;923;1347;3099;247;8879;5309;53277;100625];
[18605;1;1;5;13;11;23;69;37;119;329;1935;2851;5127;6907;24651;11135;118287];
[18611;1;1;3;15;23;1;69;107;253;771;1697;4035;3219;15011;6995;19255;39909];
[18625;1;3;1;1;5;21;35;173;407;603;27;3589;2879;2755;17679;6145;95989];
[18652;1;1;5;13;31;23;61;139;341;593;1673;4031;4809;1107;22657;29073;53401];
[18665;1;3;1;15;13;37;39;61;443;417;1125;1529;1943;7317;2985;50285;107069];
[18673;1;1;3;9;5;51;87;91;31;491;1455;1685;2579;6023;10989;64635;130147];
[18674;1;3;5;5;31;23;15;163;357;161;1597;1571;5039;13213;32221;4405;88079];
[18683;1;1;1;15;13;43;7;109;243;389;683;2671;8003;4187;6507;11171;116727];
[18688;1;3;7;1;17;31;53;5;227;755;1755;2939;1789;8951;16777;30203;79005];
[18691;1;3;3;9;27;5;111;241;89;333;371;1035;5719;2433;29343;50829;25131];
[18698;1;1;3;13;7;37;125;69;79;397;1595;123;255;2257;10881;27085;99411];
[18717;1;1;3;15;1;35;61;73;507;775;1631;2005;4277;8421;5669;39221;19053];
[18733;1;1;3;7;15;17;65;157;19;997;861;1249;4059;7975;955;5833;97733];
[18754;1;1;5;5;21;43;1;181;1;17;1337;3333;3761;12283;20941;231;30457];
[18759;1;3;3;7;7;23;105;101;101;757;1407;565;2187;1529;29385;22847;57675];
[18760;1;3;3;1;11;3;65;93;201;773;1037;1325;673;6625;2909;63435;114311];
[18771;1;3;5;1;21;43;87;37;491;323;1093;2493;4755;7225;12037;9483;70351];
[18777;1;1;7;9;23;39;59;117;103;645;1975;1177;55;325;23781;64365;94915];
[18796;1;3;7;15;21;29;109;35;307;847;777;3457;7899;17;24065;10517;35651];
[18799;1;1;7;9;25;35;49;131;377;429;1773;2107;6305;15209;9567;17685;5599];
[18807;1;1;3;11;13;27;47;125;483;229;921;2733;2217;2615;24135;28759;109411];
[18813;1;3;1;7;19;45;23;195;445;955;853;2877;6889;9507;2009;18747;50545];
[18817;1;1;1;5;15;35;75;177;145;683;309;893;4999;827;26563;30819;111115];
[18820;1;3;3;11;5;45;49;39;93;653;1053;2553;863;12185;30261;16459;121061];
[18827;1;3;7;5;11;29;57;43;409;71;67;3537;263;13237;8825;58411;44629];
[18829;1;1;5;13;1;37;23;171;13;309;239;2023;6233;8751;11371;5825;77355];
[18838;1;3;1;13;5;1;47;217;369;609;453;879;4337;4441;8785;51963;53819];
[18842;1;3;5;5;23;1;67;147;27;121;1369;569;1519;11585;18193;30889;78055];
[18848;1;1;1;13;11;53;33;37;419;111;1649;2495;6105;12385;30865;3683;63813];
[18853;1;3;3;5;17;35;107;235;471;735;1093;1007;567;173;9623;39533;56455];
[18885;1;1;7;15;27;13;123;211;407;857;801;3951;8153;4427;15333;13217;92675];
[18890;1;1;1;7;11;61;99;131;121;119;1483;1485;3521;13163;24899;56849;111943];
[18898;1;3;3;1;19;1;29;139;127;557;1913;1487;1381;185;11195;52499;45059];
[18903;1;3;7;11;5;29;95;111;235;55;1101;2631;1219;9867;22209;3095;56793];
[18910;1;3;7;1;31;61;37;125;241;985;1079;1439;433;2779;8463;59985;39667];
[18913;1;3;7;15;5;7;71;7;435;727;1611;135;1421;8329;29995;64243;58285];
[18931;1;3;3;15;27;11;121;27;281;499;267;2651;7575;9499;5051;49475;79573];
[18934;1;3;3;15;29;47;11;183;235;537;79;2467;3751;831;6725;52173;108645];
[18956;1;3;5;13;23;31;23;19;477;511;727;183;5955;7613;31979;8441;39835];
[18961;1;1;5;7;17;31;53;133;387;787;1573;89;1975;1825;19963;27203;124923];
[18968;1;1;1;9;3;15;125;135;89;37;517;3931;2013;2143;25413;18421;6097];
[18978;1;1;3;11;23;29;89;45;53;135;223;3523;7921;3271;1819;40931;65471];
[18983;1;1;1;13;17;3;121;25;509;61;1009;2009;7813;8499;5807;63171;75991];
[18987;1;3;5;13;15;35;37;45;161;683;1665;59;6297;9595;10193;46745;105411];
[18992;1;3;1;7;21;19;85;107;3;845;673;1271;7581;15971;27085;35375;29027];
[18997;1;3;3;9;5;17;79;137;123;809;583;3507;7559;2857;13911;57083;8595];
[19002;1;1;7;5;31;29;77;33;439;787;1223;2471;5851;15891;27925;51661;82645];
[19004;1;1;7;15;19;35;35;37;197;245;799;3971;277;11289;20111;13857;104571];
[19010;1;3;5;15;19;3;65;17;201;1007;1665;107;2409;1469;23265;24547;8189];
[19012;1;3;1;13;29;45;109;243;43;383;631;265;6671;15333;21931;30675;103077];
[19030;1;1;5;1;25;25;77;189;109;777;1485;2265;1403;2627;13843;27263;14263];
[19043;1;3;5;1;13;49;73;107;225;243;1253;3503;735;2605;27165;45467;93001];
[19049;1;1;5;9;15;17;1;33;69;321;1375;3635;8131;6579;1225;38699;17447];
[19079;1;3;5;3;25;49;15;149;483;37;1929;1219;5841;11975;805;31339;130971];
[19086;1;3;3;3;15;29;3;143;291;593;1769;3603;1693;151;27701;9015;25847];
[19100;1;3;1;11;5;35;55;127;137;71;967;2501;1023;2061;31387;44011;130121];
[19103;1;1;7;1;29;13;93;41;125;263;521;2633;4361;12153;30647;55883;65185];
[19107;1;3;7;9;23;19;61;197;139;463;1867;3627;5185;8251;26977;48027;66301];
[19109;1;3;3;7;27;53;25;137;175;155;1843;2253;4797;4989;32613;55779;91625];
[19113;1;3;3;11;1;5;21;233;295;675;47;2995;8075;8201;3845;23925;82559];
[19116;1;1;3;7;31;53;93;21;307;709;9;3061;3935;11009;13411;3657;30251];
[19127;1;3;7;13;13;25;51;205;391;897;275;333;6831;9383;16101;14301;99101];
[19134;1;1;5;15;17;47;119;7;189;765;753;2909;3373;2379;20331;61535;51345];
[19141;1;1;3;1;27;43;9;185;9;197;1179;67;7689;9679;29683;29905;29393];
[19179;1;1;5;5;31;55;69;9;477;91;1705;1877;5463;15401;13449;27541;125521];
[19193;1;1;7;15;15;33;11;233;69;771;845;2715;5293;10351;19557;15319;36857];
[19194;1;3;7;7;15;9;123;47;165;739;361;1675;2743;8021;10241;48275;51935];
[19201;1;1;5;1;9;25;99;83;487;627;343;3233;6697;13197;19771;38337;89139];
[19208;1;3;7;13;1;31;15;63;463;621;935;1093;6043;14051;13665;43413;104893];
[19214;1;1;1;3;27;1;47;151;127;357;689;3263;141;4459;9847;205;88493];
[19225;1;3;7;15;29;13;41;113;495;421;195;197;6857;10555;22861;30229;31707];
[19226;1;3;5;11;11;1;89;227;425;623;1605;1901;7933;7211;16301;3403;59651];
[19235;1;1;3;3;27;41;37;89;395;903;1641;2739;5599;11371;8683;61125;105231];
[19242;1;3;7;9;1;17;51;233;507;783;459;1187;7281;15809;27637;6067;125877];
[19264;1;3;1;3;13;57;5;199;261;357;1255;1849;8013;10313;9375;1271;64117];
[19267;1;3;1;11;9;59;55;95;401;423;1657;513;3565;12957;19243;53027;11323];
[19293;1;3;7;13;27;35;121;215;397;991;191;3443;3829;6107;5381;48497;107997];
[19309;1;1;5;5;19;15;21;53;165;835;1599;3245;5609;5991;18141;28075;102809];
[19318;1;3;5;9;25;21;71;15;453;475;915;3097;5869;699;13883;34919;127211];
[19324;1;1;3;7;21;53;27;207;373;703;593;17;6991;15013;10125;34801;129245];
[19337;1;3;3;13;17;9;89;95;291;681;1415;2323;2885;11381;7703;3691;51505];
[19340;1;1;1;11;15;63;55;153;373;665;983;3987;5997;6873;27031;65449;22021];
[19345;1;1;5;5;1;55;119;61;159;889;225;709;1879;2521;69;7815;18733];
[19346;1;3;5;11;23;53;23;61;71;993;633;1829;3465;12465;30205;40723;74499];
[19352;1;3;3;1;17;37;19;43;55;133;1171;3101;3963;5177;24791;7255;10263];
[19364;1;3;7;1;21;13;21;87;237;629;1167;3699;597;6251;11545;34429;104393];
[19382;1;1;7;1;11;53;105;111;463;869;549;2423;17;917;879;49367;72235];
[19391;1;1;5;15;17;51;69;55;309;867;257;573;4821;5245;28033;61801;18253];
[19405;1;1;5;3;1;23;103;241;13;267;21;1751;6637;12537;26741;40651;94493];
[19411;1;3;3;13;25;35;21;83;337;363;1111;1865;7889;985;465;40287;64469];
[19439;1;1;7;5;27;1;99;95;209;211;1445;1577;6097;13813;22463;64395;106383];
[19442;1;3;1;15;1;45;77;247;273;1023;1377;1989;5787;15267;24363;42717;125617];
[19444;1;1;1;3;9;49;79;171;427;439;1725;3179;6263;12437;31353;22077;94455];
[19451;1;3;5;11;11;45;57;97;409;935;967;2509;3431;5707;19473;15853;129059];
[19465;1;1;7;5;7;21;105;29;359;145;1691;131;6721;10971;16173;38193;37091];
[19471;1;1;1;15;15;35;5;185;455;507;681;3355;2091;3437;27231;28527;5383];
[19474;1;3;5;3;7;29;33;127;57;495;1069;3635;7461;9861;18757;39039;92421];
[19476;1;3;5;5;11;31;51;59;413;417;1577;2837;5229;4501;18645;37613;31325];
[19479;1;1;5;13;15;61;17;247;413;817;907;2249;3901;11275;7469;33403;30629];
[19485;1;3;5;7;31;7;109;177;277;75;449;3029;7135;427;26641;43157;47671];
[19489;1;3;7;13;29;63;21;187;471;289;835;3885;6111;8721;9841;24017;18673];
[19496;1;1;5;13;25;37;15;35;227;623;47;189;3443;1911;8579;50911;10895];
[19507;1;3;1;1;29;53;89;101;251;203;821;2485;633;7943;27563;58735;72057];
[19513;1;3;7;9;23;61;121;199;19;165;131;1373;637;7307;7109;42475;126669];
[19514;1;3;7;13;7;5;125;173;365;65;565;751;3343;13421;6177;39095;97375];
[19521;1;1;7;3;1;59;65;39;307;793;887;3291;3405;4497;19351;1821;67861];
[19524;1;1;1;3;19;9;101;183;163;819;769;49;5293;3715;4055;32403;90763];
[19546;1;3;3;1;27;31;21;123;457;1021;1791;2217;6171;11445;15605;59945;19663];
[19552;1;1;1;9;13;53;61;201;457;111;1217;377;5871;4591;16379;42817;129807];
[19555;1;3;1;5;23;37;25;7;125;651;349;3727;1487;5103;31407;40215;16065];
[19557;1;1;3;11;19;29;1;193;13;287;331;985;5391;7307;28075;9939;84999];
[19575;1;1;1;11;21;37;117;241;229;957;2019;819;459;6185;21533;64725;24709];
[19579;1;3;5;13;11;25;107;245;175;519;629;537;2227;15123;10619;32611;118697];
[19591;1;3;1;11;5;53;119;253;489;181;1365;3465;1323;949;3657;2467;38545];
[19595;1;1;3;9;27;17;109;19;297;541;89;3021;761;5577;907;21405;128029];
[19605;1;1;3;9;31;9;61;149;267;707;671;2733;1247;14623;6395;42579;30845];
[19615;1;1;7;7;25;29;63;41;309;275;2019;1373;1003;13891;16571;16209;30115];
[19616;1;3;7;1;5;21;53;97;475;799;1963;1181;4187;8767;24779;10403;98349];
[19626;1;3;3;13;19;9;125;227;347;535;353;3087;769;9049;20145;27433;23105];
[19631;1;1;1;15;7;61;51;113;403;501;1767;2785;7151;14517;17533;24913;7121];
[19634;1;1;1;9;7;21;27;169;425;567;31;35;7859;929;6545;33983;13227];
[19640;1;1;5;15;11;15;69;33;127;1005;1947;989;6333;15587;18523;53547;115613];
[19645;1;3;5;3;1;55;7;99;213;737;363;3167;3949;3723;15777;23207;22901];
[19678;1;1;1;9;9;29;121;85;467;811;1;3543;6259;4477;31371;27633;22995];
[19681;1;3;5;3;11;21;95;19;55;71;803;3655;3749;5113;13611;38097;20943];
[19682;1;3;3;11;19;25;127;105;447;499;485;881;2649;10297;22283;18305;128919];
[19706;1;3;7;1;11;45;21;87;481;645;815;793;5763;3945;14379;19623;103199];
[19708;1;3;5;1;3;45;39;229;359;151;1079;3955;2107;9593;6701;2811;55215];
[19713;1;3;7;7;27;59;69;211;373;643;977;3545;2647;10473;27919;10719;24823];
[19714;1;1;3;11;7;27;117;21;59;679;969;3813;2701;7363;17525;31229;100665];
[19720;1;3;3;5;29;53;113;141;197;991;81;2701;6831;7949;16569;44185;29631];
[19725;1;1;1;3;1;31;9;101;347;585;577;2529;7461;11921;29475;34505;74911];
[19743;1;1;1;15;25;19;95;37;93;755;1891;2309;623;13503;5811;45863;106501];
[19753;1;1;5;3;15;23;51;225;87;679;1225;4015;3971;163;3185;12921;51267];
[19756;1;1;5;1;1;37;105;181;379;657;571;2775;5905;8391;32069;18713;125833];
[19759;1;1;7;11;11;19;109;125;371;321;629;2165;2861;7883;15503;37679;33057];
[19762;1;1;3;5;7;5;21;5;169;321;1145;2243;6143;2537;4429;56493;39391];
[19776;1;3;5;5;31;7;15;175;441;663;921;3113;2261;13033;19135;28657;92225];
[19786;1;3;1;11;13;9;25;57;297;3;1561;825;2803;11327;2699;28631;57277];
[19799;1;1;3;9;15;25;81;197;345;341;1557;1375;2509;11949;30201;6807;95199];
[19800;1;3;5;3;15;23;91;147;277;59;495;1423;1775;12065;8401;22639;111199];
[19803;1;1;5;1;1;59;35;255;229;293;187;2663;3967;6493;20103;36703;108939];
[19806;1;3;7;11;15;1;23;39;27;281;11;3119;2791;1691;16521;39715;32145];
[19815;1;3;5;5;9;53;43;49;107;1015;431;3017;3317;9655;19193;45621;56861];
[19816;1;3;1;15;27;63;127;31;21;245;1503;3339;6375;5411;12369;35973;9473];
[19857;1;1;3;13;31;61;19;99;25;593;539;1807;673;12339;23567;22005;130341];
[19860;1;1;5;3;3;3;13;183;255;41;641;581;6509;1891;19195;28277;51725];
[19874;1;1;3;5;3;59;17;227;9;345;1303;1535;3089;2653;20647;63159;124677];
[19883;1;3;1;11;25;19;117;29;221;461;1285;1427;7183;3051;10839;47491;92613];
[19885;1;1;3;5;27;19;1;235;51;215;783;2325;1191;4679;14365;35479;65083];
[19886;1;3;3;5;27;17;79;185;259;369;1399;1029;2219;10975;30487;15247;39789];
[19893;1;3;3;1;13;13;59;119;249;471;1433;1165;5345;4431;375;64999;85577];
[19932;1;1;1;3;1;19;13;243;35;675;321;3625;7835;6403;651;48283;91819];
[19960;1;3;3;1;27;13;73;159;145;59;287;2419;8115;7923;18933;36109;123879];
[19972;1;3;1;7;21;1;83;245;477;623;391;129;6897;3447;11109;17017;68277];
[19975;1;1;3;11;13;43;119;93;99;393;1219;995;1881;7929;4337;33579;103211];
[20005;1;1;7;7;31;5;39;25;119;819;409;2395;151;12763;28265;28909;35685];
[20009;1;1;1;1;3;13;59;205;19;843;1691;955;1859;1791;22083;37843;63615];
[20010;1;1;1;3;11;63;41;243;103;875;1337;3731;6317;12951;31743;56935;55975];
[20012;1;1;3;13;19;11;51;97;469;279;1621;3521;853;11849;3331;27907;119081];
[20023;1;1;5;1;23;55;9;141;449;41;167;2441;6783;2785;3547;35379;74973];
[20024;1;1;5;3;15;55;13;75;107;153;1841;3991;3229;6523;18541;21571;31539];
[20030;1;3;1;1;27;37;35;201;401;867;1861;1783;6255;14001;29543;25843;39719];
[20038;1;1;7;15;3;43;113;173;297;457;1369;4053;5033;5513;27387;14725;79937];
[20041;1;1;5;13;5;27;109;93;187;833;1551;2899;1681;6979;1289;3507;66499];
[20055;1;1;3;11;11;47;121;29;129;807;2037;1527;6083;14803;10669;46047;70241];
[20059;1;3;1;9;29;3;19;191;461;527;1389;3359;81;6773;12185;49207;19091];
[20061;1;3;7;7;5;47;33;27;445;1;149;343;4827;91;29233;37775;89321];
[20080;1;3;5;1;13;55;107;99;259;591;983;3863;1231;3457;29645;10709;16543];
[20086;1;3;7;9;29;5;9;165;337;187;219;97;6511;193;23947;36329;35317];
[20089;1;3;7;1;31;25;5;175;409;1021;1873;289;7143;15341;31501;25707;106453];
[20095;1;3;7;7;27;1;15;221;341;987;1739;1183;8139;11081;29721;42991;72805];
[20111;1;1;1;9;11;1;13;17;501;543;1485;987;1861;8527;1621;30461;23057];
[20116;1;3;7;7;9;41;1;253;71;1009;427;3347;6987;3303;30535;33345;126459];
[20130;1;1;1;7;11;11;15;11;305;559;1805;1111;377;1495;13471;34831;123125];
[20136;1;1;5;7;9;37;27;45;61;705;263;3181;7077;5227;28121;42865;3809];
[20147;1;1;5;1;23;25;29;199;259;959;661;43;6157;1547;1497;24077;129939];
[20153;1;3;5;3;13;49;33;19;367;891;1777;3119;5673;8383;14487;1763;63495];
[20156;1;1;1;13;9;57;35;181;7;225;449;3843;6257;4983;31307;16559;27633];
[20167;1;3;1;11;7;33;55;81;41;61;1711;3273;7629;11283;9103;24105;107547];
[20173;1;3;5;5;13;17;13;51;235;869;1543;1249;7749;14773;21751;53497;108709];
[20182;1;1;3;9;3;63;89;43;23;479;115;3917;7943;7323;5659;64507;46941];
[20185;1;1;3;1;25;63;25;169;459;633;1785;1059;5113;4799;29281;24561;17017];
[20202;1;1;3;3;15;3;11;173;493;5;1575;653;7391;7453;8297;28653;6213];
[20209;1;1;7;5;29;5;1;57;75;479;787;3417;3349;111;17787;41141;97597];
[20229;1;3;7;1;11;7;107;159;435;159;1401;803;7065;5923;4005;37271;113791];
[20233;1;1;5;1;23;55;7;59;351;801;1279;3231;4561;2857;20563;46115;79489];
[20236;1;3;3;15;19;13;113;33;149;175;1127;3815;4357;12645;4449;61355;83023];
[20241;1;1;7;15;3;17;41;57;243;319;1631;2751;7853;5977;28367;20023;56049];
[20242;1;3;1;7;27;59;7;13;497;241;1827;2861;1331;1759;6037;18967;42849];
[20248;1;3;1;1;31;43;41;183;241;219;335;2331;755;10589;29431;29007;66667];
[20278;1;1;3;1;27;37;61;117;471;39;139;3821;2945;7035;23673;20167;56169];
[20282;1;3;1;1;9;29;123;61;171;1015;1029;1695;1039;11883;259;10879;97709];
[20299;1;3;3;5;29;39;65;193;285;635;999;717;5465;1849;4293;19775;79121];
[20307;1;1;7;1;3;3;103;15;451;307;1027;263;6585;11651;14457;62695;38407];
[20313;1;3;7;11;13;13;29;83;267;561;2041;13;3167;3475;14735;34455;117533];
[20314;1;3;1;15;5;1;35;225;151;637;1347;833;7077;13145;10285;46583;14351];
[20320;1;1;3;15;27;63;119;159;209;421;1413;2727;1607;7175;6133;29051;97387];
[20326;1;1;3;5;9;29;35;93;353;903;1037;469;5473;7193;21883;14709;89023];
[20332;1;1;1;11;9;17;51;155;145;443;1985;423;4721;15721;9747;10303;21909];
[20350;1;3;7;15;19;49;53;153;241;739;1585;3945;4869;11;15845;17937;69397];
[20360;1;1;5;7;19;53;43;211;327;723;1513;1569;919;1771;11309;50787;7459];
[20371;1;1;1;9;7;29;49;89;409;685;201;1327;2807;13101;2485;62909;102595];
[20373;1;3;1;13;21;51;37;231;271;475;855;3703;4447;5161;17937;14471;47173];
[20377;1;1;7;3;9;7;121;197;71;147;1669;1745;6589;15029;1529;12625;121925];
[20390;1;1;1;3;7;47;63;61;187;341;919;307;389;14141;12941;17917;104289];
[20396;1;3;5;13;19;43;57;11;383;311;1229;3527;3301;12473;24377;16279;92733];
[20404;1;3;3;5;25;35;63;23;131;481;809;3627;5685;13695;14121;64751;66181];
[20413;1;3;1;5;11;43;89;55;103;219;1861;3223;5111;5879;31399;1395;87419];
[20434;1;3;1;11;21;27;123;205;47;923;7;1635;4019;8431;28313;24275;129617];
[20436;1;1;1;3;1;11;91;215;393;999;1071;3225;4415;759;24499;16109;33791];
[20440;1;1;3;13;19;45;77;103;105;395;529;3631;8179;4467;30263;39379;70507];
[20443;1;3;3;9;17;45;101;219;433;971;471;1243;6955;5941;20641;16119;129383];
[20445;1;1;7;7;9;9;91;95;503;171;129;1509;7179;5367;2219;50445;112459];
[20464;1;3;7;1;17;17;19;173;229;519;147;1835;3797;8091;20335;33177;90197];
[20476;1;3;3;5;23;29;107;205;43;969;799;1239;1353;5221;15175;42945;34043];
[20494;1;1;5;7;31;63;67;87;189;301;1719;3937;965;2505;24781;25133;91675];
[20496;1;3;1;7;15;25;11;39;281;35;1149;1445;6451;12069;20959;29895;60059];
[20501;1;1;5;1;1;17;65;213;359;561;2015;1629;3521;6877;8099;62483;103903];
[20518;1;1;7;9;7;49;1;227;49;823;1141;2419;2697;13293;14143;6323;16081];
[20527;1;3;3;1;9;13;99;235;343;601;927;183;4545;14529;5521;55571;90675];
[20529;1;1;5;1;13;49;95;153;131;955;283;2951;3651;7743;4285;42621;110577];
[20535;1;1;1;9;19;59;97;181;67;357;497;287;3523;3729;28981;59687;39463];
[20544;1;1;3;7;5;19;107;55;393;225;1953;669;8063;6537;15983;59891;95079];
[20568;1;3;1;5;29;21;17;169;447;697;1613;3483;3139;11175;28865;12065;130241];
[20589;1;3;5;7;5;49;35;181;85;505;1537;1345;773;3255;27405;3959;126377];
[20592;1;1;7;15;9;9;17;99;409;319;807;1721;4023;2171;32657;51663;23253];
[20601;1;3;5;1;5;3;37;219;89;263;397;573;6147;9525;2521;11153;94319];
[20617;1;1;5;5;11;39;55;205;209;239;1443;2477;1941;8337;2883;54593;129859];
[20625;1;1;1;7;11;13;127;65;127;413;1553;413;3395;9451;7517;34103;57029];
[20626;1;1;1;15;5;25;109;181;399;1023;277;3365;6209;827;13933;27483;63835];
[20632;1;1;3;3;21;57;95;127;481;365;197;3631;7443;4925;31277;35061;35875];
[20638;1;1;7;13;3;31;59;127;441;967;1049;1281;3553;375;9683;45755;18889];
[20644;1;1;1;13;11;39;49;43;383;607;157;1887;3623;13335;31949;49843;96781];
[20647;1;3;7;13;19;35;21;9;299;425;1921;3481;6849;4149;5227;56737;27559];
[20662;1;3;7;5;21;11;79;97;1;849;819;1133;3393;5429;10621;38787;120785];
[20671;1;1;1;13;21;29;3;239;399;619;759;2655;3691;655;30979;15507;114791];
[20674;1;3;5;3;1;61;79;43;273;965;1759;3901;2437;1703;20205;46291;23679];
[20683;1;1;1;9;19;57;75;245;377;261;231;3683;6745;7797;28471;56269;109969];
[20704;1;3;1;11;9;55;53;87;33;431;1805;2933;455;12479;16235;2667;70105];
[20724;1;3;5;1;29;1;101;17;377;499;1365;209;4819;15099;8769;37003;53003];
[20742;1;3;5;11;11;39;109;235;337;393;35;1071;7085;7165;25143;24223;71493];
[20748;1;3;1;5;13;49;9;205;305;943;799;2405;319;10755;9785;32023;48015];
[20765;1;3;1;9;29;35;123;101;73;747;1257;407;5871;4271;14837;52727;13339];
[20776;1;3;3;9;31;7;113;27;89;123;1117;531;5531;7897;11209;35267;123457];
[20789;1;1;1;1;29;19;93;11;61;743;267;13;6561;7667;20537;12675;10481];
[20796;1;1;5;13;27;47;103;171;349;139;1709;961;783;7147;5569;53395;80797];
[20802;1;3;1;9;21;49;41;175;507;861;1157;1033;6795;5795;603;12485;75263];
[20807;1;1;5;7;23;3;21;165;123;951;785;2065;8001;7009;22981;10011;9807];
[20814;1;3;7;15;1;53;49;197;231;351;141;3465;7907;10695;30913;26753;71079];
[20821;1;3;5;3;29;45;23;131;65;507;75;275;7287;187;1093;52657;31533];
[20832;1;3;5;9;9;7;113;125;441;75;663;4081;3147;1469;28375;35747;122965];
[20835;1;1;7;3;3;57;5;17;183;237;965;3709;4161;9513;217;58835;78789];
[20847;1;1;3;1;7;25;13;29;173;319;1723;57;2401;10405;15541;52915;93747];
[20859;1;1;7;5;1;31;11;61;341;97;1199;2585;5909;3707;31507;51233;2389];
[20871;1;1;5;15;15;21;127;155;229;203;1303;3215;1965;9481;31909;52307;112207];
[20883;1;3;1;13;9;45;91;39;113;587;895;637;2475;1695;9347;53255;75797];
[20886;1;3;5;13;17;11;35;83;69;255;741;3927;153;11001;29145;37107;51873];
[20892;1;1;7;5;5;37;35;219;153;1005;973;2555;893;5931;23857;34631;74561];
[20906;1;3;1;11;21;63;113;29;115;307;957;407;879;4819;2865;1773;116825];
[20908;1;3;7;3;19;55;87;21;139;571;311;2295;2729;6371;11845;30223;19247];
[20957;1;3;7;5;23;9;59;25;357;863;435;2509;5599;14039;25731;41645;255];
[20962;1;3;7;13;9;3;63;115;503;489;1585;813;5419;691;23973;18677;59979];
[20968;1;1;1;1;13;3;55;23;185;731;459;1497;433;16243;29995;20777;59513];
[20979;1;1;7;3;27;55;77;57;349;5;617;385;6225;7025;23335;877;21973];
[20991;1;3;3;5;3;37;105;197;153;639;1643;1093;801;4605;4551;46081;7739];
[20998;1;1;5;11;29;23;5;91;39;489;2029;887;4451;11463;5641;56299;34027];
[21007;1;1;7;3;17;11;25;161;317;701;155;1989;7549;11529;9945;18395;61251];
[21010;1;1;7;13;23;55;113;91;17;149;1893;2793;8185;81;29487;47925;51837];
[21026;1;3;7;7;9;29;103;161;215;129;113;1987;919;9639;20715;6541;15041];
[21037;1;1;5;9;19;19;127;43;263;997;1687;3801;4249;6309;25889;1787;122771];
[21038;1;3;5;13;17;3;91;183;349;467;333;3299;3085;12135;16801;31471;37227];
[21045;1;1;5;3;7;53;11;221;407;545;237;3631;1791;3729;19737;921;57303];
[21057;1;3;7;15;3;27;71;45;219;9;1135;2267;6841;8637;30317;9397;115425];
[21082;1;1;3;5;29;59;121;225;419;813;1725;3969;3451;8457;31803;57659;33263];
[21093;1;3;3;3;17;3;65;249;423;293;1333;3947;1477;4005;30445;28171;95823];
[21094;1;3;3;11;29;45;67;89;75;95;555;1823;2795;11929;1995;30013;116241];
[21105;1;3;3;3;23;35;87;221;385;275;803;387;7765;15637;27953;20913;25279];
[21117;1;3;7;15;15;43;21;179;393;95;1913;1715;4467;15093;13613;50775;37133];
[21121;1;1;7;7;31;27;49;71;323;123;597;2395;4449;7249;20197;19789;92685];
[21124;1;1;5;13;31;37;89;225;357;201;1887;3915;2165;10809;21623;34375;110905];
[21136;1;1;5;7;11;53;37;55;61;679;1465;1587;2215;16237;14985;50507;128637];
[21139;1;1;7;1;15;53;115;21;279;555;43;2429;7251;2141;4813;47047;119551];
[21142;1;1;5;13;11;41;59;245;337;117;1125;4007;947;10591;17795;48535;72171];
[21145;1;1;5;15;27;41;71;43;505;539;975;1567;795;4433;11689;53051;98819];
[21167;1;1;7;9;1;57;57;137;323;311;759;3027;3713;13;24133;21451;1153];
[21170;1;1;5;15;31;49;23;123;271;549;1995;5;6065;3797;1085;50137;19741];
[21175;1;3;3;13;5;15;21;117;487;43;1759;2899;4239;9729;16711;31559;34553];
[21179;1;1;5;13;5;23;83;49;147;267;923;1377;1687;1793;30383;19537;66989];
[21182;1;1;1;13;9;41;105;241;499;891;885;3349;4703;5609;11999;58025;69089];
[21193;1;1;7;9;21;11;121;69;115;895;91;3745;41;12787;26181;31399;30463];
[21194;1;1;7;13;11;3;23;173;5;907;45;3465;2807;3731;14347;27973;8567];
[21207;1;3;7;5;27;47;43;25;499;57;649;705;6223;4213;4549;23213;13657];
[21217;1;1;7;11;21;35;5;79;295;359;1993;99;7917;14917;2131;45527;31451];
[21224;1;1;5;15;1;39;85;93;65;991;389;585;4835;11671;10913;41787;84953];
[21244;1;1;1;5;27;5;1;15;11;83;1191;3945;4697;7703;6929;6057;88721];
[21247;1;1;3;7;27;39;71;181;191;997;419;1671;7771;15305;18677;45033;64745];
[21252;1;3;7;3;15;41;33;239;93;307;153;2701;1549;5011;6913;19257;55829];
[21264;1;3;3;11;21;47;69;223;365;877;431;1629;4803;11591;13973;56359;11897];
[21273;1;3;7;7;1;59;63;129;251;873;603;2707;2847;8739;31343;63291;5607];
[21289;1;3;5;5;19;13;79;235;151;571;953;2191;5973;4751;11119;14439;97755];
[21290;1;1;5;1;27;3;105;139;13;821;221;2025;7303;1891;28193;45537;92703];
[21295;1;3;7;9;13;63;27;149;51;121;587;3695;4115;3955;22493;34903;51669];
[21297;1;1;5;7;19;5;89;87;269;585;421;3827;315;14739;109;43009;94969];
[21309;1;1;5;15;9;53;125;83;159;917;1583;585;6839;14957;20007;60467;96309];
[21318;1;3;5;1;23;49;109;91;17;731;1083;3153;1825;14293;25639;44599;47541];
[21322;1;1;3;7;21;51;45;25;367;925;799;1673;6977;7155;829;25899;104615];
[21324;1;3;3;13;13;49;95;239;195;353;1967;1419;929;503;11717;9485;62885];
[21329;1;1;1;15;3;41;109;91;327;789;1429;1159;2801;4845;19663;47737;11029];
[21332;1;3;5;1;21;63;57;107;229;771;1911;647;6989;12615;23191;64941;97595];
[21336;1;1;1;15;5;13;15;109;459;447;1625;1269;7629;7929;4405;12143;40481];
[21342;1;3;3;1;23;3;95;229;363;379;1149;1615;5125;3645;27535;58791;38091];
[21351;1;1;1;1;9;45;119;85;151;171;1123;41;6517;8067;17845;23301;95383];
[21355;1;3;1;15;17;31;103;71;35;1019;1687;1175;6119;14075;26601;28873;36617];
[21363;1;3;3;9;13;39;7;17;207;219;637;3025;1709;4031;563;14865;129389];
[21372;1;3;7;1;21;11;121;85;111;641;1163;3173;5189;13261;19471;39635;76545];
[21382;1;3;7;15;3;45;3;37;121;967;1861;3257;3699;6881;11905;8413;59397];
[21388;1;3;3;13;25;53;85;181;1;979;2045;297;1739;8139;17897;35251;7193];
[21394;1;1;1;3;5;49;77;115;377;209;1415;3747;485;803;2507;27729;52201];
[21403;1;3;1;5;31;55;85;171;135;893;1423;3693;6155;5321;8297;39183;88377];
[21409;1;3;3;15;1;35;73;239;181;101;509;2449;4955;13049;27631;16871;40151];
[21416;1;1;7;13;27;7;109;71;437;835;563;1355;3681;7431;32743;59693;125055];
[21421;1;1;7;5;19;23;29;147;291;507;1943;2069;3309;11569;1031;49345;86735];
[21424;1;1;3;13;17;45;91;167;19;137;527;961;4435;2277;6863;57917;129407];
[21444;1;3;5;7;11;31;79;207;43;871;1121;2929;6899;4099;29533;45333;33299];
[21453;1;1;7;5;5;49;13;95;475;91;337;3531;3157;1331;32655;46169;3549];
[21466;1;3;1;5;5;9;73;177;123;251;717;541;7083;6907;1417;31203;9755];
[21471;1;3;1;11;21;11;91;155;447;165;1525;2073;5103;193;2677;43673;70579];
[21495;1;3;7;1;7;27;115;247;211;779;1999;209;3215;111;25567;34641;130873];
[21499;1;1;5;9;25;7;15;19;217;831;1577;2051;3533;2337;7675;2845;69135];
[21504;1;3;5;15;29;11;91;59;221;383;1235;1261;2967;14989;11455;6459;58047];
[21507;1;3;5;1;3;35;5;127;99;981;493;3001;5651;3125;27789;57389;115631];
[21521;1;3;5;5;29;63;123;161;247;177;1653;2665;3903;11129;20961;49429;44075];
[21527;1;3;1;1;13;9;57;167;291;765;1929;397;5503;5601;6957;62003;104631];
[21555;1;1;7;15;9;43;57;85;157;361;1931;2183;8045;14939;2169;25733;29095];
[21558;1;1;3;15;13;35;47;123;13;667;1373;4069;6259;13453;13439;25349;99437];
[21562;1;3;7;1;31;15;69;45;355;919;415;793;3987;8785;4905;8177;123989];
[21570;1;3;7;13;29;27;69;57;385;185;171;2499;3983;13437;23585;21501;88079];
[21576;1;1;5;11;27;3;77;99;221;997;1653;1963;2251;15505;26347;51933;100679];
[21579;1;1;1;7;19;39;49;69;193;235;959;2823;2573;8001;4389;13217;60975];
[21581;1;1;7;5;1;3;3;189;199;293;1225;1913;7271;2255;661;23293;82069];
[21587;1;1;5;5;21;31;35;113;47;479;325;1663;7409;8975;14151;56317;79663];
[21590;1;1;5;9;15;63;99;135;277;715;667;387;6929;12873;12913;2599;84939];
[21599;1;1;7;15;23;39;67;25;179;313;459;295;1103;1737;7529;29463;104693];
[21605;1;1;3;13;23;11;111;67;105;191;1967;3497;7621;487;18545;59521;115315];
[21612;1;1;1;7;25;45;83;61;231;569;155;2817;6985;5289;6731;3087;89749];
[21618;1;3;7;1;1;61;103;49;135;411;659;1735;4461;8077;12885;62791;114769];
[21630;1;1;7;13;3;53;21;81;433;563;857;891;195;11669;24769;56539;47601];
[21639;1;3;1;13;3;41;59;101;67;803;1209;3267;1255;5763;5483;36339;38451];
[21640;1;3;5;3;25;51;53;213;329;11;483;81;2151;7623;26309;15289;85103];
[21643;1;3;3;13;23;17;9;161;417;207;39;3615;7567;15207;20383;58885;121765];
[21648;1;3;1;7;15;59;9;195;187;583;341;2737;3891;331;18055;60455;113271];
[21669;1;1;3;3;19;25;95;37;281;59;1613;2733;5715;4067;5509;5851;35189];
[21679;1;3;1;3;31;43;125;107;341;109;1991;849;7795;13607;20421;3339;78979];
[21681;1;3;7;13;15;57;87;151;479;99;479;447;7407;303;16397;15699;122273];
[21687;1;1;3;1;27;61;79;195;5;839;1411;3451;4627;13715;18401;24325;44027];
[21688;1;1;7;15;21;39;57;207;213;367;547;1203;6385;2555;31465;15675;7133];
[21706;1;1;5;15;27;3;75;123;337;1019;1525;3065;1919;10779;27409;6291;86291];
[21713;1;1;7;11;15;27;67;145;125;521;647;2957;6337;14973;24139;29107;27151];
[21714;1;1;1;13;25;57;103;83;321;111;131;2051;5267;4723;1939;40389;4803];
[21716;1;3;1;7;29;7;35;133;349;855;613;2563;2261;2119;13939;24727;26719];
[21730;1;3;3;1;11;61;25;177;427;1005;2027;649;7871;7803;4717;59207;57945];
[21732;1;1;7;1;15;45;75;133;193;745;485;197;6001;13837;615;43629;127321];
[21749;1;3;3;13;5;7;101;183;211;283;1327;1395;8175;13359;18361;54243;3555];
[21756;1;1;7;13;7;43;19;41;319;701;795;1407;7113;9149;31953;17075;53975];
[21774;1;3;5;13;11;19;101;125;327;75;1471;3465;2247;5107;11519;45161;71373];
[21779;1;3;7;13;23;59;53;57;137;575;59;3829;963;11259;25771;29223;79535];
[21781;1;3;3;11;17;31;111;147;499;441;1385;769;6901;8349;1427;16561;7485];
[21786;1;1;7;9;21;7;47;83;351;867;265;1329;7853;6959;11821;44947;42275];
[21792;1;1;7;15;3;17;79;143;449;577;1007;1101;3229;6861;23921;37551;117309];
[21810;1;3;5;11;27;63;107;15;289;821;1723;1945;1373;14469;30985;55987;21255];
[21819;1;3;5;3;21;39;79;85;485;733;2031;1573;6873;12225;30471;54233;26967];
[21829;1;3;5;7;17;29;93;251;437;583;825;551;6545;10905;27863;37037;52129];
[21830;1;3;7;9;23;1;23;85;195;319;1759;3985;2413;16205;22197;48821;94907];
[21844;1;1;3;7;17;47;3;195;167;925;11;3431;1767;5917;13915;54565;64625];
[21853;1;3;1;13;23;43;97;93;313;773;591;127;6005;11497;32573;8173;92053];
[21867;1;1;5;9;17;47;115;237;389;619;377;561;1333;6433;9743;32673;98039];
[21869;1;3;7;15;23;17;99;225;145;191;2041;581;841;9377;18123;32773;66849];
[21882;1;3;7;15;21;49;97;41;357;527;2019;2083;2611;12449;20037;52503;105991];
[21891;1;1;5;13;17;53;41;75;355;207;1675;591;5797;9217;16443;3205;81905];
[21898;1;3;7;11;1;61;29;207;449;103;1527;2327;7895;10137;25223;51607;60809];
[21917;1;3;3;5;15;57;87;233;301;989;485;2143;7411;5475;23377;56005;59721];
[21934;1;3;1;15;29;7;95;141;369;231;735;1103;1565;11575;571;3257;62961];
[21946;1;1;5;15;27;19;25;35;303;555;95;1323;6139;5079;21763;59591;103537];
[21948;1;1;1;13;25;23;85;151;135;349;1753;1061;7697;1723;5213;12581;103995];
[21963;1;3;1;9;29;51;101;195;59;809;1527;2179;63;3681;29823;57537;121371];
[21966;1;1;7;11;27;61;85;213;245;261;1649;2423;6127;5687;4247;56061;109793];
[21968;1;3;5;15;11;33;127;31;269;857;2027;2611;1729;11783;16459;31083;30671];
[21973;1;1;7;9;11;29;127;177;505;227;1499;1309;6855;9999;21815;32987;79109];
[21977;1;3;7;11;7;21;107;1;493;459;867;3199;7985;12957;28197;41133;105985];
[21980;1;1;3;15;1;57;113;97;213;547;1017;2961;461;16125;10621;4243;58277];
[21984;1;1;3;5;11;57;61;47;209;961;333;795;4491;15115;25745;62633;66269];
[21994;1;1;7;3;19;13;49;167;455;863;581;1407;4247;15023;2247;19981;125891];
[21999;1;1;7;15;17;55;27;35;33;349;879;1781;1075;2475;30689;42043;29423];
[22018;1;1;1;11;25;53;121;117;117;845;447;3927;1951;8643;24497;44833;99533];
[22020;1;1;7;13;3;59;117;9;359;453;327;3419;5957;97;20541;49441;5673];
[22029;1;3;5;5;31;35;95;107;435;733;827;1361;6627;8905;2681;25473;46093];
[22032;1;3;3;5;7;23;75;137;231;915;637;2963;4409;12799;31587;65363;69539];
[22041;1;1;1;7;15;35;19;233;189;837;243;2525;6185;565;8133;4265;3089];
[22047;1;1;5;5;19;59;103;201;287;449;21;2331;341;13145;18607;46407;2767];
[22048;1;3;3;15;19;41;49;179;109;367;1185;1045;1635;9647;16613;25357;34291];
[22071;1;3;5;1;13;11;89;25;159;637;1979;549;3553;9163;227;50553;46307];
[22075;1;1;3;1;17;33;73;239;261;751;1267;2643;2549;8331;25083;9715;67289];
[22078;1;1;1;13;3;49;7;35;367;293;903;1045;569;6017;27635;51833;32963];
[22083;1;3;5;3;31;3;69;137;57;87;719;3977;3031;7675;24605;8757;93173];
[22089;1;3;3;1;7;45;97;35;233;69;1525;4047;2599;13679;4389;49079;121465];
[22097;1;1;7;13;7;25;57;211;337;189;1825;2451;7651;11277;27763;40671;57223];
[22110;1;1;1;1;15;59;55;169;461;907;407;803;3349;4727;20983;47717;51647];
[22113;1;3;7;1;15;51;25;119;439;593;1289;3959;5489;13283;31837;8441;58373];
[22119;1;3;1;9;5;1;81;45;13;537;1091;3861;6781;5679;2807;29757;40917];
[22120;1;3;5;3;27;41;19;235;207;697;775;837;3431;3175;10807;42775;67987];
[22126;1;3;7;3;29;33;35;119;271;609;1747;2839;3415;2275;30979;41293;99341];
[22133;1;3;3;3;5;17;13;169;269;709;1449;3169;1545;16075;8937;39705;19609];
[22134;1;3;5;15;29;13;1;199;65;385;977;797;1181;10979;241;40393;73663];
[22140;1;1;3;7;17;35;47;63;193;451;151;3415;99;14557;26025;31361;112639];
[22147;1;1;3;5;19;13;29;33;365;311;1241;217;6205;13067;18585;21693;97127];
[22161;1;1;3;15;19;7;87;25;91;13;1839;1445;957;9779;25557;37027;38987];
[22164;1;1;5;1;21;5;79;67;481;455;37;1321;7723;1413;7919;11035;5739];
[22173;1;1;1;15;9;55;111;1;383;439;1037;4055;4243;10443;26737;21039;130847];
[22197;1;1;7;9;13;25;71;137;307;717;1009;2477;3861;14145;14549;59589;93401];
[22207;1;1;7;5;29;63;77;49;471;267;1457;1743;1915;14793;17899;28011;92183];
[22210;1;3;7;7;7;41;47;251;75;749;1915;1015;5869;3211;24097;14349;130571];
[22216;1;1;1;1;31;63;105;83;345;147;975;135;7299;15801;19311;26143;80293];
[22234;1;1;3;1;7;1;47;45;251;635;583;3515;5233;6281;7797;37949;75877];
[22257;1;1;3;3;5;53;99;175;155;327;1841;211;2811;16099;17255;34253;124141];
[22264;1;3;1;3;13;27;81;217;115;245;101;1641;29;1441;4829;28399;102303];
[22278;1;3;1;5;11;55;31;91;337;203;987;977;4929;14933;25149;20493;19783];
[22284;1;1;5;9;9;37;103;211;349;165;1421;3015;5133;4615;28173;45787;10711];
[22287;1;1;1;1;1;17;29;117;421;651;1617;1677;7841;16303;8843;1321;90701];
[22299;1;1;1;15;27;23;49;195;139;319;1277;901;63;14677;21815;19497;24883];
[22301;1;3;3;13;1;23;17;189;293;765;1503;1485;7427;11807;17629;61739;111365];
[22308;1;1;5;5;15;41;25;53;221;449;1597;2763;4119;6319;17509;23493;104707];
[22337;1;3;7;11;29;21;101;197;161;457;331;3817;5139;14307;23225;55567;62535];
[22349;1;1;7;5;9;57;39;101;5;847;1311;313;2877;14811;21969;31741;8075];
[22350;1;3;5;3;1;11;45;163;251;775;1031;1957;1631;1691;3191;6255;13037];
[22357;1;1;3;13;7;11;95;97;409;835;707;1579;2409;9451;15069;62425;106499];
[22364;1;3;3;11;5;25;23;207;429;299;537;1467;6309;891;15009;56733;60397];
[22373;1;3;5;3;29;47;95;115;207;177;543;427;145;11169;7441;10911;87413];
[22377;1;3;7;11;25;53;15;225;115;295;919;39;513;9989;11045;24015;102387];
[22380;1;1;7;15;13;31;103;143;357;825;183;137;2671;9803;14777;48333;79483];
[22386;1;3;5;1;25;13;65;9;461;307;1289;1035;7253;14223;16829;23361;84987];
[22391;1;3;5;7;5;57;47;251;5;9;965;2883;3105;13931;807;31977;119035];
[22392;1;1;3;5;3;7;55;165;3;787;1587;989;6049;14021;30789;15283;92851];
[22411;1;1;5;5;3;17;11;167;487;885;193;3485;8179;9485;24913;40267;70625];
[22422;1;1;7;1;27;31;9;139;73;137;783;321;691;6157;19905;45525;84877];
[22425;1;3;1;9;17;39;127;177;301;579;1065;3899;281;9177;16295;51217;120293];
[22431;1;1;7;9;31;59;17;93;247;779;847;1183;3453;1073;18597;2655;121633];
[22438;1;1;7;1;25;43;47;253;23;999;973;1201;1061;5947;5619;36311;1545];
[22441;1;3;5;7;11;5;103;119;229;657;1993;1991;1597;13165;19137;7161;83487];
[22442;1;1;1;1;11;23;105;183;467;83;899;2447;4949;4171;28943;4829;13033];
[22449;1;3;1;7;15;7;47;215;253;109;1975;3337;1553;13575;16835;61525;26423];
[22452;1;1;7;1;21;17;53;79;175;267;999;249;6177;10453;12475;59801;47351];
[22461;1;3;5;11;3;57;5;193;421;799;1833;2635;6537;4669;9597;40661;12113];
[22467;1;1;7;11;9;11;69;103;139;167;159;2469;703;1519;21553;62875;60449];
[22479;1;1;5;3;9;11;17;183;499;301;1275;605;7655;12141;7783;39413;116263];
[22484;1;1;1;7;31;55;23;79;49;247;761;3573;8187;4879;27379;15725;81415];
[22487;1;3;5;5;5;49;23;205;509;383;1165;3839;7663;1539;19967;55901;4351];
[22493;1;1;1;11;7;15;3;159;235;735;391;2231;5043;9759;4569;35601;71989];
[22510;1;3;3;15;23;3;49;97;99;517;1097;3517;1035;2319;27705;25547;101555];
[22521;1;3;7;11;27;29;33;241;205;113;291;1993;3277;13155;1039;42367;130477];
[22533;1;1;1;3;29;19;15;159;35;153;1177;3011;6271;8203;8971;19183;102871];
[22534;1;1;1;5;5;51;19;175;209;895;229;2355;499;7877;4935;22737;35587];
[22543;1;3;7;11;15;9;7;113;41;835;1593;3933;7165;10959;15487;30019;114505];
[22548;1;1;7;5;31;21;27;11;421;165;1605;1859;29;13051;3273;3893;56089];
[22552;1;3;5;5;17;51;55;187;401;977;95;2617;727;9609;5075;48989;120299];
[22558;1;1;5;7;21;31;127;87;379;125;247;3607;2555;11873;32535;16677;122273];
[22561;1;1;1;5;19;21;51;185;203;145;1073;167;235;12753;17315;14683;44101];
[22562;1;3;3;1;5;61;71;17;63;151;823;17;5315;4861;17279;23049;84971];
[22568;1;3;3;5;21;63;21;235;295;467;1661;2487;335;6107;28709;55875;129085];
[22571;1;3;3;5;1;55;35;187;5;687;1633;2999;4513;10105;15249;22591;102857];
[22574;1;3;1;5;19;1;113;27;261;623;831;3011;4091;11967;17191;17433;99925];
[22581;1;3;5;5;25;59;81;249;463;523;183;3049;3675;2705;28379;1279;25579];
[22594;1;1;3;9;19;19;71;127;189;613;647;1449;7755;1415;9067;30683;79703];
[22603;1;1;7;1;27;33;61;135;233;633;1969;2245;5841;14069;6497;63617;101483];
[22605;1;3;3;9;23;3;17;163;309;741;2023;2647;5847;7871;22311;38377;70663];
[22606;1;3;5;15;31;33;51;243;209;273;1305;1599;6115;6249;8639;5903;17215];
[22623;1;1;1;1;21;11;107;185;463;435;149;3789;6283;1327;20893;10417;78673];
[22630;1;1;1;13;5;53;121;129;493;419;1711;2765;7673;8979;25845;62759;9669];
[22651;1;3;5;5;1;39;123;47;449;639;625;2355;511;1685;1415;32417;76529];
[22657;1;3;1;11;1;49;67;237;203;967;1401;2773;4951;13889;14147;41031;71897];
[22669;1;3;5;11;13;49;17;113;315;207;1057;3395;6151;2767;16571;1811;66403];
[22670;1;1;7;7;29;63;49;115;327;987;1853;3355;8139;2703;30039;51343;86999];
[22677;1;1;3;9;1;3;45;35;509;483;159;1795;8023;6989;3755;20887;13587];
[22682;1;1;3;7;1;27;39;159;283;843;317;3229;2297;15031;22039;21721;70583];
[22698;1;1;3;11;9;23;1;35;79;77;1671;2583;647;12313;16271;2959;108389];
[22712;1;1;1;7;5;55;1;233;429;231;833;1279;7815;1051;30627;4435;25997];
[22715;1;3;1;15;19;53;9;165;307;437;551;2477;1841;11799;18477;5871;20065];
[22729;1;1;1;1;21;5;65;41;77;909;93;751;2973;7341;30427;60075;71457];
[22732;1;1;3;11;25;51;49;63;165;263;1915;747;8053;6361;4843;20189;110147];
[22735;1;3;1;9;29;9;45;177;415;557;1555;2967;1239;8115;12853;19193;73681];
[22738;1;1;5;5;11;5;51;157;325;517;1601;3911;1487;13631;7483;61515;48937];
[22740;1;3;7;5;29;31;107;47;437;837;1791;477;1717;7;25855;48793;16385];
[22750;1;1;1;3;29;49;31;255;233;935;1993;125;2255;12785;2807;54697;62591];
[22753;1;3;1;7;15;13;9;245;79;289;841;253;5259;16123;29189;63837;127915];
[22760;1;3;7;15;15;55;91;103;445;289;1471;423;3387;15609;19311;28993;23473];
[22765;1;1;3;11;31;39;69;125;115;309;397;3417;5693;10301;1489;25955;2699];
[22768;1;3;3;5;13;21;51;207;239;311;1601;2925;6285;9597;30579;62957;6153];
[22778;1;1;7;1;27;21;63;143;399;971;1385;1875;5143;6423;6223;27009;14237];
[22785;1;3;5;1;5;59;125;133;151;997;1315;3007;8173;16289;13409;839;103519];
[22809;1;1;1;13;7;57;83;33;191;121;939;3927;6089;10083;5903;52229;78325];
[22810;1;1;3;5;9;61;43;107;279;135;1109;3779;5305;15333;12217;41257;20265];
[22812;1;3;7;1;31;59;83;43;219;119;511;2973;4587;10701;30959;21489;124077];
[22828;1;1;7;9;17;3;59;151;281;209;1405;173;3589;7679;29803;53947;68291];
[22840;1;1;7;7;5;19;53;91;1;513;1495;231;3627;1115;16121;12953;108343];
[22845;1;3;1;13;17;3;35;35;211;481;2029;1035;3131;5653;18097;10735;102453];
[22848;1;3;1;11;29;7;121;135;51;837;681;1497;7435;2215;26527;33029;93241];
[22857;1;3;3;15;29;43;17;243;195;315;499;3801;5691;12119;4061;51769;80497];
[22877;1;1;3;1;11;1;113;11;387;579;275;2995;895;11859;4017;1543;11853];
[22882;1;1;7;9;31;27;63;217;97;275;435;1355;5205;6587;32589;46485;103587];
[22887;1;3;7;3;7;19;51;41;81;261;1909;1475;425;3173;5679;34701;34977];
[22894;1;1;7;3;27;15;35;49;387;471;1997;3643;2701;11853;21311;36027;104357];
[22912;1;3;1;9;5;47;73;163;309;891;229;2433;6715;6721;25233;37043;29367];
[22930;1;1;1;7;27;15;9;185;421;597;565;143;1531;15585;17057;54309;82915];
[22936;1;1;7;1;5;43;87;61;121;341;25;3795;7161;11985;32197;789;69543];
[22939;1;3;5;13;29;39;81;39;263;729;1833;365;1073;9869;1845;52621;5];
[22957;1;1;7;7;5;33;117;11;371;161;1303;629;2285;5827;32355;43359;115595];
[22970;1;3;5;5;13;57;63;9;243;533;173;2197;717;13441;22131;17783;3319];
[22980;1;1;7;11;15;31;87;255;183;273;805;2347;5881;15401;273;17397;41827];
[22984;1;3;1;13;7;17;121;49;47;121;333;3629;5337;4117;2735;36581;61345];
[22992;1;3;3;11;9;7;25;223;379;119;385;1217;4803;2947;30665;7733;77893];
[22998;1;3;3;7;31;35;127;97;5;373;7;3035;843;5991;9265;34289;42785];
[23001;1;3;7;3;27;19;95;253;349;871;807;413;5847;10467;4277;12429;75773];
[23044;1;3;3;7;21;1;79;89;219;505;41;505;5159;12839;3317;49873;73705];
[23061;1;3;1;7;21;43;121;113;477;559;1831;3759;3315;6367;7149;16395;44703];
[23062;1;1;1;7;13;53;35;53;489;975;631;863;3067;1905;21351;14705;80041];
[23071;1;1;1;5;13;27;121;65;351;123;1731;367;8061;5229;8537;20897;130373];
[23075;1;1;5;11;15;63;101;107;105;619;1771;3549;7191;9083;16827;29639;34219];
[23089;1;3;1;9;15;13;87;157;379;433;217;815;5079;1797;26707;35165;92305];
[23090;1;1;5;13;27;35;31;65;313;629;375;1391;5373;3497;7311;23105;45293];
[23096;1;3;1;3;5;39;91;37;401;419;949;2431;3685;6671;20789;8597;44215];
[23101;1;1;7;11;7;15;3;181;363;913;309;2009;3805;6651;27677;37711;40813];
[23114;1;3;5;5;17;11;47;9;27;459;773;1403;7069;12651;8163;42425;126697];
[23121;1;3;1;3;11;21;65;103;405;843;59;3653;1759;5265;401;58019;124999];
[23124;1;1;3;7;11;25;61;211;199;849;1835;1181;5003;3873;23743;45451;54901];
[23127;1;3;5;3;29;25;43;199;481;991;699;3937;7601;1253;24399;6625;93917];
[23128;1;1;7;3;29;33;33;151;3;825;743;773;7825;8157;22121;50095;16435];
[23137;1;3;1;1;27;15;81;151;271;167;1755;1289;7473;8525;12525;63139;48787];
[23138;1;1;7;13;27;33;87;125;211;631;149;3451;643;6975;2659;12629;33187];
[23150;1;1;3;3;5;49;99;99;85;647;351;2829;7005;7283;5857;46157;52061];
[23155;1;1;3;5;11;37;43;129;21;639;187;2279;8189;12877;28707;7133;93639];
[23168;1;1;3;7;19;13;35;51;77;811;1553;2769;763;4965;4643;37639;44229];
[23173;1;3;5;15;11;29;103;203;435;1017;531;1453;1407;6569;619;52103;45213];
[23174;1;1;7;5;25;25;47;229;201;843;473;2637;2265;4627;20013;41217;76095];
[23195;1;3;3;15;23;61;109;31;57;595;1303;3915;67;8205;3553;9543;103385];
[23202;1;1;3;3;21;19;21;41;137;905;2045;491;1783;151;20963;38009;735];
[23225;1;1;7;11;13;33;95;251;179;211;1687;3189;6213;3905;2117;15153;4855];
[23226;1;1;5;3;19;9;67;243;23;611;1007;1317;7303;11065;21157;56677;81683];
[23239;1;1;3;5;19;41;63;129;233;15;37;1445;1095;11309;30181;49199;85113];
[23253;1;3;7;1;21;53;83;79;155;379;773;1823;1003;2787;31107;36115;40987];
[23263;1;3;3;5;3;19;7;247;417;573;407;3577;6079;10275;29791;35149;102565];
[23264;1;3;3;9;21;49;57;223;125;671;655;2995;5849;5355;21171;54857;114841];
[23281;1;3;7;3;27;23;125;103;485;955;963;1865;2321;2263;32497;47973;122111];
[23282;1;1;3;15;3;1;37;19;287;165;1717;851;3619;13623;24295;48253;13143];
[23288;1;1;7;9;13;59;69;97;113;163;871;1795;2719;13675;11767;23687;65841];
[23294;1;1;5;3;21;31;41;115;469;177;137;2129;1385;10835;16471;59411;30795];
[23302;1;1;7;7;13;45;73;119;457;673;1481;3735;2675;11413;9069;34741;8757];
[23311;1;3;5;3;15;9;11;191;499;51;1963;3957;1341;7129;13491;65369;4339];
[23320;1;3;7;1;5;45;103;209;183;205;525;2417;847;10801;10699;16723;36421];
[23325;1;3;7;13;3;57;37;75;299;359;2017;125;6737;4859;18443;20765;40319];
[23356;1;1;3;5;5;17;43;141;31;141;1019;1685;6831;9433;31245;29227;64083];
[23374;1;3;1;13;25;47;107;69;459;595;1759;3391;1531;15197;25975;16971;70861];
[23388;1;1;3;11;3;53;63;211;69;469;1407;1435;2763;917;19943;16591;97101];
[23402;1;3;5;13;25;41;39;61;319;809;1109;169;3101;8801;21697;50759;130985];
[23415;1;3;1;9;23;1;11;249;243;605;1419;269;1601;2063;5365;38077;106161];
[23421;1;1;7;7;19;55;97;155;477;845;61;263;1337;8857;31611;44417;43111];
[23426;1;3;3;15;7;63;45;239;291;279;1875;3769;1571;15857;13335;17209;34399];
[23443;1;1;7;11;19;19;69;111;217;927;1643;1077;4763;15893;17491;39737;10705];
[23446;1;1;5;11;3;3;31;199;109;403;973;3833;2729;7285;26743;53915;96203];
[23455;1;3;3;11;9;7;19;145;495;805;381;919;1323;4343;15887;5163;68267];
[23461;1;1;3;11;15;31;27;201;251;279;1377;1313;7143;9731;10451;63431;31307];
[23468;1;1;7;1;1;55;35;249;133;645;425;279;6401;11687;751;947;21791];
[23471;1;3;5;9;5;43;89;31;419;573;1087;2197;3451;2393;6569;4859;36607];
[23485;1;3;5;15;25;51;11;149;483;789;661;967;3537;15511;26587;29861;120337];
[23486;1;3;5;13;21;39;75;111;57;321;1591;381;7399;10807;26651;62489;78341];
[23488;1;3;1;13;1;1;49;137;193;967;805;221;803;11381;27803;51013;10475];
[23498;1;3;7;5;3;13;47;195;123;753;397;1203;981;12863;20845;36155;19055];
[23500;1;1;1;9;9;11;53;203;3;163;1537;2061;941;12629;16053;34881;31489];
[23515;1;1;1;15;5;23;51;197;459;21;1989;2529;4267;1505;8951;15777;20493];
[23521;1;1;7;3;31;55;9;55;217;695;1563;4077;3207;7029;10881;39581;82511];
[23527;1;3;1;5;1;11;81;1;505;631;1093;3655;2085;7349;5009;49381;30527];
[23534;1;1;7;1;27;51;25;235;213;59;611;3883;2909;6411;19605;49001;114529];
[23546;1;3;5;3;25;29;19;137;199;681;1625;2711;4873;14677;9767;30441;54673];
[23559;1;1;1;9;27;43;109;161;139;675;741;2839;1425;5701;19897;12787;33069];
[23560;1;3;5;11;21;19;77;107;197;591;1899;1311;3347;6369;26891;3771;32455];
[23566;1;1;7;15;31;13;109;69;207;349;249;971;7891;10919;31579;38453;124601];
[23584;1;3;5;5;27;61;67;193;53;259;1729;4033;2637;8217;22351;4001;118527];
[23587;1;1;3;5;9;45;55;73;189;131;1947;1889;837;4085;10393;64359;1037];
[23594;1;3;7;3;13;51;55;37;335;939;35;461;5057;2595;3305;58823;3941];
[23602;1;1;7;11;7;3;121;139;241;477;615;2707;5391;7611;11563;41083;16719];
[23607;1;3;3;15;27;55;13;221;195;543;215;4035;1647;8111;26425;43571;79893];
[23616;1;1;1;5;31;5;35;145;481;339;1951;2155;1309;9851;31505;37371;21247];
[23621;1;1;7;9;7;5;73;119;3;741;1351;2855;2207;1465;12047;13507;129173];
[23631;1;1;7;13;5;57;119;63;367;327;1257;3191;6929;9593;16565;54397;100305];
[23634;1;3;1;11;9;1;85;53;65;945;17;1963;4819;16173;11669;53579;33701];
[23636;1;1;3;15;25;27;3;25;23;429;197;2717;6107;6719;12457;31793;78647];
[23649;1;1;3;1;7;63;111;235;299;91;369;1423;7083;4229;18535;33793;19943];
[23652;1;1;7;13;9;11;123;9;169;895;1989;1047;6139;11773;19381;9593;14809];
[23679;1;3;1;3;29;31;63;91;59;391;1695;2459;3301;5615;3425;8029;16069];
[23686;1;1;7;1;25;25;79;49;131;695;987;2911;1109;8237;18227;37287;22443];
[23697;1;3;3;3;25;21;33;207;187;381;129;445;2967;5119;18777;14849;97115];
[23703;1;1;7;13;19;9;93;185;391;579;1509;3245;3921;9473;4795;6685;49549];
[23714;1;1;5;11;1;49;57;127;363;811;1383;2869;7625;15177;2581;64253;53677];
[23719;1;1;7;3;7;27;73;187;31;1011;1013;3269;6625;5001;20805;13331;93725];
[23723;1;3;7;1;23;61;123;9;141;113;1009;3713;4947;9929;24125;1101;104249];
[23726;1;3;7;3;23;17;25;187;189;875;1435;163;4197;6619;29031;23117;45347];
[23728;1;1;5;7;11;17;9;55;117;223;417;3993;1843;5817;20435;56705;98337];
[23733;1;1;7;3;21;59;3;77;297;61;407;1603;3209;1611;30185;50275;56139];
[23740;1;1;1;5;31;3;101;167;367;543;339;1885;7855;9989;30969;6735;108123];
[23751;1;1;3;9;27;63;9;79;335;351;673;3107;3955;1799;16879;57631;109073];
[23755;1;1;1;3;27;17;107;115;155;371;379;2837;6213;2663;1101;451;69517];
[23765;1;1;3;9;13;3;55;9;449;43;1011;3281;5311;223;10715;6639;79949];
[23766;1;3;3;11;23;9;43;185;271;1005;1041;2633;377;4247;10417;51903;19239];
[23769;1;3;1;9;15;39;115;233;33;425;1979;583;1901;8943;1527;56065;50159];
[23779;1;1;3;1;13;1;105;149;13;625;671;1811;3701;241;27357;25835;127265];
[23794;1;3;1;9;11;23;107;197;21;589;1065;2591;1163;15013;8931;6355;87079];
[23796;1;3;5;3;17;5;121;61;99;987;2033;2237;2299;14689;19785;9599;101035];
[23803;1;1;1;1;17;25;5;97;55;75;1419;2793;7215;3185;7029;23023;89089];
[23813;1;3;3;3;11;57;103;191;405;463;1421;253;6069;10905;18193;719;17337];
[23820;1;3;5;11;23;37;39;169;295;527;1671;3913;6057;689;27719;47245;95895];
[23841;1;3;7;5;13;9;43;189;411;155;559;3701;1623;2401;10359;22675;41897];
[23853;1;1;1;11;17;55;47;101;357;669;857;2745;6425;11839;13095;10757;52383];
[23861;1;1;7;5;11;13;53;151;93;455;133;3353;1417;7917;12913;2615;34281];
[23862;1;1;3;5;29;57;43;35;203;423;311;3133;1757;1291;2019;3115;126939];
[23873;1;1;3;11;9;43;119;95;135;351;1865;2821;717;6275;19713;42315;97935];
[23876;1;3;7;7;31;51;7;29;405;31;1765;3231;1315;1307;26469;62033;35619];
[23897;1;1;5;7;5;17;49;137;501;631;1401;2851;6971;14721;4329;26483;120007];
[23898;1;1;5;13;21;19;95;93;125;331;1797;1653;1891;11081;30989;24671;95421];
[23903;1;3;3;11;13;29;61;157;165;39;661;89;637;1397;12561;62399;129107];
[23904;1;3;1;15;13;19;5;115;345;903;531;4069;6775;7433;569;21779;13271];
[23910;1;3;3;9;5;53;17;115;67;939;1907;3979;4311;3573;857;34931;112397];
[23931;1;3;7;11;9;47;83;85;277;219;1701;3013;3037;3473;3797;40713;118573];
[23933;1;1;3;13;25;33;117;115;179;119;487;3213;2873;17;20865;20043;64381];
[23934;1;1;1;3;1;45;73;103;75;579;981;2449;2141;8697;22995;59693;104461];
[23943;1;3;1;1;29;9;9;201;55;389;1069;2057;4149;9217;10753;7889;95849];
[23952;1;3;7;9;27;39;19;223;7;253;55;503;3339;6049;32603;34807;115403];
[23955;1;1;5;3;13;21;67;87;205;309;1371;1579;281;16135;28403;25951;24109];
[23962;1;3;1;3;17;21;49;77;393;943;1701;2661;5173;12875;2731;40531;19301];
[23971;1;3;1;5;23;29;61;161;373;389;1699;359;2513;4717;30397;24395;20881];
[23978;1;3;5;5;29;3;115;251;277;487;7;3301;7945;14233;20497;62035;21537];
[23998;1;1;1;9;7;59;23;85;367;109;1761;4011;6535;8263;2081;63647;69807];
[24003;1;1;7;11;21;41;29;219;271;617;929;407;2899;14299;7645;44815;58817];
[24009;1;3;5;7;11;29;119;33;261;571;2013;3327;2181;12767;93;2437;76533];
[24017;1;1;7;13;17;39;55;203;261;917;967;3651;7235;13751;14439;7591;96553];
[24045;1;1;1;1;11;39;19;21;125;93;1773;1155;6213;7173;9057;6219;4643];
[24046;1;3;1;5;1;31;55;143;425;539;61;3377;7647;257;15007;24511;8707];
[24060;1;3;3;11;27;51;103;197;427;139;181;1169;3123;11803;5285;1321;62267];
[24064;1;3;5;9;11;3;13;149;197;37;31;927;3313;16149;14209;60177;46525];
[24076;1;1;5;13;15;29;103;49;355;797;1253;1833;621;3877;9981;49207;91035];
[24079;1;1;3;3;13;19;27;51;151;275;35;3755;7511;14197;26141;43765;104327];
[24087;1;3;5;15;23;47;101;213;97;957;831;1533;7913;15763;29717;60425;38559];
[24094;1;1;7;9;29;31;49;245;361;299;151;2969;1487;1761;11697;4043;100909];
[24100;1;1;1;3;17;49;99;159;3;525;1527;3435;5113;459;13341;54103;85813];
[24118;1;3;1;1;5;59;35;75;107;91;1621;3261;619;3271;10813;29857;1547];
[24121;1;1;5;9;9;33;85;245;39;879;1621;2587;3825;12939;30113;24611;68491];
[24132;1;3;1;3;9;39;93;241;307;237;3;1763;7729;9257;31911;32591;77333];
[24147;1;3;1;3;27;7;51;121;317;361;1027;95;7035;3097;21007;38311;88287];
[24165;1;3;7;3;19;3;111;115;339;793;1571;3101;1911;14929;12841;45871;119905];
[24172;1;1;5;7;31;61;37;143;279;941;1215;2411;7617;1657;10189;19139;6307];
[24177;1;1;3;9;21;35;13;157;187;79;689;1085;37;4549;5901;15321;61627];
[24184;1;3;1;13;15;39;21;231;39;327;801;2321;587;1877;3489;54467;95773];
[24187;1;1;5;7;1;9;53;1;243;365;789;3833;317;10697;26567;65187;22507];
[24213;1;3;3;7;9;41;31;135;425;939;15;2043;6593;7651;25467;62549;35847];
[24217;1;1;1;7;15;23;19;57;421;25;1037;3055;6173;12451;485;54567;109561];
[24223;1;3;5;1;3;29;67;233;157;677;1711;513;4673;2895;1983;31075;1861];
[24230;1;1;1;1;7;39;115;251;275;791;15;1685;6835;14685;12607;28213;121475];
[24234;1;1;5;5;13;11;103;93;489;709;1339;2407;1663;10195;3135;15531;88427];
[24241;1;1;7;7;17;1;123;143;31;721;1739;2273;3785;10261;14741;52573;113677];
[24248;1;3;7;3;9;21;77;13;241;429;165;3399;7543;2633;21129;13537;84473];
[24259;1;1;1;11;21;33;125;123;189;337;163;3727;2101;14113;1719;46017;68601];
[24262;1;1;7;9;9;53;101;111;125;605;1419;3901;1769;4585;20063;20857;21901];
[24271;1;3;7;11;1;19;51;7;457;119;871;3847;57;11437;28763;58831;675];
[24279;1;3;1;15;25;63;69;25;405;823;1701;2441;7561;8679;31643;29325;25563];
[24286;1;1;3;9;15;5;89;13;73;951;959;2693;4565;13095;991;12419;8267];
[24289;1;1;7;1;15;1;119;223;213;585;1047;2623;4141;2043;1583;59155;5133];
[24295;1;3;3;3;17;37;81;233;87;843;1597;1251;4713;10813;24357;48499;84465];
[24296;1;1;1;1;11;55;125;5;255;809;543;2351;7079;7801;29247;23937;97405];
[24299;1;3;3;5;17;55;87;245;371;679;943;655;5857;261;28229;22519;35191];
[24314;1;1;7;15;9;49;25;155;13;893;1303;2317;2903;15601;1433;20397;70125];
[24336;1;3;5;3;11;47;99;63;253;95;1023;397;4307;4771;17027;19833;18269];
[24342;1;3;3;7;25;17;69;119;475;575;1637;3785;649;11557;22457;38633;96153];
[24346;1;1;1;5;31;55;85;83;307;201;1543;727;977;15779;21907;31025;38969];
[24357;1;3;5;1;7;53;107;239;341;237;1567;2717;3197;12419;23733;42119;86619];
[24367;1;1;5;13;3;7;105;95;201;953;781;2043;5263;13427;10303;60027;19297];
[24370;1;1;5;15;25;51;5;77;165;297;1281;1635;4139;11569;32325;23135;27013];
[24372;1;1;3;9;3;59;107;137;251;715;1477;511;5629;12205;7541;62559;4253];
[24387;1;1;7;11;31;29;7;251;119;547;1179;3063;1625;8941;30515;13601;72741];
[24389;1;3;7;13;27;43;31;43;465;355;1063;2305;1425;11963;27327;53335;127517];
[24402;1;3;1;3;21;17;53;171;269;783;349;1879;575;13537;16931;61171;23499];
[24414;1;3;5;3;11;5;121;227;237;841;431;3209;3241;6071;23465;39533;102391];
[24420;1;3;5;11;9;1;59;143;181;869;1859;1543;6419;13305;29075;28051;105799];
[24435;1;1;7;13;31;1;105;169;67;693;1667;2181;4127;4605;3701;36467;19631];
[24437;1;1;7;5;31;15;119;161;55;549;1195;4051;1923;2497;8289;60393;96181];
[24442;1;1;3;3;5;43;13;123;469;603;2047;2347;815;3457;7503;25261;71951];
[24444;1;1;7;3;13;25;85;141;497;405;957;1407;2075;12445;6675;9993;40429];
[24447;1;1;5;13;29;43;99;113;307;1003;859;723;7513;12249;12653;57685;89551];
[24468;1;3;7;3;11;3;9;141;501;113;69;2285;4525;9049;24765;11585;53787];
[24475;1;1;3;1;25;41;103;159;215;871;77;1849;609;15877;32515;22931;11933];
[24484;1;1;5;11;3;27;27;111;479;861;1041;3777;4443;3095;30379;6293;30823];
[24493;1;3;5;5;27;45;9;25;451;845;1153;897;325;15679;30151;37695;54593];
[24494;1;3;7;1;15;47;87;135;87;567;221;3173;769;8173;2957;51287;20961];
[24496;1;3;1;9;3;33;1;71;147;983;1485;3531;213;2353;28269;49353;88343];
[24514;1;1;3;11;11;63;109;255;35;127;1777;791;1379;9539;4915;21593;98901];
[24519;1;1;7;5;3;47;93;219;381;963;359;2461;7629;2803;17345;54311;79057];
[24533;1;3;5;13;13;21;1;65;455;203;29;3717;4495;1285;25289;38597;42431];
[24538;1;1;3;3;27;57;7;171;65;469;1921;3855;1637;5517;14907;48239;117573];
[24559;1;3;5;1;11;35;105;251;19;219;1191;2177;7885;8399;30527;61415;122215];
[24568;1;3;5;5;21;25;59;193;509;147;1805;561;3505;9639;14221;31;99261];
[24573;1;1;5;13;31;23;35;143;367;385;1335;2497;3573;8113;16661;16147;8763];
[24577;1;1;7;13;15;27;35;15;7;539;633;1145;2267;11527;20975;16689;58227];
[24587;1;1;1;15;9;11;51;121;381;331;1445;187;519;15827;27611;32891;113671];
[24592;1;3;1;5;19;3;77;67;107;105;1025;3229;6869;5717;4227;28489;59759];
[24601;1;1;5;15;25;23;7;25;103;733;525;453;6467;2901;7197;33267;68177];
[24602;1;1;5;7;27;27;41;93;449;733;571;411;1709;9557;549;5925;24123];
[24608;1;1;7;5;31;57;119;227;105;533;717;3357;2495;6467;7211;38169;44603];
[24645;1;1;5;7;29;9;125;241;471;571;1271;2911;8087;5067;31139;39681;28579];
[24650;1;3;5;11;25;53;109;35;183;109;1961;1681;7773;6935;28049;37279;96829];
[24657;1;1;1;11;1;17;47;245;231;747;1395;1635;5129;3165;627;34463;38967];
[24664;1;3;5;1;9;41;25;215;251;525;1399;3405;7399;11041;5599;51167;38697];
[24670;1;3;3;13;11;15;121;95;139;611;633;3941;2619;15123;28535;64823;17527];
[24673;1;3;7;13;21;53;65;175;81;5;699;1525;7397;2465;4479;58225;26387];
[24676;1;1;5;7;9;31;31;149;359;613;397;153;4861;8195;22969;26003;124423];
[24680;1;3;1;13;27;17;107;27;19;13;1481;573;7701;6273;30255;16125;11809];
[24686;1;3;1;9;15;1;45;105;287;901;667;3197;3493;12259;1511;63361;94257];
[24700;1;3;1;3;25;53;19;87;365;585;1569;1731;3747;11985;22673;17767;113779];
[24704;1;3;3;9;7;21;103;201;501;149;1939;3111;4739;8389;27127;55889;54487];
[24714;1;3;5;7;25;53;75;57;19;505;849;2631;6999;11269;24541;17695;97671];
[24728;1;1;7;15;5;51;123;93;445;379;1729;2747;5821;10779;29335;57419;109339];
[24731;1;1;7;3;7;57;117;65;297;891;487;1535;2361;10457;30759;34571;129949];
[24733;1;3;5;5;17;51;27;103;55;925;947;1237;1629;12687;14775;49627;100939];
[24747;1;3;3;15;1;11;75;177;399;55;1705;1165;7525;8909;13071;60703;11561];
[24749;1;1;1;7;13;29;23;65;279;853;637;3947;4099;6465;7061;50417;35015];
[24750;1;1;3;3;15;11;111;169;135;279;1941;3035;3027;6813;13363;20387;3257];
[24764;1;3;3;11;3;5;95;181;405;313;39;1503;2443;3221;17021;23485;43909];
[24782;1;1;1;3;17;63;27;247;441;533;449;3845;4021;14269;31477;7013;37473];
[24784;1;1;5;13;29;39;41;95;417;21;685;609;5787;13145;32677;6121;50919];
[24793;1;1;5;3;17;5;93;143;171;681;1143;2875;805;15823;29649;63327;12041];
[24794;1;1;1;11;3;53;123;105;59;485;1799;2939;657;2485;29563;36221;89095];
[24810;1;1;5;5;15;13;127;87;211;579;175;793;6895;9051;17681;28831;31783];
[24817;1;3;7;5;11;37;9;219;453;697;139;335;6411;8495;4203;29065;114837];
[24820;1;1;3;5;31;25;89;215;249;271;1731;3133;3947;10227;9679;51303;82833];
[24823;1;3;5;1;31;15;7;131;369;757;1963;3223;35;13967;31807;5093;113743];
[24832;1;1;7;3;15;23;21;173;295;929;1137;3943;1985;13015;8523;59117;127];
[24855;1;3;7;1;31;1;115;229;345;859;1757;1835;7491;4545;1483;40149;122321];
[24859;1;1;1;3;13;5;3;133;177;47;1515;17;5663;3185;2775;31389;37409];
[24862;1;1;3;3;31;3;43;137;185;803;709;391;3513;8117;32593;46593;61037];
[24877;1;1;1;7;29;27;13;35;61;961;777;2725;7379;7053;21781;60285;49221];
[24890;1;3;7;15;7;7;15;123;109;97;361;791;4773;8111;4319;13981;92505];
[24900;1;1;3;11;21;33;113;221;453;981;341;4041;5129;5981;11051;17243;19023];
[24904;1;3;1;1;19;7;75;213;467;221;1829;1275;5729;6843;23855;44805;89269];
[24909;1;1;3;7;5;29;39;125;147;329;1485;2793;2329;14979;18395;37951;58699];
[24910;1;3;1;3;11;37;117;189;103;381;39;31;5205;5601;17127;49073;121417];
[24915;1;3;3;13;23;49;57;187;441;189;349;2559;3313;1321;7731;57309;80195];
[24922;1;3;7;1;17;9;21;15;447;333;959;3471;5301;8573;9761;23183;57997];
[24937;1;3;1;9;19;1;101;71;325;309;85;2097;8003;12249;1887;2097;68375];
[24945;1;1;7;7;11;39;85;241;293;205;387;1539;6583;1395;8869;48843;49983];
[24962;1;3;7;13;11;23;83;125;55;429;169;1893;4657;643;3405;9943;128753];
[24964;1;1;3;11;19;43;13;171;495;117;437;3697;6723;6199;1859;39637;111499];
[24991;1;1;1;5;1;31;83;199;129;941;1637;1997;5011;14957;32427;60797;4989];
[24992;1;3;3;3;5;61;33;225;315;157;1709;807;7809;11063;319;20901;73599];
[24995;1;1;7;3;27;3;1;173;125;769;1203;3357;4899;13115;7081;42459;18525];
[25001;1;1;7;9;9;27;43;115;229;867;661;1825;2883;4285;22393;65141;24699];
[25009;1;1;3;7;5;9;93;47;33;823;309;2977;5791;9177;27645;35683;57455];
[25019;1;1;5;7;9;53;9;77;499;1023;917;209;7311;249;773;18303;41447];
[25021;1;1;3;5;7;9;33;73;325;369;1657;2257;2893;13911;10797;21055;103511];
[25029;1;3;1;3;21;31;125;29;149;513;979;2271;989;9541;4179;13215;71369];
[25034;1;1;7;7;19;41;39;165;59;79;137;3479;3389;6635;21467;51073;20765];
[25036;1;3;3;5;7;13;109;53;335;627;339;3825;287;6077;11319;2377;112693];
[25039;1;3;3;1;3;57;9;47;437;717;563;1219;6191;9081;21533;2651;17275];
[25057;1;1;1;5;21;9;109;109;339;947;1699;1487;6477;12601;12327;39427;80937];
[25063;1;1;7;9;1;5;55;43;95;733;1151;3657;2119;11947;21279;21581;22053];
[25064;1;3;5;11;7;9;97;149;55;523;1911;1389;5343;5533;15439;65313;73421];
[25075;1;1;3;7;19;15;119;141;57;243;423;981;1407;12633;20455;53069;98593];
[25077;1;1;3;3;15;57;71;203;15;133;601;805;2821;11623;147;4333;97681];
[25084;1;1;5;7;17;61;15;251;53;699;105;1195;3979;41;9077;5145;80057];
[25088;1;1;5;15;29;33;53;19;41;471;1143;65;5833;8417;17263;35859;45035];
[25091;1;1;1;1;15;51;73;131;181;147;1863;3777;1749;10135;11591;12395;85163];
[25105;1;3;1;9;23;63;83;199;87;499;2025;863;4665;3941;17647;52463;108615];
[25134;1;3;5;7;11;39;65;161;367;593;699;1807;7217;5221;22093;44933;6201];
[25165;1;1;7;13;9;41;35;77;353;291;1267;3923;5397;15401;30317;14945;8715];
[25183;1;3;1;15;11;3;29;25;505;945;1425;2297;1133;4675;8069;55115;114177];
[25184;1;3;1;5;27;63;25;7;5;399;473;1325;7391;5953;27755;65407;89435];
[25202;1;3;3;13;21;61;5;119;23;999;849;1225;3077;821;12059;43223;45427];
[25204;1;3;7;13;1;5;93;173;181;453;1449;3823;1713;14737;8891;43643;1983];
[25211;1;1;3;3;29;53;31;163;321;539;1283;429;3449;15617;4761;21187;120725];
[25223;1;1;1;1;13;27;49;37;33;631;375;425;2465;8773;2777;2115;35633];
[25224;1;3;5;3;25;25;27;201;63;259;1571;1143;2325;6773;11941;28897;19719];
[25235;1;1;3;5;11;39;59;203;37;899;559;2599;4397;12159;29579;51251;83213];
[25241;1;1;1;7;9;19;63;169;257;921;381;3605;3479;1739;26599;20599;29617];
[25253;1;1;1;9;7;29;123;35;419;963;855;1903;6199;2727;29811;49279;101673];
[25258;1;3;5;11;29;23;73;13;467;935;181;3837;8117;11501;18361;26803;99471];
[25277;1;1;1;5;31;41;109;45;115;113;1893;727;2453;13463;22339;13495;11473];
[25278;1;1;5;9;5;31;109;145;511;243;57;2219;1601;1821;12787;48239;89645];
[25280;1;3;1;7;19;41;25;57;45;489;1531;3959;2007;14247;13445;1991;114977];
[25290;1;3;7;15;7;17;107;27;249;207;183;2483;5817;8927;10715;63631;51947];
[25295;1;3;1;3;13;21;57;113;171;885;1335;783;7575;4443;19497;13827;130727];
[25300;1;1;5;7;19;33;95;13;387;297;1597;767;7543;16063;10367;51683;119811];
[25307;1;3;7;9;27;57;111;209;305;139;179;25;2295;2593;31361;23677;74501];
[25319;1;3;7;3;21;63;97;189;3;693;209;2227;7169;9;32575;61521;115155];
[25323;1;1;1;11;13;21;125;249;193;895;139;1207;5941;5821;6623;7753;80939];
[25326;1;3;5;5;11;49;17;21;423;497;835;539;6195;12783;1271;20069;2657];
[25333;1;1;7;15;13;39;83;191;77;95;661;3627;1853;1349;23109;43583;104121];
[25334;1;3;1;15;31;15;71;255;489;91;351;367;309;6275;18325;51231;52159];
[25337;1;1;7;13;21;49;37;135;355;421;507;2563;4955;4095;1933;29517;119699];
[25348;1;1;1;1;27;41;15;161;475;635;863;3773;6015;6197;24261;26271;42375];
[25351;1;1;7;13;25;7;23;185;129;597;1561;3003;2879;15187;4913;24589;12927];
[25372;1;1;3;3;9;23;49;233;345;83;823;2627;5019;2365;23755;9855;48515];
[25381;1;3;1;1;11;7;117;213;27;923;375;2597;8173;8935;16487;49283;104569];
[25403;1;1;7;7;23;13;61;131;313;883;495;1105;6207;1473;21655;51883;403];
[25406;1;3;3;1;25;5;5;159;243;929;1429;1151;5043;11551;21231;38767;105299];
[25431;1;3;7;7;15;37;49;219;67;147;873;2391;455;9565;8977;64759;40347];
[25437;1;1;1;13;21;13;13;243;303;333;187;3591;871;2501;30853;5247;48855];
[25453;1;1;1;5;1;5;127;249;23;79;789;3507;8119;5025;26545;54009;100633];
[25459;1;3;3;11;3;31;27;115;423;309;1805;169;789;4081;28139;35355;47991];
[25462;1;3;1;5;19;13;43;165;165;241;309;1703;7631;5899;12041;21235;97045];
[25466;1;3;1;13;15;49;29;199;93;611;77;2681;191;10215;8115;11895;108687];
[25477;1;1;3;3;13;45;15;151;345;111;1829;1357;6317;5239;26193;46763;73101];
[25484;1;3;7;3;1;19;119;63;23;759;173;307;967;2731;9353;14479;119];
[25495;1;3;5;15;5;21;127;21;419;575;991;3465;7365;5711;30657;43513;22447];
[25501;1;3;7;1;19;5;49;7;45;963;1755;3745;4061;4619;9089;59953;100265];
[25506;1;1;1;3;25;53;97;97;347;749;823;1499;8151;9957;731;22317;121623];
[25511;1;3;5;5;19;3;121;127;313;457;1737;4065;5295;7957;16373;62085;5711];
[25515;1;1;7;13;7;37;97;43;179;837;161;477;5095;4985;111;58743;24049];
[25525;1;3;1;13;27;13;91;241;339;235;111;369;3361;15105;11097;23955;53561];
[25529;1;3;5;3;9;17;103;133;309;683;71;3329;7229;8763;4165;9649;8529];
[25532;1;3;5;13;29;55;29;205;433;1007;1173;731;5653;89;18447;37911;65603];
[25538;1;3;5;1;15;1;7;195;397;877;1433;3487;1581;1539;3361;7453;46451];
[25549;1;1;5;13;23;1;47;245;19;859;681;2971;2531;11393;32765;4595;45213];
[25552;1;3;1;3;1;11;85;185;467;413;25;3677;881;1791;14655;44811;50819];
[25564;1;3;5;9;9;21;65;99;441;215;1453;2873;5883;485;20883;1303;11837];
[25567;1;3;3;5;9;37;87;211;247;535;1163;1785;4219;12559;17419;48201;21725];
[25574;1;1;1;11;29;11;9;215;375;601;627;2641;6961;6175;10995;49299;102891];
[25577;1;3;1;3;7;7;23;139;89;1005;1815;947;1507;10349;35;43595;104697];
[25583;1;1;5;13;29;47;77;255;341;333;1211;3473;1303;11237;28371;43283;77617];
[25588;1;3;3;13;27;17;73;95;227;241;1369;833;6683;2193;309;64249;6731];
[25603;1;3;3;3;15;29;45;209;401;725;1123;1659;6099;15941;5797;30563;119385];
[25610;1;1;1;1;7;55;95;151;351;373;1131;2357;7535;3899;19047;17879;34623];
[25615;1;3;1;5;31;5;33;97;477;399;1255;1073;1513;11651;2951;31351;102635];
[25624;1;1;3;13;17;63;51;209;57;87;977;3663;6717;15441;10709;607;48297];
[25636;1;1;5;1;9;29;1;105;343;19;977;3401;3873;4259;23057;13071;105771];
[25639;1;1;1;5;1;33;59;17;115;225;853;3295;965;12547;26971;50097;54999];
[25643;1;3;3;13;1;51;29;19;245;781;493;1121;2937;4177;3267;47463;101195];
[25645;1;3;7;5;3;51;25;131;451;997;1809;1583;355;15383;28159;39141;109379];
[25648;1;1;5;7;3;19;75;103;401;115;1627;423;2485;7281;6177;54677;31499];
[25671;1;1;1;11;23;7;57;121;5;921;1191;1779;1979;3427;25617;19423;73835];
[25678;1;3;3;11;17;51;15;163;265;665;1399;1977;3097;7109;14741;24291;79239];
[25689;1;1;7;3;25;61;69;77;341;23;713;2879;8075;14855;9691;58241;113277];
[25708;1;3;7;9;27;43;95;11;239;445;951;3869;1049;6493;9569;9285;29183];
[25716;1;1;3;1;1;23;27;101;337;171;1977;3181;2693;8591;32309;24909;106535];
[25725;1;1;1;7;23;59;79;115;49;351;871;1209;1045;5985;28427;23047;113571];
[25730;1;1;7;13;27;3;35;7;319;503;977;3747;4859;16315;30375;25999;24341];
[25739;1;3;3;7;23;43;67;21;399;349;1541;2991;5781;14501;5609;65093;12789];
[25747;1;3;1;11;5;21;17;157;311;663;469;4033;1557;7569;31163;14079;127771];
[25753;1;1;7;15;15;31;15;183;365;35;1433;2793;6685;10565;30409;46815;14173];
[25790;1;1;7;7;7;45;61;163;99;353;1535;3185;4023;7999;26173;12675;98073];
[25797;1;1;5;13;1;11;107;41;171;773;1513;883;2117;14449;32323;58271;97173];
[25804;1;1;3;13;27;15;123;247;281;851;233;1173;6863;14805;12401;30729;104127];
[25809;1;1;7;11;25;9;97;215;217;51;1865;3897;725;4779;21661;11853;72225];
[25816;1;1;5;3;5;31;125;81;367;705;325;519;3879;5607;3247;7149;33177];
[25825;1;3;3;7;17;17;19;113;331;277;317;1893;1287;8965;27523;61355;45331];
[25831;1;3;7;9;27;15;87;21;343;479;11;2945;1235;1591;28195;40559;42773];
[25845;1;3;3;13;1;45;115;41;263;569;71;4051;739;1031;19213;23961;110767];
[25846;1;3;7;1;9;41;21;131;3;617;191;4051;2445;13451;11889;25075;82631];
[25867;1;3;3;15;7;55;65;67;443;1023;1445;1467;3907;11449;2247;65085;102161];
[25870;1;3;5;15;19;27;97;181;51;591;99;1443;4927;9809;29693;44293;29369];
[25897;1;1;7;7;17;59;69;163;37;171;107;2581;3567;9455;19707;6329;27755];
[25908;1;1;1;11;15;17;83;223;183;861;1047;3739;3509;5571;28259;42781;130657];
[25937;1;3;3;7;15;11;33;115;297;841;1629;1559;2261;11763;22255;63819;55831];
[25940;1;3;3;5;19;49;17;251;507;251;805;1041;3947;2219;19977;65449;25031];
[25944;1;1;1;11;3;7;81;17;219;729;949;3257;6495;4701;2181;7009;106465];
[25949;1;3;7;5;27;35;15;83;43;1013;1427;1943;7555;6613;26879;42685;22071];
[25954;1;1;3;13;23;55;15;87;15;579;717;777;149;11431;26197;17711;7337];
[25960;1;1;5;1;31;45;113;253;211;915;1855;4043;2159;1803;5061;40473;3657];
[25963;1;1;3;7;25;15;37;73;467;969;1123;4053;4837;10091;25461;40803;91157];
[25966;1;1;5;1;7;31;77;207;21;623;577;1195;5839;13013;11189;61691;33327];
[25978;1;3;7;7;13;3;9;55;47;779;599;3747;1533;14705;23185;4011;36003];
[25996;1;1;5;5;31;17;99;253;103;957;241;1893;7435;14907;9089;23205;70639];
[26007;1;3;7;15;7;55;53;101;227;541;2017;275;577;15621;1799;50373;43197];
[26011;1;3;1;15;29;23;69;193;429;359;1045;4091;6551;1673;29113;43247;80993];
[26027;1;3;7;11;5;37;13;27;277;65;565;2631;6919;5593;8481;14703;9719];
[26032;1;3;1;15;5;7;83;51;77;307;1299;1373;5281;15359;15569;50093;59661];
[26038;1;3;5;11;13;31;99;123;263;319;2033;4055;2427;103;2009;27517;112467];
[26049;1;1;7;3;13;1;51;131;17;861;459;3925;5511;5255;28553;36437;54591];
[26052;1;3;7;5;9;57;49;119;291;727;1611;4035;4517;10979;28445;26905;57517];
[26055;1;1;5;9;9;55;43;209;411;137;1619;3965;5253;8217;7569;42043;104163];
[26085;1;3;3;7;21;3;107;255;353;735;71;1789;3351;755;22805;53537;126859];
[26089;1;1;7;5;15;55;13;167;165;289;1231;2547;8135;5475;2361;49019;110579];
[26090;1;3;1;11;17;21;59;37;177;517;499;4035;749;14297;22415;54975;29769];
[26098;1;3;7;3;3;59;55;17;483;625;875;1465;7583;2969;2741;36965;80367];
[26104;1;1;3;13;31;5;11;149;7;297;1485;735;4095;10089;5757;64997;56629];
[26110;1;3;1;13;19;43;77;209;309;739;1765;3297;8167;6523;27987;25235;80555];
[26113;1;1;3;9;31;57;125;75;3;633;85;3339;1691;9721;17465;36801;106147];
[26126;1;3;5;15;27;7;111;7;475;523;1825;1367;1549;15533;13827;14471;100271];
[26133;1;1;5;3;5;61;1;221;163;183;1701;3549;349;10057;26169;20725;55305];
[26138;1;1;3;1;15;41;13;71;269;909;1253;2553;83;10055;1057;39841;20437];
[26140;1;3;3;5;29;39;113;23;137;601;361;1779;279;15803;8993;2633;114847];
[26156;1;1;3;7;29;45;35;27;71;253;231;3449;1955;9109;9043;50593;15023];
[26159;1;3;1;11;17;45;85;255;341;957;769;3009;3997;6435;1161;34219;97077];
[26176;1;1;5;1;1;19;9;51;477;129;1411;3223;5069;3237;15947;27215;70401];
[26186;1;1;3;1;1;1;73;31;301;227;119;607;3379;3907;1263;2651;43769];
[26203;1;1;1;15;21;59;109;155;473;361;1871;3085;513;12607;12747;41067;44977];
[26210;1;1;7;3;27;21;89;71;437;671;1469;2191;4225;6343;1131;29141;25221];
[26222;1;1;7;9;7;45;95;197;391;11;1913;3107;5247;959;30395;32809;20893];
[26224;1;3;7;15;13;49;77;245;463;769;1807;1311;2715;14819;27595;57521;105221];
[26229;1;1;1;5;23;45;119;77;325;405;1631;461;6357;7037;31699;46295;118577];
[26233;1;3;5;1;21;3;31;13;7;571;633;425;6547;3423;19355;49481;76289];
[26236;1;1;3;9;7;51;113;173;169;97;1821;979;2553;11505;20047;39277;122905];
[26239;1;1;5;13;17;9;111;205;261;671;657;507;3903;10767;4387;3045;102617];
[26267;1;1;3;3;5;11;19;61;401;605;455;2457;4471;7255;18435;49673;97289];
[26291;1;3;1;1;31;25;77;35;65;127;929;2325;2315;13819;5509;12515;36991];
[26293;1;1;7;5;21;49;33;119;181;645;1425;2411;245;13755;18775;50061;47119];
[26298;1;3;7;5;27;43;81;191;233;435;829;3881;713;11153;4637;37721;115567];
[26303;1;3;7;1;27;59;51;165;59;931;1921;3059;6843;813;22063;29445;114765];
[26308;1;1;5;11;31;53;89;69;29;893;1241;7;1707;16167;8371;14021;103281];
[26312;1;3;1;1;23;21;3;35;73;769;1417;4051;3223;813;1141;18823;31951];
[26315;1;3;7;11;9;17;89;85;407;137;1865;2881;1495;3757;3711;36651;1797];
[26342;1;3;5;1;25;29;29;217;15;173;479;2363;2341;6193;16403;64097;1173];
[26354;1;3;3;3;11;29;113;167;333;573;1467;2223;5693;1063;20299;40993;69055];
[26363;1;1;3;7;3;51;45;139;79;393;1251;1087;1423;1827;23445;41635;78511];
[26365;1;3;3;13;29;45;85;229;33;373;113;1205;997;11777;7663;18513;5797];
[26383;1;1;5;5;15;5;127;85;49;345;901;3215;2347;2329;19597;39555;25031];
[26391;1;1;7;11;9;25;71;183;341;1011;439;3649;2859;10183;7635;45297;38581];
[26398;1;1;1;11;23;13;1;69;461;77;1641;2851;1889;2413;1131;39009;33773];
[26416;1;3;7;7;25;19;67;233;141;207;1501;453;4773;7411;22839;25365;53189];
[26421;1;1;7;3;3;17;13;167;73;1005;887;2595;4351;3249;5653;36025;33733];
[26425;1;1;7;15;11;1;105;215;329;601;1477;723;4597;3525;26235;63957;26677];
[26434;1;1;1;11;27;15;111;133;327;567;845;2135;7905;7297;29255;14947;104885];
[26439;1;1;7;9;21;11;67;179;459;423;295;3445;1681;12907;29281;7445;35539];
[26453;1;1;3;11;23;61;111;123;81;439;299;3557;2821;705;15393;37175;11533];
[26454;1;1;3;1;13;15;113;227;285;313;687;2085;6363;8003;32661;36461;68759];
[26470;1;3;3;1;27;7;101;177;363;461;1519;2339;473;7469;4335;30951;130987];
[26491;1;1;1;3;31;39;59;159;207;93;581;1973;945;11343;15901;22001;3515];
[26493;1;3;7;5;11;53;125;57;389;985;1055;3803;3879;5537;28221;36805;16025];
[26500;1;1;1;9;1;63;81;57;59;813;865;3491;3771;6121;6847;14765;68567];
[26509;1;1;7;7;13;17;23;211;435;167;933;357;3567;3019;28439;17701;119937];
[26518;1;1;1;9;7;53;103;155;211;719;413;3673;2795;15687;1737;50855;129133];
[26531;1;1;3;13;11;23;53;121;497;383;1655;937;5563;2549;23183;46149;78875];
[26533;1;3;5;11;25;1;45;139;437;729;2009;3245;4091;551;25993;31655;33641];
[26540;1;3;1;13;7;23;87;111;471;501;1767;1051;7037;3199;19609;43227;53667];
[26552;1;3;7;1;25;1;49;189;55;375;601;2065;2991;7697;25739;14951;43705];
[26566;1;1;7;5;29;21;51;111;81;809;1963;2143;5529;15701;4719;11857;88207];
[26569;1;1;5;11;27;27;7;145;281;939;537;1255;1475;11383;15081;9105;102775];
[26583;1;1;5;7;9;45;67;23;65;139;1871;3975;6357;6515;25423;23915;76289];
[26590;1;1;5;11;31;31;89;65;451;341;819;2439;6753;15113;9085;32687;5055];
[26596;1;1;5;1;15;29;123;83;495;185;303;315;6015;5257;2467;4903;78269];
[26624;1;1;3;5;31;51;49;199;501;407;733;1181;8023;7321;14765;17535;19893];
[26636;1;1;5;5;19;15;103;183;13;969;1537;3053;3173;12983;21761;33733;67799];
[26667;1;3;1;1;27;55;37;149;379;11;1655;2317;3135;6459;25941;12679;60245];
[26669;1;1;3;9;9;13;33;243;337;741;1685;1147;5465;4865;559;23993;47273];
[26672;1;3;5;13;21;11;39;169;135;209;1909;3655;3117;1075;8165;54633;28189];
[26675;1;3;1;15;9;23;11;123;63;133;947;907;3853;10291;22905;4561;92497];
[26687;1;1;3;13;17;9;5;209;429;3;2035;1497;6765;5991;24991;8155;103417];
[26689;1;1;5;13;27;47;79;11;41;791;1939;3099;4069;4665;20801;18659;72163];
[26696;1;3;1;13;25;37;79;131;233;647;291;1419;5157;4261;27715;611;83157];
[26702;1;1;5;1;17;61;45;163;137;937;91;1695;1553;543;28615;6855;75201];
[26714;1;1;3;13;7;63;109;13;351;159;1111;2791;4701;5805;9707;18361;98091];
[26716;1;1;3;11;11;21;55;247;111;801;93;3091;1043;9761;23679;5555;195];
[26729;1;1;1;1;13;43;123;113;265;561;659;3755;6605;10949;30511;29495;9075];
[26732;1;3;1;7;23;63;19;73;233;1017;851;1971;3999;7407;25309;63991;92867];
[26737;1;3;3;3;19;63;127;107;465;463;1507;1323;4729;14717;9129;24859;117565];
[26747;1;1;7;1;19;11;13;85;339;939;895;887;765;15501;8783;65087;77899];
[26773;1;3;7;3;7;15;43;153;365;223;1947;2295;787;5549;20089;29203;4807];
[26780;1;3;7;3;31;27;51;217;483;623;633;2123;1211;9173;17949;54251;89161];
[26801;1;3;3;11;3;11;111;73;283;23;1925;253;5141;12545;24913;16847;13067];
[26811;1;3;5;5;31;39;35;235;135;85;191;999;6633;12527;21401;61339;81239];
[26813;1;1;3;15;9;13;39;125;137;639;555;813;2821;1199;32075;15079;104609];
[26831;1;3;7;7;15;43;99;51;245;25;147;89;6841;5523;28493;13967;113109];
[26836;1;1;3;13;7;5;27;121;269;231;1011;1365;5055;11619;27393;48033;65725];
[26839;1;1;7;5;9;23;41;71;327;339;1681;3303;4143;421;15213;48405;98067];
[26849;1;3;7;15;15;33;73;33;351;131;1051;3909;7535;7659;9443;35015;329];
[26862;1;1;3;9;19;55;97;223;265;877;235;867;4961;3137;19885;10955;7655];
[26869;1;3;5;13;1;11;75;215;271;793;1691;1437;1317;10977;1311;64865;92361];
[26873;1;1;1;5;23;23;35;53;187;345;115;929;3919;4523;31709;16771;33399];
[26874;1;3;5;11;17;7;75;57;351;359;1737;2665;4259;13905;6999;45359;117891];
[26888;1;1;5;3;23;29;49;209;417;843;531;1649;7829;6271;3759;39727;47415];
[26891;1;1;7;1;21;45;101;105;385;797;985;1447;3757;3287;583;29283;96821];
[26896;1;1;7;9;1;29;15;207;289;465;815;2289;449;9403;19197;13797;102651];
[26899;1;3;7;15;5;45;81;187;21;433;679;2759;3375;6935;22595;50149;13557];
[26912;1;3;3;5;11;55;69;219;95;21;645;1955;7527;6037;29427;36297;62013];
[26921;1;1;7;15;13;35;25;67;383;13;539;2399;4611;8065;3815;27771;50411];
[26935;1;3;1;3;27;47;65;33;393;895;1663;1289;1057;11887;1259;53611;36811];
[26941;1;3;5;3;5;1;27;65;379;15;1643;1461;3009;8177;15589;5889;1103];
[26949;1;1;5;15;27;53;43;173;377;665;581;1061;1363;15015;26709;29507;28075];
[26954;1;1;7;3;9;11;45;71;23;995;1277;855;1001;12927;19753;46639;16949];
[26967;1;1;7;5;15;33;27;27;437;415;1785;2091;279;8041;2209;15821;122363];
[26977;1;1;7;1;21;1;47;215;463;959;849;1703;5175;10043;16991;11023;52201];
[27011;1;1;1;11;21;7;121;31;95;631;1717;3017;2083;2047;12051;63117;25949];
[27018;1;1;5;5;9;5;105;121;205;643;1721;2601;2991;2381;4873;12049;20043];
[27026;1;3;5;11;7;11;97;187;253;571;101;3077;1479;9513;15451;37105;34445];
[27028;1;1;7;11;19;19;39;115;221;13;217;369;6855;14529;143;13461;62927];
[27032;1;3;3;7;29;27;9;171;419;571;837;3829;1871;12691;30693;4195;38905];
[27044;1;1;1;11;5;55;17;41;241;419;337;897;4663;14469;18701;18009;44605];
[27053;1;1;7;7;1;33;63;197;257;655;1287;2571;57;13275;29669;8501;61389];
[27062;1;3;5;3;29;39;101;215;101;271;1373;2171;841;9865;28951;20369;42413];
[27065;1;3;5;1;31;23;119;137;263;633;1239;281;4965;14913;30229;14147;37183];
[27068;1;3;1;3;11;55;33;45;69;913;269;1021;4005;15191;11187;45917;76905];
[27080;1;1;1;13;27;11;75;139;243;221;1289;2195;7041;10053;5731;35245;41317];
[27083;1;1;7;9;25;11;81;243;233;137;831;2825;6007;7305;31733;64343;7047];
[27093;1;3;5;9;17;61;25;245;285;969;1397;1331;5393;3653;15533;9121;111115];
[27098;1;1;5;9;1;9;61;205;285;849;1071;1013;2655;10121;15165;25189;56207];
[27107;1;3;5;7;19;45;121;19;237;711;1523;3251;693;13567;31993;11239;64127];
[27110;1;1;1;11;23;25;33;211;321;1021;1855;291;2911;11841;21929;64147;63201];
[27114;1;1;7;3;27;21;119;219;431;819;83;2487;7533;10697;3129;53301;104999];
[27121;1;3;5;15;9;25;89;65;293;411;989;3103;5563;15703;8757;32595;43409];
[27127;1;3;3;1;31;31;45;173;231;171;1185;1499;1713;9945;11575;37113;103989];
[27137;1;1;5;13;27;3;93;253;23;71;1963;2571;6259;15757;9709;42835;42047];
[27144;1;1;7;11;5;11;123;117;39;559;111;527;6253;781;9177;47189;94031];
[27155;1;1;5;15;5;49;93;185;167;787;1553;3291;3723;1651;23225;5643;42967];
[27171;1;3;1;13;15;35;19;193;505;127;661;1943;1249;5103;8233;64319;76955];
[27178;1;3;7;7;17;13;97;185;415;331;283;3341;2903;2927;7729;4095;103083];
[27180;1;1;3;15;15;25;65;45;413;521;747;2605;5845;12909;7651;45937;99043];
[27185;1;1;5;9;9;21;3;75;335;745;1493;1721;1977;11105;22621;49281;107113];
[27191;1;3;1;11;25;11;99;53;239;831;655;615;7565;14039;29115;26165;127159];
[27192;1;1;7;5;31;35;75;157;441;815;119;565;2703;14059;7867;42487;93647];
[27195;1;3;7;3;3;59;101;223;257;989;363;1059;5157;11129;1481;19287;117623];
[27212;1;1;1;1;29;27;1;129;253;673;103;1881;7053;1261;32003;23345;102503];
[27215;1;3;1;9;11;37;3;99;303;519;1175;3021;2275;9919;25011;45865;71351];
[27218;1;1;7;15;27;9;107;61;385;21;861;2119;4643;8379;25455;22425;113387];
[27230;1;1;1;7;27;15;73;211;497;527;873;329;2213;415;13987;56581;27829];
[27234;1;3;5;1;31;43;107;149;209;211;2029;2793;2213;12389;27177;51375;51983];
[27245;1;3;3;7;25;57;67;101;127;43;1775;801;3343;12203;8667;58387;10735];
[27248;1;1;7;5;13;47;101;123;133;593;1409;3525;2545;13009;11873;38463;1075];
[27263;1;3;3;1;3;19;75;221;157;67;397;1141;5073;10795;9857;35459;62701];
[27279;1;1;7;7;23;17;41;179;83;543;1839;3709;131;15681;9147;18685;90389];
[27288;1;1;5;7;17;15;31;217;79;687;1927;2889;6127;15095;28437;16403;123275];
[27294;1;3;7;15;13;17;123;75;45;635;525;3897;6769;13855;16695;18039;37479];
[27303;1;1;5;1;23;15;69;161;503;339;1061;839;9;10013;24493;32711;50147];
[27304;1;3;3;11;5;45;9;233;131;629;1111;3311;2211;9079;19763;23793;85389];
[27312;1;1;7;7;7;27;15;85;291;925;1545;3061;4867;1613;13467;53731;92811];
[27330;1;3;5;1;21;21;71;33;141;675;1519;3275;1491;10717;28199;14983;18961];
[27341;1;3;5;5;31;13;109;239;369;373;257;3765;2531;13281;11877;29439;106939];
[27342;1;3;7;15;13;39;111;203;109;179;789;3849;433;5745;2343;15795;92603];
[27344;1;3;5;5;11;57;3;245;289;249;713;315;2261;1249;6963;44507;100829];
[27353;1;3;5;11;5;49;97;245;363;315;509;17;4485;15393;28491;17945;65663];
[27356;1;3;5;1;5;13;15;17;141;119;1393;581;2439;2015;11527;8537;103005];
[27366;1;3;5;1;25;9;117;25;99;777;985;1159;99;3013;21429;19027;61833];
[27369;1;1;1;5;1;47;37;83;159;29;281;3789;2525;15999;8965;11145;14453];
[27377;1;1;3;1;11;63;77;207;267;473;241;629;6969;9093;839;3875;18873];
[27387;1;3;5;7;31;57;103;65;349;321;717;2403;105;643;27999;2509;123061];
[27409;1;1;5;7;3;31;7;113;17;995;1211;1749;6757;3391;8011;47715;24301];
[27437;1;3;7;11;7;55;29;155;373;81;1255;2205;3233;9537;22129;24505;79021];
[27443;1;1;7;5;3;49;5;51;89;107;585;3933;745;11685;20663;12521;24357];
[27446;1;1;7;1;17;17;83;215;357;581;2025;3411;7287;11925;2253;43513;98655];
[27450;1;3;5;3;27;27;51;147;471;509;423;3807;677;8429;581;47999;35913];
[27452;1;3;3;9;15;31;1;93;207;759;1991;473;2273;43;12547;58085;20953];
[27457;1;1;3;3;1;27;39;219;381;187;159;2333;6141;3775;5693;14853;38765];
[27472;1;3;1;5;19;1;19;237;231;975;1609;723;241;10105;18817;58373;118889];
[27475;1;1;5;7;7;43;99;181;109;529;421;1493;1075;12219;24287;33479;29987];
[27487;1;1;7;1;17;11;79;85;157;851;1429;3355;139;14327;30025;60303;109015];
[27488;1;3;5;9;11;15;37;79;5;169;999;815;6255;11763;16299;49891;101917];
[27493;1;3;5;9;29;45;51;211;159;771;1631;2871;4877;4941;18127;15669;57515];
[27506;1;1;3;3;19;29;9;205;253;399;303;2441;3187;641;23341;52951;57559];
[27508;1;3;3;15;11;29;121;227;69;935;365;217;4617;13193;27663;46903;107843];
[27521;1;1;5;11;13;31;13;243;275;685;1613;1915;2775;11225;4729;45549;103875];
[27522;1;1;5;1;9;61;35;143;165;441;517;1735;5281;10139;21107;11713;130483];
[27527;1;3;5;5;13;21;7;219;97;887;1845;469;2523;1569;9959;4397;15823];
[27536;1;3;7;11;15;27;73;223;365;939;331;145;683;6441;23421;59177;31763];
[27539;1;3;1;5;9;59;85;113;343;831;121;3157;6059;14923;27401;19759;14223];
[27541;1;3;1;7;17;25;3;39;471;759;2041;609;4293;7491;8041;50857;25601];
[27546;1;1;5;15;19;45;21;5;269;197;527;1839;1719;15105;18671;42167;9617];
[27557;1;3;1;3;5;35;3;105;395;113;1945;3945;3951;12207;32135;34121;10237];
[27564;1;1;5;13;21;43;51;255;57;399;1937;1573;363;11589;26989;54345;94341];
[27572;1;3;3;3;5;45;83;125;179;923;39;3617;7683;8191;31469;23633;79179];
[27576;1;3;7;9;9;37;107;65;423;77;1779;1375;2085;11779;6535;2973;29425];
[27584;1;1;7;3;11;39;101;137;407;855;1767;1717;2821;10447;31187;6329;124111];
[27608;1;1;5;11;27;27;45;103;225;681;725;1791;2881;2923;14473;12269;58743];
[27611;1;1;3;11;15;39;113;167;143;677;1189;1571;5339;6065;30187;19639;42227];
[27618;1;1;1;3;13;7;113;75;129;619;1741;1495;4751;11085;22391;199;105463];
[27620;1;1;3;3;19;47;77;195;209;453;495;1605;5255;15327;8941;18239;54511];
[27627;1;1;7;7;21;29;95;175;3;689;611;2467;6919;12399;18869;16171;102753];
[27630;1;1;5;1;27;43;61;133;37;603;315;1915;813;15769;27447;29589;122281];
[27637;1;1;7;3;11;1;119;235;93;481;1811;1643;4853;11313;8991;6153;68985];
[27638;1;1;1;7;1;13;99;83;221;775;1345;219;4445;11837;10405;43563;122111];
[27641;1;1;5;13;21;33;105;19;343;571;703;429;2485;15531;9801;24101;88275];
[27647;1;3;5;1;27;55;73;49;33;773;1411;1227;6827;1271;28897;24265;32383];
[27650;1;3;7;3;9;45;59;5;157;669;261;2077;1425;8221;5849;40857;121029];
[27676;1;3;7;11;23;5;87;113;279;611;1195;1775;5813;6737;18051;41341;93331];
[27683;1;1;7;7;9;55;113;3;167;295;1579;2833;4003;7583;22833;44427;34781];
[27690;1;1;5;13;21;33;127;175;153;961;819;143;3969;6159;29437;14123;65317];
[27695;1;1;1;15;31;27;1;17;329;963;1907;421;535;2323;22749;44375;115531];
[27700;1;1;5;15;15;23;57;171;253;401;1577;3855;197;7979;17577;25275;88831];
[27704;1;1;7;9;27;9;7;13;381;847;533;357;6551;13441;5717;20209;64347];
[27709;1;1;7;9;1;1;31;245;315;901;1857;497;4285;13227;3937;45025;59627];
[27715;1;1;7;3;5;23;119;147;479;71;113;3379;863;8285;31259;15863;47267];
[27727;1;3;5;1;5;7;77;163;421;353;1757;1335;4975;3011;11703;56075;12045];
[27745;1;1;5;3;31;25;81;59;211;463;1693;609;3307;3641;19643;29361;8399];
[27763;1;1;7;13;19;47;43;43;275;735;535;3689;3987;10695;17243;60565;72299];
[27769;1;3;3;5;25;35;75;63;305;127;189;1785;731;12089;27811;43259;28191];
[27770;1;3;7;11;17;17;59;107;139;355;1055;3181;4743;14785;26323;441;35613];
[27796;1;3;1;1;17;17;39;203;373;601;449;1837;835;7061;14655;61765;80735];
[27810;1;3;5;7;27;17;25;41;125;895;1843;3167;1527;4707;6477;33575;97247];
[27812;1;3;3;3;13;39;25;15;279;347;1121;3603;3019;9577;16863;61483;15995];
[27834;1;3;5;11;15;33;15;81;185;289;909;1237;3623;3983;24211;62719;79685];
[27847;1;1;1;7;29;1;53;17;137;269;1209;3937;4167;14057;8061;38863;101477];
[27848;1;1;1;9;5;45;95;127;507;159;1763;1527;5689;11007;549;22837;99207];
[27862;1;3;3;1;15;57;127;39;73;397;67;3159;119;8929;29425;57687;68063];
[27868;1;3;1;3;27;7;111;209;291;17;1381;1597;5389;4577;20463;28325;23743];
[27881;1;3;3;7;23;41;83;81;213;537;1037;2371;1485;8391;12471;58541;27559];
[27884;1;3;1;15;21;43;87;75;451;851;1917;2739;2167;12531;29931;8017;15163];
[27890;1;1;3;9;27;19;41;145;401;759;527;3085;187;10615;4995;22421;69867];
[27895;1;3;3;13;29;51;65;47;157;609;1061;1913;6195;12503;10375;55819;122091];
[27904;1;1;3;7;1;19;3;149;453;279;569;3429;331;711;26773;21163;129339];
[27914;1;1;5;3;7;47;39;181;115;771;2037;411;2697;7501;6393;19461;74967];
[27919;1;3;3;5;5;17;89;161;409;49;1447;3977;4777;15553;3521;32553;126385];
[27921;1;3;1;3;25;59;73;105;505;1009;1147;317;3457;13743;8337;38077;7709];
[27931;1;3;3;15;23;37;25;123;413;911;637;2345;691;15199;22927;52467;126715];
[27933;1;1;5;1;9;51;93;123;269;45;1947;179;5091;3743;31491;39771;119175];
[27938;1;3;1;5;29;23;107;183;25;115;187;857;7337;469;8755;17281;45941];
[27943;1;3;1;13;25;61;85;115;181;955;1365;837;5941;13209;27009;58865;115149];
[27949;1;1;1;11;31;63;101;29;37;185;465;2651;6249;6887;25021;60539;50037];
[28005;1;3;1;7;7;61;57;243;143;223;1759;4085;6765;13293;31929;29579;35053];
[28012;1;3;1;3;29;9;121;3;285;199;1439;3151;5059;8535;17049;38917;46347];
[28017;1;3;1;3;17;43;63;87;427;341;1251;3775;7729;3183;10579;917;49035];
[28024;1;1;7;3;5;59;119;227;495;345;841;2021;2483;15987;24663;9819;33009];
[28030;1;1;5;11;19;57;23;181;63;991;1;2927;4785;9645;17435;55627;1069];
[28034;1;1;7;1;31;11;57;123;279;815;1407;3509;3963;8503;20345;7777;103701];
[28045;1;1;5;5;19;51;37;15;363;939;1863;3485;7073;3035;31279;7289;39811];
[28048;1;1;3;3;3;41;29;37;311;535;1993;3937;309;13055;22595;59641;95317];
[28054;1;3;7;9;19;29;23;181;503;223;1655;997;7861;5867;16979;4559;7447];
[28063;1;3;5;3;13;13;3;137;361;101;1005;2339;609;11891;15245;9653;63579];
[28069;1;1;1;15;31;15;117;151;51;805;1403;3243;4007;11979;3945;61935;43225];
[28070;1;1;7;3;1;43;93;105;9;555;731;655;2097;8015;27557;27985;11323];
[28073;1;3;3;9;23;35;59;217;437;755;685;1431;2965;5269;25621;21735;1397];
[28084;1;1;5;1;9;61;41;53;101;111;531;3385;4771;9535;15995;29687;99035];
[28096;1;1;7;7;1;3;25;251;463;99;677;1889;3697;5579;11429;38301;57917];
[28114;1;1;5;9;11;15;65;31;369;825;1229;1595;3891;5235;16973;25307;7805];
[28126;1;3;7;15;27;37;35;103;393;781;1713;2009;1973;15461;6801;17557;105139];
[28141;1;3;7;7;17;51;83;29;113;173;1733;2137;3041;11361;15999;25779;112493];
[28149;1;3;5;11;19;3;89;103;449;375;437;4077;889;12163;29323;48845;7783];
[28165;1;3;7;1;19;25;83;35;203;27;507;25;6629;13941;6187;17533;83349];
[28177;1;3;5;9;15;59;3;87;473;733;1263;1733;4275;9283;32535;20807;59487];
[28189;1;3;3;9;19;11;27;83;355;949;1339;171;921;14171;16271;41485;20405];
[28190;1;1;3;11;25;51;9;241;367;519;1895;429;7689;9469;32709;46363;75767];
[28203;1;1;7;7;27;59;85;87;467;273;1763;391;451;16165;7501;44779;68281];
[28206;1;1;7;5;1;35;5;217;31;145;1151;2255;3543;401;17141;5981;25183];
[28208;1;1;1;13;11;11;19;93;95;751;31;1091;2733;10517;2553;5247;42651];
[28220;1;3;7;5;15;1;67;21;303;137;355;1989;5211;4985;645;6867;126931];
[28226;1;1;3;15;21;23;59;209;121;623;575;2447;6149;10481;4959;22913;64963];
[28231;1;3;1;1;25;55;47;95;215;609;639;1023;1579;5953;3063;13721;17607];
[28249;1;1;1;11;7;61;127;173;307;623;453;3827;4847;16085;4407;4043;14881];
[28256;1;1;7;11;5;15;51;125;439;795;203;91;3543;6925;32055;52277;26841];
[28259;1;1;1;13;15;9;107;183;391;751;243;1105;8031;7443;137;45695;80163];
[28265;1;3;5;9;5;61;117;113;121;291;225;1705;4017;13113;11035;28613;25927];
[28266;1;1;3;11;27;9;45;85;309;991;1639;1183;8013;14587;7563;21111;48497];
[28271;1;3;1;9;21;61;123;189;265;593;163;3681;2271;2795;753;48019;129507];
[28274;1;1;1;5;31;51;127;79;333;177;1723;1365;2055;3063;10693;61223;60659];
[28280;1;3;7;15;9;11;11;223;31;397;319;3283;3765;4729;4711;58323;114063];
[28296;1;1;7;11;7;63;107;215;19;491;131;2491;6373;11081;2159;1311;109547];
[28316;1;3;5;5;21;13;105;21;193;447;1331;2439;4165;15689;21273;4007;55161];
[28319;1;3;5;11;19;47;25;211;335;437;1041;2093;7239;2869;18273;40505;13681];
[28343;1;3;3;15;7;13;127;59;439;163;1841;1945;4915;16269;18315;15057;43197];
[28344;1;1;3;3;15;33;101;241;131;353;1749;3965;1231;8167;9309;40337;4419];
[28357;1;3;1;1;1;43;33;129;137;889;799;2937;3633;4769;2411;56059;585];
[28358;1;1;3;9;25;31;45;199;229;175;1099;1143;1721;11811;22757;59843;117813];
[28364;1;1;7;7;19;45;43;101;219;209;1169;599;5523;2463;15161;16675;85111];
[28370;1;1;3;15;23;27;91;51;397;705;651;2345;3875;10005;29523;42805;76891];
[28372;1;3;3;5;29;49;17;233;149;821;1953;1931;7127;957;6477;21259;126657];
[28379;1;3;3;3;27;49;57;145;143;1;583;3987;651;12285;20139;51063;21449];
[28388;1;1;3;5;29;61;41;93;277;111;395;2929;5325;15183;3981;23799;72781];
[28392;1;1;7;5;25;43;85;137;401;261;1183;3959;1983;16209;30523;429;109181];
[28395;1;1;1;5;7;19;79;237;373;929;907;1771;6991;211;5269;2135;32051];
[28406;1;1;7;5;17;15;41;49;363;15;1483;1017;2439;11713;19983;26275;11945];
[28418;1;1;7;7;19;5;55;15;15;573;1075;3225;6815;11893;18417;50833;71903];
[28423;1;1;7;9;23;37;75;3;477;291;37;1861;2697;13369;24573;27285;96757];
[28435;1;1;1;13;5;29;65;195;365;465;865;2705;5249;7051;3795;56611;72317];
[28444;1;1;3;9;19;9;85;239;509;313;1137;2221;5475;71;11901;1877;68701];
[28454;1;3;3;7;3;53;55;223;441;159;933;2573;3441;3295;25005;29021;97145];
[28468;1;3;5;5;3;11;101;181;293;319;47;2971;387;4697;26613;8531;20461];
[28477;1;3;3;13;17;11;41;233;455;353;1817;3065;4657;1717;3039;10937;107085];
[28478;1;1;7;1;17;23;85;5;291;725;1791;3525;7705;6561;25311;44679;21419];
[28480;1;1;7;1;23;41;97;117;435;261;2007;965;6913;12245;25723;8445;30871];
[28486;1;1;1;15;29;39;101;33;55;1019;1431;2601;3837;14873;11785;12449;30815];
[28489;1;1;5;3;15;35;101;7;479;535;1875;2435;1461;13967;2755;45879;93561];
[28500;1;3;1;5;29;57;89;209;473;289;1843;2051;3997;1753;18179;41355;89301];
[28507;1;3;1;11;17;45;47;57;109;309;1009;653;5175;15599;21617;35353;55253];
[28519;1;3;5;3;1;11;57;83;385;765;1887;785;2115;8689;14783;14841;122221];
[28523;1;3;5;11;11;5;77;115;189;371;887;3653;8159;15737;6763;52807;128841];
[28534;1;1;1;11;11;33;9;145;439;565;171;3867;7149;4369;15073;3277;25873];
[28547;1;1;3;1;11;9;17;255;129;835;1705;1551;877;4831;12717;2549;62723];
[28549;1;1;7;11;17;33;21;195;143;153;1855;1323;1225;16359;16479;8883;76449];
[28562;1;1;1;5;31;23;61;53;77;465;1983;4019;4865;14721;18601;48179;100453];
[28571;1;3;1;13;19;53;83;63;165;393;469;1465;2669;10155;7029;26185;121223];
[28583;1;1;1;3;3;3;123;23;45;359;1063;847;3943;6113;23749;30323;10583];
[28584;1;3;5;15;1;55;65;149;139;217;141;2425;7019;14127;11725;50821;52643];
[28595;1;3;5;15;13;13;15;93;457;869;117;585;7159;5957;15073;21861;118119];
[28597;1;3;1;15;3;31;29;245;47;895;197;1169;945;11503;26615;14079;27175];
[28604;1;3;5;5;31;1;107;109;253;999;1451;2243;6675;10779;26181;64597;16443];
[28607;1;3;7;15;9;53;25;41;151;197;1955;2365;5305;2901;24825;9595;57377];
[28609;1;3;1;3;25;37;37;193;417;373;1127;3239;4583;2861;14501;64163;30055];
[28612;1;3;7;9;7;21;49;231;241;95;1757;2281;2679;1611;11115;31743;26851];
[28630;1;3;5;5;1;1;23;173;195;593;1639;1449;4733;2451;12677;31959;128217];
[28640;1;1;1;7;17;49;117;253;167;721;889;3027;7781;13521;15477;17981;95487];
[28669;1;1;1;15;13;47;125;9;33;567;1733;1263;307;10285;6325;55827;39823];
[28677;1;1;1;15;23;3;11;169;369;667;313;2287;6655;16067;5915;8605;92177];
[28682;1;3;3;15;13;21;125;111;171;785;79;2281;1247;11321;30397;28555;84863];
[28690;1;1;5;13;1;31;123;97;127;245;1213;2381;3545;13545;28657;54087;79039];
[28695;1;1;7;9;9;21;87;111;27;33;843;199;1465;6555;8019;39521;98883];
[28696;1;3;3;5;5;55;61;219;279;207;1811;667;2989;3133;25213;51979;87695];
[28717;1;1;7;3;17;11;31;97;277;385;229;3045;557;13521;32733;36831;43003];
[28730;1;3;5;13;27;57;31;207;147;405;1495;2471;4889;14861;4861;28185;62363];
[28737;1;1;5;13;23;19;5;21;509;299;1077;1747;6229;2375;17903;58473;72637];
[28752;1;3;7;11;15;61;63;165;27;461;1359;3375;3029;9907;17393;11097;43593];
[28761;1;3;5;1;17;29;15;5;419;19;1981;3169;2389;9169;31697;26201;6997];
[28774;1;3;3;1;29;31;89;79;347;707;505;2087;2163;5465;8677;11421;93217];
[28783;1;3;7;9;3;23;75;215;7;971;925;3223;7825;12347;19763;10927;41245];
[28791;1;3;5;5;3;43;119;79;373;761;709;1897;3953;13895;13421;16939;112449];
[28801;1;1;3;15;11;25;65;101;315;1005;1319;1163;161;15331;4845;40375;121361];
[28802;1;1;3;7;1;57;63;131;145;1007;549;2327;1513;3591;10839;56297;80613];
[28814;1;1;3;5;1;19;79;81;505;945;65;319;6105;5491;13257;4651;48247];
[28837;1;3;1;9;27;41;61;41;421;707;1279;3699;2403;4075;16947;53435;2917];
[28838;1;1;5;13;11;29;35;141;313;769;749;4025;2597;12197;32265;32159;37003];
[28842;1;3;7;11;25;63;121;15;273;877;637;409;5001;4723;27985;55501;43495];
[28844;1;3;1;13;27;29;127;65;275;967;1723;4007;6147;13277;8361;12305;95433];
[28849;1;3;3;13;11;45;7;101;169;361;517;2897;4283;7587;7495;31549;29113];
[28864;1;3;3;1;9;27;65;15;279;127;1039;829;5739;1949;24789;30433;54503];
[28867;1;3;7;5;13;19;95;133;25;271;1527;3571;101;15987;10985;55761;39833];
[28881;1;3;5;9;27;5;37;219;249;947;1063;4081;1763;15003;23753;3975;109803];
[28882;1;3;3;5;21;37;35;145;323;573;1939;885;4645;4515;16815;28783;76017];
[28893;1;3;7;13;27;41;39;123;423;949;1487;2207;8069;15337;20671;20163;70667];
[28903;1;1;3;3;15;29;69;15;151;729;35;2067;6715;12759;27611;54133;16561];
[28907;1;3;7;13;21;13;7;161;327;339;535;2059;413;11161;18415;12415;63713];
[28909;1;3;5;5;23;49;9;181;417;339;1013;1707;5097;13319;18951;56415;14397];
[28921;1;1;5;7;29;23;117;159;287;695;71;2393;2655;6417;24349;20441;77987];
[28927;1;1;5;7;31;23;81;125;145;141;1459;4095;713;1817;9263;21025;91983];
[28929;1;1;1;9;17;23;91;39;459;299;1951;3229;6229;3267;15883;31719;96573];
[28935;1;1;1;15;3;51;9;7;455;653;1447;153;8117;723;2177;9107;7757];
[28941;1;3;1;15;27;47;49;245;499;807;175;1653;1693;3931;27479;30095;62353];
[28942;1;1;5;5;23;7;15;193;499;193;201;2771;4153;11533;25883;23337;126685];
[28954;1;1;1;7;9;43;125;181;425;557;1401;2593;1933;6803;20021;32687;126465];
[28959;1;3;3;13;27;19;99;29;395;765;1137;2963;7397;9695;19259;27965;83157];
[28960;1;3;7;7;17;29;7;241;5;281;1489;1599;5567;4579;7739;41413;110571];
[28990;1;3;3;9;7;5;83;1;231;1003;631;2557;831;6495;30409;53519;79331];
[28992;1;1;5;1;7;49;45;241;201;551;1645;2003;1455;3317;23639;7841;100765];
[29004;1;3;5;13;25;47;103;37;81;263;1143;801;5863;6871;8615;57363;90161];
[29010;1;3;7;11;27;23;119;211;473;207;605;637;3369;7287;27827;25003;65925];
[29012;1;3;1;15;27;31;97;247;75;893;1099;3609;6807;4393;10253;62759;89971];
[29021;1;1;7;15;27;19;43;59;419;263;387;3193;5589;4197;19143;64749;103093];
[29035;1;1;7;11;21;51;97;227;251;869;1927;2331;7741;8207;12885;13267;17945];
[29040;1;1;7;7;5;53;41;147;75;709;607;1073;2853;8081;12797;5279;86083];
[29059;1;1;5;5;15;21;77;189;269;595;197;3117;5073;14277;26867;49505;75755];
[29068;1;3;5;15;13;55;1;223;135;367;735;3139;4851;9773;11699;19081;26011];
[29080;1;3;5;7;9;3;89;103;321;727;1809;3527;6881;2399;13593;27867;16219];
[29086;1;3;3;1;23;5;53;51;403;753;2037;1261;7575;2725;11341;18533;98767];
[29089;1;1;1;11;1;13;37;141;477;689;1789;1913;5753;6069;6965;55209;77329];
[29090;1;3;7;3;17;59;79;249;381;163;1773;1645;7295;2359;21889;28429;117073];
[29095;1;3;5;15;7;45;59;3;93;259;1257;2967;1175;10171;873;51423;67437];
[29113;1;1;7;13;17;33;53;217;159;683;1169;3363;4591;3959;10089;35443;99677];
[29127;1;3;7;9;3;1;5;171;17;635;369;1529;4861;4977;29303;42357;69309];
[29131;1;3;7;9;21;17;77;127;105;427;525;1123;2365;7487;6315;64773;122747];
[29148;1;1;1;15;19;63;65;83;219;987;169;2589;3809;8807;22473;6479;44617];
[29161;1;3;1;7;11;51;107;19;379;191;1013;3145;1501;11871;14111;18269;98247];
[29172;1;1;7;5;17;63;23;231;423;855;1955;907;4553;16173;7701;40329;42047];
[29179;1;3;7;1;7;45;103;127;185;721;1035;839;691;6823;23819;50781;92767];
[29188;1;1;1;3;9;21;57;253;285;85;1227;365;2347;7491;15183;8619;108819];
[29192;1;1;3;15;27;13;5;85;45;1009;1315;1749;2797;3941;19367;50855;60693];
[29195;1;3;5;15;29;63;115;197;317;601;711;377;7489;4247;4843;56549;108447];
[29206;1;3;7;15;11;25;7;145;371;395;1743;267;2609;15707;13909;55031;71115];
[29210;1;3;1;1;1;53;111;245;433;309;245;15;2091;9051;11095;31821;104535];
[29215;1;3;1;15;25;31;99;89;259;595;1095;3681;5105;8671;23663;29717;126429];
[29221;1;3;7;7;5;31;15;59;109;527;257;1785;6799;1283;11741;34589;102397];
[29222;1;3;3;15;9;27;55;35;291;587;1281;779;4615;373;24037;64671;124019];
[29236;1;1;5;5;13;51;49;19;37;857;539;1291;6021;8645;30351;33839;111515];
[29246;1;1;5;13;3;47;9;197;19;337;2025;3003;7179;5755;31187;59317;69753];
[29248;1;1;7;3;3;43;11;3;123;29;857;3349;791;11157;23967;33729;28445];
[29253;1;1;5;1;1;11;73;231;173;925;331;161;3303;11015;17507;21271;56865];
[29272;1;1;3;9;21;21;115;145;421;981;1789;3343;7591;12043;5795;17737;106501];
[29288;1;1;7;13;7;15;51;75;497;637;1073;1505;5613;1415;30861;26159;79573];
[29293;1;1;3;15;17;35;17;129;169;283;1383;149;211;1381;22205;28367;831];
[29294;1;3;5;5;17;11;127;183;503;499;2011;2721;2717;3105;4731;60319;9361];
[29308;1;1;1;7;27;55;77;203;255;761;1159;2915;4479;13671;19757;65497;4461];
[29318;1;3;1;9;9;51;67;205;445;35;371;1837;3623;10365;19463;59005;3185];
[29321;1;3;7;3;23;5;51;141;293;489;263;2187;1259;2729;1779;61027;53931];
[29322;1;1;1;15;27;7;15;109;475;839;175;953;4531;437;22475;24167;19051];
[29339;1;1;7;9;25;23;41;107;299;115;1713;1559;5701;5427;28813;39913;15941];
[29365;1;3;5;7;5;25;99;9;307;591;1303;3501;1589;12095;26629;52127;60635];
[29369;1;3;7;3;9;23;3;29;113;49;1601;541;1415;11601;19165;46595;111623];
[29372;1;1;3;11;5;53;37;153;51;41;1267;545;2055;13137;7749;30721;119591];
[29377;1;3;5;11;1;15;65;17;155;65;745;2547;6351;2347;13553;5785;129857];
[29392;1;3;7;13;5;53;11;59;453;467;1275;3669;4481;5229;2953;23369;100161];
[29401;1;3;1;1;13;41;91;179;331;547;1571;1787;6467;12375;4579;45023;119149];
[29402;1;3;3;5;17;55;105;57;227;323;1517;1215;3149;13919;18595;5525;82445];
[29418;1;3;1;13;19;23;17;239;81;481;1625;2003;7295;2185;7021;19357;37867];
[29437;1;3;5;9;11;15;61;223;153;139;2023;2579;495;14319;2835;26541;113115];
[29445;1;1;3;13;29;9;13;149;325;87;697;2345;2205;5069;9939;61351;127313];
[29446;1;1;7;11;13;53;45;197;167;551;439;3715;4587;8549;28193;35827;96721];
[29460;1;3;1;1;17;7;31;205;219;739;1165;243;3877;15943;15207;43857;120565];
[29467;1;3;7;9;7;43;81;203;295;553;279;2717;9;751;24715;21591;11485];
[29473;1;1;1;11;15;17;41;121;355;157;955;3875;7595;235;4937;20607;11401];
[29476;1;1;7;7;13;49;33;161;65;251;1895;2665;3017;9725;10797;46313;43407];
[29488;1;1;3;9;23;17;127;69;385;875;461;3305;3001;5875;13547;61239;113571];
[29511;1;3;7;5;15;47;113;131;465;89;733;433;799;5689;723;63479;106945];
[29512;1;3;3;15;29;1;51;115;317;1021;1219;1797;4005;10435;28935;49467;66833];
[29517;1;1;3;11;15;9;51;209;477;479;1099;2781;5525;12715;9067;18317;121671];
[29523;1;3;1;7;19;35;61;27;479;815;1639;2825;7449;13697;3079;49833;35119];
[29526;1;3;7;3;17;53;95;155;505;185;717;3419;3857;2369;14525;22797;38553];
[29535;1;3;1;13;27;5;11;21;507;65;39;2841;7887;2783;18767;34171;40527];
[29539;1;3;1;7;9;47;69;217;251;775;631;1967;5541;10679;16439;33533;57817];
[29545;1;1;5;11;27;57;103;255;359;745;63;3725;4113;10943;7833;46857;99239];
[29559;1;3;1;5;31;41;69;245;401;451;959;351;6999;6187;21437;55067;53547];
[29560;1;1;1;13;25;49;85;181;457;731;743;1901;7013;12027;14729;24193;89685];
[29589;1;3;3;1;31;29;101;137;117;135;345;1419;7133;2695;3631;53049;45875];
[29593;1;1;1;13;11;51;95;221;339;655;201;3007;8179;8093;22399;59123;127319];
[29599;1;3;7;3;31;37;23;199;191;649;817;1959;893;2333;21477;29087;115667];
[29603;1;3;3;5;9;55;123;67;39;533;797;2575;3955;14585;28587;13079;60053];
[29610;1;3;1;1;17;19;15;219;185;21;967;667;3361;3883;8059;26199;80913];
[29629;1;3;3;11;23;5;99;57;379;151;271;3735;7087;12731;2949;54831;37835];
[29644;1;3;1;7;21;25;9;195;497;585;901;19;7675;13611;31155;14567;20545];
[29656;1;1;3;3;27;45;51;169;397;531;673;2935;3779;7169;23479;16157;100237];
[29662;1;1;1;1;19;49;3;75;455;805;591;1929;2883;2797;31379;12025;120929];
[29675;1;3;5;3;17;39;115;93;341;329;1857;2753;4923;12539;25589;19437;29027];
[29692;1;3;5;9;27;37;21;235;499;369;1341;3719;6819;3153;30619;50901;52999];
[29704;1;3;1;11;3;55;43;219;83;771;783;3569;7879;2363;30605;5965;126855];
[29707;1;3;7;13;7;25;111;63;355;317;1579;1523;2733;11963;25205;20545;67389];
[29715;1;3;5;7;3;17;55;99;321;633;2013;1991;1019;9223;21117;23337;90589];
[29717;1;3;1;1;17;25;79;171;303;403;2037;2595;3951;8021;8669;9363;20345];
[29722;1;1;1;7;13;7;11;7;347;53;1763;3097;3353;3769;22947;20919;92247];
[29731;1;3;5;11;19;29;91;191;511;705;1317;3367;7;4999;30251;18299;66983];
[29740;1;1;3;7;19;17;71;77;285;189;853;2305;4205;15603;15501;48073;11411];
[29743;1;3;7;5;21;15;47;13;277;969;1861;3493;6723;11521;22145;43779;44713];
[29752;1;1;3;5;19;47;51;207;229;957;709;267;8081;611;26403;14871;111841];
[29760;1;3;7;1;19;43;71;73;405;351;1131;3527;5949;14363;20041;48123;68123];
[29766;1;3;3;7;23;51;81;13;161;453;365;1089;3505;12359;14277;56113;19717];
[29770;1;1;1;7;29;35;103;137;317;417;1465;2787;6935;9885;12943;43937;28353];
[29794;1;1;3;13;19;37;97;5;115;89;1005;3033;2011;2633;10615;6641;73385];
[29796;1;3;7;7;31;39;107;165;61;1009;1159;865;3469;11093;10425;43959;37395];
[29814;1;3;5;9;7;51;99;91;37;457;39;2455;7481;4929;29755;50603;48943];
[29817;1;1;5;13;5;39;47;149;341;303;843;3619;7527;8739;5893;42623;99899];
[29829;1;1;1;1;1;41;73;71;409;351;131;515;6657;337;23913;583;21665];
[29841;1;1;3;3;11;45;39;113;315;965;1605;2779;501;7429;2567;7011;71445];
[29851;1;3;7;13;21;13;45;105;385;281;1683;3997;6391;10943;22349;37261;57555];
[29860;1;1;3;5;17;55;109;71;393;561;433;1091;1923;13861;12981;5523;15467];
[29864;1;3;7;5;17;11;113;119;37;989;1609;2191;1511;11835;25423;793;15227];
[29869;1;3;1;5;5;55;105;225;349;351;1259;1309;821;2733;1357;3665;38863];
[29870;1;3;5;1;23;61;49;113;169;319;85;1581;97;5271;30625;37693;7297];
[29889;1;3;5;1;1;25;31;125;307;731;1815;1047;7251;12481;20781;63275;51985];
[29896;1;3;5;9;11;9;121;111;45;751;793;2593;6409;4355;30183;36959;105161];
[29901;1;1;3;9;25;37;95;253;401;481;1521;3555;231;15459;1581;36661;121727];
[29913;1;3;5;3;27;11;107;115;213;813;27;1789;603;383;1129;63365;51147];
[29919;1;1;3;13;25;7;33;1;97;907;35;4069;5001;507;911;62037;22019];
[29920;1;1;3;5;7;55;35;95;261;217;1565;3473;3475;12181;569;27389;81771];
[29947;1;1;3;5;11;33;95;121;453;711;361;3927;5231;15685;31143;56915;23707];
[29958;1;1;3;11;25;15;53;155;469;647;1547;335;3753;12873;13639;25129;79287];
[29975;1;3;3;3;1;21;21;121;105;903;83;2287;4295;14369;29183;26841;38115];
[29981;1;1;7;11;5;29;65;191;389;419;1315;739;3485;10587;2399;36377;28789];
[29985;1;3;3;11;3;29;71;169;265;747;395;1211;3487;15705;25611;18183;85771];
[29998;1;1;7;3;23;5;45;47;337;571;33;1221;5671;1233;28361;36945;911];
[30010;1;1;5;11;17;15;57;97;185;999;1277;3371;2785;3341;13395;11925;86777];
[30012;1;1;3;1;31;37;23;105;503;869;1309;3733;4629;8263;11763;30669;26179];
[30044;1;1;3;15;25;61;37;27;325;413;809;2959;8137;3397;21185;27995;84297];
[30048;1;3;5;5;1;55;95;41;493;469;331;1789;7037;7947;14239;16109;51795];
[30051;1;1;1;1;19;33;111;237;261;331;871;3539;1731;6953;11345;37901;5623];
[30063;1;1;5;7;21;41;49;179;49;797;231;1299;145;7743;725;60595;19581];
[30065;1;3;7;15;7;43;67;219;133;641;1657;2301;1591;12309;6395;3999;92961];
[30072;1;1;1;5;1;49;37;81;219;323;461;1379;1797;14825;21811;7347;35643];
[30077;1;1;1;11;1;3;83;31;307;83;1169;3277;1875;13397;20265;46707;15205];
[30087;1;3;7;11;29;41;69;33;405;991;1937;1217;2137;8657;4319;41119;43371];
[30088;1;3;3;3;25;49;107;197;347;923;1585;3023;4087;13875;22015;35733;33755];
[30101;1;3;3;5;15;61;89;249;141;853;1469;999;7425;10015;12341;51535;61619];
[30112;1;1;7;13;31;61;89;113;117;429;1011;1589;1419;5083;4843;26759;47401];
[30121;1;1;7;9;17;37;119;39;499;93;1155;3069;2033;12483;29849;40077;11103];
[30122;1;3;1;15;11;5;23;121;283;717;1573;3911;2031;2617;20387;33157;301];
[30130;1;3;5;7;17;61;109;3;205;617;1171;223;6609;15027;2629;15801;73749];
[30135;1;1;3;7;5;49;9;73;333;401;675;2765;993;77;19237;60929;88703];
[30139;1;1;1;9;21;25;53;249;241;43;1959;545;3729;11395;3027;12661;87729];
[30142;1;3;3;15;15;61;33;59;155;773;1043;3111;6549;5397;29099;57851;107671];
[30164;1;3;7;1;29;29;1;161;273;883;1913;2389;401;9425;17613;50443;84601];
[30167;1;3;7;11;15;63;41;53;371;153;1491;3013;6635;4955;30145;20175;16541];
[30180;1;3;3;11;31;27;127;207;11;313;1067;3445;3075;4071;28305;58911;85273];
[30202;1;1;7;11;17;47;77;119;209;657;1181;459;5821;4267;5757;53703;35621];
[30211;1;3;1;15;27;41;3;217;457;531;1749;2847;4715;11451;25071;53999;93503];
[30214;1;3;5;3;19;29;9;177;355;265;883;1113;2397;1819;20757;50389;95551];
[30217;1;1;3;15;3;45;85;211;377;293;1791;1193;1117;9383;28039;27155;129513];
[30223;1;1;7;5;1;17;59;215;161;933;1653;2407;2693;3655;7515;2239;88985];
[30228;1;1;3;11;31;3;1;77;459;817;651;603;1711;9391;20607;48195;127153];
[30235;1;1;5;13;11;49;25;13;51;443;1877;1257;163;4673;30313;18841;24547];
[30256;1;1;7;7;15;33;43;79;127;625;1991;1311;2095;14659;3477;56023;57955];
[30265;1;3;7;15;29;7;119;183;123;323;1723;959;2733;2097;2927;57595;86067];
[30286;1;3;5;5;29;57;93;139;495;739;1715;713;243;2027;11223;44143;119155];
[30293;1;3;1;9;3;63;113;29;19;439;869;1101;4947;2191;14737;57049;93505];
[30298;1;1;7;1;11;39;27;29;281;829;1979;2185;2207;14969;7447;55541;59593];
[30310;1;1;7;13;11;15;15;143;383;469;1439;2823;7489;7675;15433;26203;80433];
[30314;1;1;1;7;15;45;23;93;477;1;1431;3173;7879;12211;13051;56971;114289];
[30327;1;3;1;1;27;55;61;185;323;569;1063;1357;7373;14947;15967;64517;104625];
[30333;1;1;5;11;25;1;127;163;419;657;911;361;3675;10765;24565;2661;61979];
[30334;1;3;7;15;29;53;29;149;465;535;1865;2243;4783;9327;24843;52313;15683];
[30337;1;1;7;7;17;7;85;187;91;1013;1917;2959;3571;12047;25267;34095;9877];
[30338;1;1;1;7;5;27;111;107;313;571;1081;3193;1025;2589;1523;40453;77065];
[30344;1;3;7;1;19;27;1;103;479;405;583;1737;3495;9093;20397;16429;45609];
[30349;1;1;3;11;17;1;125;97;261;651;901;1245;1181;14469;16229;31935;100227];
[30352;1;1;7;11;15;1;19;151;453;833;1371;1109;5373;25;5619;58351;26349];
[30362;1;1;7;15;17;55;51;67;123;13;1873;1035;5871;11943;11543;43261;62587];
[30374;1;3;1;13;21;15;83;205;333;379;2021;1389;861;10395;20587;38207;49109];
[30380;1;1;5;3;13;49;89;85;463;1005;1367;3487;581;12145;22445;35343;65745];
[30388;1;3;3;3;29;27;99;195;89;793;1677;3989;4811;8303;9165;50349;96947];
[30391;1;1;3;5;29;11;91;107;13;659;213;1613;2245;11567;28157;2937;53275];
[30395;1;3;7;5;3;41;65;27;93;747;1143;505;3881;2123;2903;54137;96185];
[30403;1;1;3;15;9;49;3;25;77;681;1709;915;2243;2127;18243;13915;67399];
[30409;1;3;5;7;13;49;89;67;63;271;1651;897;4035;1067;13743;56791;44371];
[30424;1;1;7;9;25;19;125;15;125;705;1359;817;1241;12447;19097;33209;89091];
[30427;1;3;7;3;19;43;127;197;39;709;257;3547;3069;1187;21255;6453;40763];
[30430;1;3;3;5;3;53;37;65;415;183;991;533;7805;9905;18925;52665;100987];
[30451;1;3;3;11;17;41;17;137;143;277;945;1531;7427;7287;30869;27651;116507];
[30460;1;1;1;3;13;3;9;163;113;373;1909;1051;97;10729;28615;40081;129297];
[30475;1;3;3;9;11;47;113;27;307;339;1319;3083;7383;1551;26691;28769;114313];
[30480;1;3;7;7;25;49;31;231;485;629;59;283;7463;6603;23055;63643;10121];
[30485;1;3;7;9;5;55;53;127;147;103;1697;485;7051;14153;21631;35561;10393];
[30486;1;3;3;7;23;7;83;17;135;487;315;719;7003;3919;13255;24031;110493];
[30489;1;3;1;15;27;55;121;177;205;733;933;1535;2925;4259;22203;59059;89209];
[30492;1;1;1;11;9;11;127;47;493;349;1415;3089;4739;14347;31579;20739;72997];
[30499;1;3;1;7;9;31;121;111;163;733;1699;1507;5467;13499;25269;6303;70201];
[30511;1;3;1;5;7;23;123;203;329;387;577;2331;2283;14029;19409;103;2477];
[30533;1;1;7;15;11;29;29;153;289;333;1669;2065;5465;8835;28753;21209;34283];
[30534;1;3;5;11;15;33;45;81;241;461;1167;1073;5511;795;30955;49121;42805];
[30540;1;1;1;13;7;33;11;201;161;475;1359;2329;177;9883;8967;21399;73045];
[30545;1;3;3;1;25;59;85;51;481;751;1213;3019;421;9903;30071;50661;94715];
[30552;1;3;3;1;5;61;3;179;131;233;1627;3577;6323;14161;21595;44963;20215];
[30557;1;1;1;5;9;53;45;105;275;769;105;2757;6769;14987;19955;18291;81707];
[30558;1;1;7;1;1;59;33;19;385;775;423;1799;1325;13545;16027;58347;102397];
[30567;1;1;3;11;15;61;63;59;355;659;1483;3781;7383;5563;32537;34175;40303];
[30568;1;3;5;7;5;37;19;223;323;129;287;2655;3767;16201;4147;315;54885];
[30581;1;1;7;13;13;23;43;129;405;205;1691;2189;3313;11789;10263;16367;65547];
[30597;1;3;5;1;15;21;85;233;427;71;475;3731;3335;11483;28613;4335;35669];
[30607;1;1;3;3;31;47;27;109;373;451;1459;3103;1941;10405;20233;30517;122787];
[30621;1;3;1;7;3;11;113;49;355;465;1959;1355;6521;10863;11481;13385;31787];
[30632;1;3;1;1;9;45;125;69;267;413;717;2767;833;317;23019;37753;3081];
[30650;1;1;7;7;13;55;75;105;71;505;239;3739;4873;4257;18841;41711;24045];
[30655;1;1;5;13;21;59;107;229;421;441;1079;3727;7941;8443;30433;56419;105751];
[30657;1;1;1;9;15;59;29;49;117;1009;1971;115;2899;1069;29145;11855;35277];
[30660;1;3;7;15;19;55;111;77;169;537;1695;2687;3871;14017;15119;27313;112807];
[30669;1;1;3;7;29;5;41;201;211;127;1877;643;2441;8743;29393;6077;52597];
[30675;1;3;1;11;7;1;95;15;229;339;475;3463;7827;9943;30903;65013;1145];
[30678;1;1;1;5;23;19;81;23;475;169;373;1147;1805;12779;13173;8945;28175];
[30682;1;3;5;9;3;53;127;33;237;803;121;307;4981;8765;12761;23601;92921];
[30687;1;1;3;7;17;63;11;37;213;619;1095;1693;6747;7373;17355;5987;97923];
[30688;1;1;3;15;11;37;109;175;503;339;591;2745;2387;7419;13915;4769;48229];
[30698;1;3;5;7;19;17;5;81;471;989;249;437;7309;5747;25277;31911;87907];
[30711;1;3;1;7;15;25;49;243;423;911;1957;911;6331;9831;26021;58877;99257];
[30728;1;3;5;11;3;55;39;129;271;145;1973;3391;2905;9229;7989;15641;67933];
[30733;1;3;5;9;13;13;43;135;183;319;1391;2953;2207;14205;31203;6329;98907];
[30741;1;3;1;9;27;41;27;155;11;191;1747;975;7043;13139;30387;47099;120321];
[30746;1;1;5;9;25;27;53;235;437;77;371;2413;4867;14245;27199;37387;88217];
[30752;1;1;7;7;11;59;103;15;109;65;1987;3695;7737;7341;26963;16075;6301];
[30764;1;3;7;5;7;59;109;159;121;377;1851;3983;5421;7633;7321;14869;54633];
[30769;1;1;3;15;21;51;35;243;397;411;1107;3689;7913;14715;26349;23361;90665];
[30784;1;1;1;3;5;11;77;205;187;981;1969;1749;6295;8267;16073;54451;103603];
[30796;1;3;3;9;11;13;113;83;243;1021;2003;2277;6457;10535;13461;52741;9385];
[30799;1;3;3;11;19;9;103;13;219;269;1805;2689;5219;11497;4909;57985;40141];
[30804;1;1;1;1;29;25;15;217;69;567;839;1515;3627;9837;21433;37177;10487];
[30811;1;1;7;15;15;23;119;217;277;447;551;825;7571;3083;16573;1189;64959];
[30814;1;1;3;11;9;13;63;77;313;195;941;1621;165;8905;20265;53761;25091];
[30818;1;3;3;9;17;5;9;183;175;1015;253;233;2883;15587;27175;38517;22707];
[30827;1;3;3;11;23;63;83;17;49;671;749;3249;7821;7189;26735;28995;101737];
[30838;1;1;7;5;25;15;97;247;161;585;1307;3803;1105;9093;23523;1383;65671];
[30842;1;1;3;15;29;51;65;237;349;709;799;1425;6267;6283;4773;18123;74833];
[30854;1;1;5;5;11;13;9;251;373;189;467;945;7279;11349;10917;6581;83967];
[30863;1;1;7;15;23;27;1;197;41;325;757;1229;6295;345;26147;40135;123063];
[30865;1;1;7;9;23;9;93;225;191;837;103;3367;5411;8289;7057;55391;10669];
[30877;1;1;5;15;21;17;49;221;487;23;1943;1563;6157;4035;27769;14933;56913];
[30881;1;1;5;13;13;43;67;245;457;365;1115;2205;6229;4173;25167;56333;55605];
[30887;1;1;5;11;15;59;109;83;17;913;497;1299;5221;321;32139;13717;94311];
[30908;1;3;3;3;31;11;5;203;3;843;2039;25;6211;14927;6015;46269;90369];
[30916;1;1;3;9;21;51;91;203;149;147;197;1771;2921;6609;2343;35249;12963];
[30919;1;3;1;7;17;43;91;229;107;521;737;2355;5855;6707;21217;47041;81833];
[30925;1;3;3;7;7;31;97;135;503;665;1799;2937;6867;4125;7375;34401;18111];
[30928;1;1;7;1;11;29;89;185;495;633;507;3727;5999;5871;5911;24877;10259];
[30944;1;1;1;13;25;3;25;65;91;411;147;3699;7003;3017;25635;56619;101491];
[30947;1;3;5;7;31;1;63;255;115;179;87;735;1649;4767;31093;60149;49829];
[30950;1;1;3;1;21;63;67;85;399;279;1963;1759;4679;15423;11533;54387;36563];
[30968;1;3;5;3;31;53;73;73;481;443;1393;2763;1199;5375;8977;5369;114603];
[30971;1;1;1;3;29;47;73;205;469;187;815;2787;1431;4705;11455;53643;89269];
[30973;1;3;3;9;27;57;93;55;287;539;1259;3279;1563;11399;22975;27077;41031];
[30976;1;1;3;15;7;27;67;25;169;263;621;1921;509;11715;15363;27447;75535];
[30986;1;1;1;9;29;63;31;99;321;361;1693;763;5593;10815;741;31257;70843];
[30993;1;1;1;9;1;17;73;141;401;549;415;1289;1697;1903;8919;59563;60017];
[30994;1;3;7;3;5;51;127;221;9;929;153;1045;6587;13653;5343;14043;116125];
[31012;1;3;3;13;13;17;29;93;465;59;1207;3121;6331;8647;5047;41869;51969];
[31016;1;1;1;15;23;29;47;149;119;855;367;1419;7739;1141;19787;38185;84403];
[31029;1;3;1;9;29;63;5;63;435;401;1023;1981;6819;7547;30065;33833;7471];
[31039;1;3;1;15;1;47;35;161;243;225;935;2179;7737;7841;28523;11505;103741];
[31041;1;1;7;3;7;57;73;55;101;905;1705;4057;3781;8213;18997;17185;33265];
[31042;1;1;5;1;7;57;31;77;323;395;927;1969;6973;9013;30789;757;84075];
[31044;1;1;3;7;15;53;51;205;401;679;1295;1955;7739;11423;23207;55449;60419];
[31053;1;3;5;11;23;21;67;141;157;767;219;3607;1847;11051;31499;8461;106353];
[31059;1;1;3;9;17;19;123;169;1;31;1019;1823;6043;1895;17293;62079;16945];
[31062;1;3;5;9;3;15;49;27;183;293;989;2161;1845;1103;20149;11121;31935];
[31077;1;3;1;3;17;39;103;45;491;91;413;487;1381;5457;22503;40477;94297];
[31095;1;1;3;7;29;11;87;79;349;437;945;3753;6691;4373;24875;54397;33697];
[31101;1;1;7;1;9;31;105;121;97;947;129;1909;2371;5493;29523;52685;24325];
[31105;1;1;5;9;19;21;63;115;511;525;49;1879;6075;8181;10135;56785;53309];
[31118;1;1;5;15;3;55;75;135;451;697;1407;2765;2443;11589;24863;47187;98477];
[31129;1;1;1;13;27;37;77;157;121;603;491;2201;619;9157;32511;19843;49919];
[31132;1;1;3;1;23;17;23;115;119;349;987;2587;1847;12099;31955;31685;1989];
[31141;1;3;7;7;5;47;63;209;69;921;1041;1391;7485;11121;30993;5691;74551];
[31159;1;3;1;3;23;61;55;253;355;299;971;279;3543;10073;5199;50539;88303];
[31183;1;1;1;11;13;19;7;255;189;267;2021;93;219;10537;28627;58141;53675];
[31185;1;3;3;7;27;61;83;95;163;777;1533;2485;7211;6979;4013;20797;91411];
[31195;1;1;7;13;15;37;5;109;133;225;59;3855;3351;659;24321;63531;15573];
[31202;1;1;5;1;7;55;59;213;45;77;2003;2921;1105;11089;17197;45459;67681];
[31213;1;1;1;5;13;21;107;245;505;409;1453;1201;6945;2103;7377;59413;8785];
[31238;1;1;1;13;5;37;73;55;39;219;225;3877;6583;3105;25355;14839;23435];
[31241;1;1;7;1;21;35;87;227;487;767;609;1685;2731;10135;381;24021;122137];
[31252;1;1;1;3;29;13;19;255;355;505;1757;3537;3029;11403;22685;61169;397];
[31262;1;1;7;1;29;43;11;207;83;97;435;1453;4709;4193;18517;47203;3255];
[31265;1;1;1;1;21;49;39;163;459;849;561;1207;4109;1435;17519;14839;1331];
[31295;1;1;3;11;27;35;65;219;135;559;1111;2959;7835;5165;26641;22765;121829];
[31300;1;3;5;3;23;31;57;149;431;451;189;1771;5877;3503;7531;46485;129031];
[31303;1;1;3;11;1;13;47;17;331;1003;215;2797;689;6289;12719;37139;35827];
[31317;1;3;5;9;19;13;11;29;275;165;783;313;2153;6009;2247;5699;128753];
[31318;1;1;7;13;5;43;51;75;411;743;335;217;559;15389;6567;41193;127443];
[31324;1;3;5;15;5;63;7;145;445;835;825;35;5951;5121;16365;36789;2941];
[31338;1;3;5;5;29;1;61;19;427;245;445;3505;3647;8817;8031;64577;60745];
[31340;1;1;3;9;29;9;35;225;55;535;1537;831;6483;16123;26079;32809;62227];
[31345;1;3;7;7;25;33;15;61;343;749;1963;2763;3171;6755;6529;49449;88903];
[31355;1;1;7;13;17;35;91;119;87;1023;1101;1785;2005;15947;21679;63179;3389];
[31362;1;3;1;1;1;1;123;195;315;681;153;1621;5097;3669;20505;39305;127065];
[31371;1;1;5;11;1;17;73;251;185;59;1723;2321;2103;6331;29571;63811;66651];
[31373;1;1;7;13;15;19;111;91;211;85;711;2197;3107;2717;16725;52995;65791];
[31381;1;3;3;9;21;41;53;145;459;155;93;2833;6747;737;30625;40581;65825];
[31391;1;3;3;3;1;45;119;81;185;431;1221;3043;7277;10537;12355;42261;126117];
[31409;1;3;7;7;11;47;37;41;123;643;707;2963;6183;15527;10951;24031;38187];
[31410;1;3;1;7;13;57;1;149;117;627;1999;2805;4857;12805;31453;25699;109447];
[31412;1;3;5;3;9;37;83;221;77;573;661;465;1279;7355;24061;36151;96595];
[31434;1;1;7;15;29;31;125;205;449;563;1263;3427;8013;14025;15235;11833;25601];
[31458;1;3;7;11;31;35;99;193;163;527;1455;395;4853;2561;11909;57311;101007];
[31467;1;1;5;3;17;39;99;173;497;245;1671;3457;83;11959;2963;3401;102259];
[31470;1;1;1;5;25;41;119;81;301;797;661;2543;1195;2111;1785;41533;51947];
[31475;1;3;3;13;5;59;61;153;213;541;1849;249;3897;3877;17095;6857;76781];
[31481;1;3;7;1;19;13;57;47;359;165;1085;2263;3261;12825;17405;25853;20731];
[31482;1;1;1;7;7;43;7;65;51;503;173;1023;283;14809;1183;33497;110683];
[31484;1;3;5;11;19;51;29;157;159;191;1293;2951;6569;12433;14587;30631;30485];
[31492;1;3;7;5;1;27;25;221;255;471;779;3991;6985;1803;28451;33403;5567];
[31507;1;1;5;5;7;29;55;241;457;863;1715;3393;4127;13985;6313;13683;114837];
[31514;1;3;5;5;11;27;55;109;247;199;1593;2881;307;97;24751;35921;121931];
[31538;1;3;1;13;3;59;17;161;47;467;1019;3629;3017;15645;3983;32393;79213];
[31547;1;1;3;11;19;57;67;199;319;107;2043;2045;4025;5733;29979;37721;117031];
[31549;1;3;7;11;9;23;31;81;177;801;1177;3451;7777;15351;7579;39033;23847];
[31555;1;1;3;5;17;61;63;7;371;905;1147;1383;4075;6721;17503;32015;112547];
[31557;1;1;3;13;13;25;69;159;49;133;227;2155;1603;10077;3429;39131;18949];
[31597;1;3;5;3;29;5;115;93;243;791;1113;2841;4733;3041;31733;28539;84567];
[31598;1;3;3;7;21;9;5;95;489;517;1453;2697;7951;12369;19571;29811;51805];
[31610;1;1;5;9;1;29;97;191;73;357;745;2787;7815;4565;19761;33729;86849];
[31625;1;3;5;13;3;5;35;79;387;813;1673;3187;337;5539;6761;46903;122967];
[31634;1;1;7;11;1;15;125;175;255;35;145;2391;887;10505;11587;53941;5089];
[31643;1;1;7;13;9;13;15;215;361;227;1665;3345;3615;14031;16281;4457;52037];
[31645;1;3;5;9;31;21;3;189;211;855;1781;2097;1345;6763;27651;54137;52689];
[31659;1;3;1;5;29;9;99;183;183;205;149;53;7179;3387;9603;4281;47145];
[31669;1;3;1;11;13;35;97;21;29;877;191;1621;2501;4283;1707;48957;129029];
[31670;1;3;1;9;5;19;57;219;105;467;1179;3155;7743;4835;14845;35671;47655];
[31682;1;3;1;7;27;41;27;185;271;611;1173;2875;529;11619;20231;18741;41799];
[31694;1;3;7;13;9;3;35;71;467;689;1797;319;6657;13193;15861;7567;12891];
[31717;1;1;7;13;19;57;25;141;195;995;859;811;4685;6711;8963;49657;54751];
[31718;1;1;1;11;27;25;9;91;97;251;757;2783;5447;3617;26801;32501;55245];
[31729;1;3;7;1;5;1;103;129;127;593;857;3957;3665;10279;26211;2095;15869];
[31736;1;1;7;1;25;49;3;139;25;545;615;1353;4103;1099;21729;45383;110611];
[31742;1;3;5;3;7;49;83;41;209;357;939;849;5851;3945;831;8131;105897];
[31749;1;1;1;3;27;19;123;71;195;1019;1021;1287;5665;5277;8647;27033;89539];
[31773;1;1;1;9;27;51;49;159;401;1013;763;653;1449;12441;21191;28871;106181];
[31777;1;1;5;7;31;7;105;137;331;367;1305;2761;863;3915;12633;32251;82867];
[31778;1;3;7;11;9;47;35;57;137;269;443;79;11;11817;28995;46681;104263];
[31784;1;3;1;5;3;25;89;179;183;835;367;2215;295;5365;1899;10785;88979];
[31801;1;3;7;13;3;5;93;43;409;363;267;2077;3745;445;25957;34103;29475];
[31812;1;1;1;7;27;21;121;29;171;783;553;265;6835;3929;18127;33463;70999];
[31821;1;3;3;15;15;55;13;1;297;935;1307;1779;2239;15471;32453;30649;45973];
[31822;1;3;7;5;25;41;3;171;347;607;1873;1087;2433;8377;7959;19941;117319];
[31836;1;1;1;3;5;47;107;69;431;63;325;1241;3487;11249;28559;30001;93789];
[31850;1;1;1;5;15;17;9;145;335;169;1099;3637;5397;6711;16095;27053;124247];
[31855;1;3;3;5;3;9;65;97;421;951;2003;2837;7095;15685;5147;56801;98679];
[31858;1;3;7;15;1;33;115;45;215;253;361;555;787;15483;25531;53273;8933];
[31860;1;3;1;9;3;63;47;205;457;977;991;3189;1369;14899;10937;56999;11525];
[31886;1;1;7;5;11;61;53;55;231;357;1695;2489;2355;7583;14097;50039;96595];
[31891;1;3;7;7;3;57;115;245;259;573;1275;2971;1793;13683;8683;51815;26807];
[31909;1;1;5;3;17;59;55;237;491;757;1447;2941;2641;14175;4401;4367;36853];
[31928;1;3;1;15;3;63;67;1;403;79;1161;2379;3337;14447;5877;40759;12573];
[31931;1;1;7;15;17;1;91;5;173;215;1567;1851;3309;9813;21215;19151;96785];
[31934;1;1;1;9;31;45;123;221;397;51;1489;3247;923;10423;10461;51231;92909];
[31941;1;1;1;13;27;17;105;163;403;193;1487;2421;4415;14303;6419;24105;29997];
[31942;1;1;5;13;31;55;17;125;341;219;401;1611;891;12909;13949;46245;26769];
[31945;1;3;7;3;31;41;65;207;311;643;1617;271;3749;14635;26385;55251;50719];
[31951;1;3;3;13;7;55;69;241;413;399;137;2255;5395;12625;26583;64603;22571];
[31959;1;3;5;3;31;15;15;161;153;445;595;273;6631;12845;23331;16963;52099];
[31963;1;3;3;1;27;39;71;41;455;841;831;1719;3531;5113;29183;1933;42227];
[31970;1;3;7;3;1;15;31;183;429;557;1747;1059;2079;16361;29103;43207;921];
[31984;1;3;1;1;31;39;97;73;339;405;1423;2215;5435;9205;1889;58249;61517];
[31987;1;3;7;1;23;59;127;245;11;627;1555;2497;6427;7205;22675;62847;69691];
[31990;1;1;3;5;1;13;95;9;167;481;947;3181;8057;5559;7537;33757;72419];
[32001;1;1;7;3;15;9;105;205;287;375;115;1731;1063;11551;12077;41013;88853];
[32007;1;3;3;9;5;63;127;33;409;279;1379;4069;4091;14703;27435;19525;71261];
[32008;1;3;1;13;31;31;59;205;167;131;891;1259;6909;211;31517;8085;112065];
[32025;1;1;5;11;17;25;119;77;449;569;381;825;2459;983;2959;51611;90721];
[32035;1;3;1;7;17;55;91;231;133;541;499;3609;4237;11627;30007;58911;43443];
[32038;1;3;7;7;29;5;47;187;71;695;1389;2855;5815;11605;3643;24961;25793];
[32047;1;3;3;5;11;31;43;31;185;1021;795;3585;3981;8627;18117;42351;19513];
[32049;1;1;5;13;9;3;115;45;39;577;1847;653;2625;9367;27923;35661;113613];
[32062;1;3;7;7;17;9;69;233;367;673;11;2215;1177;4501;9693;62013;45647];
[32067;1;3;5;7;7;53;11;227;465;843;2017;689;6767;10321;25163;56561;6865];
[32070;1;3;3;5;13;43;119;9;185;893;133;863;7137;6653;7875;23167;13893];
[32073;1;3;5;9;1;47;17;85;273;901;493;2411;983;15717;25151;21323;57939];
[32074;1;1;7;5;19;17;49;37;425;443;781;2593;4929;12313;12727;42285;88451];
[32079;1;3;3;11;9;53;17;67;237;463;1509;2153;3715;7909;21151;64517;87695];
[32081;1;3;7;1;29;39;25;83;413;1005;2011;3933;2911;7041;10537;23135;22671];
[32082;1;1;3;9;23;61;117;33;431;181;1819;683;1809;1723;27041;29113;99347];
[32107;1;1;5;11;11;7;101;181;51;857;923;3495;7123;7775;30081;48513;116137];
[32127;1;1;3;11;15;31;97;127;365;799;715;2101;6081;11607;1055;35027;62967];
[32145;1;3;5;7;3;31;109;247;225;221;1093;2633;1847;7427;8767;16581;32145];
[32151;1;3;1;7;15;23;43;109;327;417;1895;2333;6265;6599;6623;47375;92731];
[32152;1;3;7;1;29;29;45;217;163;941;1327;3685;5481;15783;26281;60339;34277];
[32173;1;1;7;11;1;7;119;201;29;193;1805;1395;267;2011;637;26765;48883];
[32174;1;1;3;7;11;63;41;89;365;729;25;3185;2143;1737;29693;7443;78079];
[32186;1;3;1;13;25;27;63;233;79;1007;1357;679;7581;8333;2469;31787;128531];
[32194;1;3;1;3;23;39;53;99;219;475;931;507;3615;10613;14663;1151;123459];
[32196;1;1;1;1;13;15;67;45;393;791;415;2731;1151;8935;28983;7239;106247];
[32200;1;3;7;7;11;35;95;153;421;193;1997;2587;3183;9229;17663;28221;6759];
[32208;1;3;1;7;5;5;123;55;509;973;261;463;2723;15225;1925;62283;86329];
[32218;1;1;3;13;5;47;123;239;273;407;1725;717;1229;1387;11743;13739;104503];
[32236;1;3;3;13;23;35;43;113;299;847;1903;3445;3395;641;11271;61517;40747];
[32260;1;3;1;15;17;49;97;9;335;731;151;167;8129;11845;18285;20113;122397];
[32263;1;1;5;11;11;63;3;153;345;511;1939;1815;7231;10555;14293;50753;14681];
[32288;1;3;7;5;21;31;127;223;241;783;887;3519;4743;3541;4143;57461;27791];
[32298;1;1;5;7;13;15;83;225;201;979;145;769;1491;12155;21307;64877;113277];
[32315;1;1;7;1;27;25;105;69;239;323;1059;573;4913;14215;27007;42351;66315];
[32332;1;1;3;11;21;33;93;23;363;633;935;637;6171;12695;14077;17505;69681];
[32340;1;3;1;5;15;11;93;211;175;377;33;1403;5097;1503;8483;2881;85877];
[32354;1;1;5;3;5;51;5;255;429;661;625;3015;4813;3573;22917;45967;70559];
[32359;1;1;7;3;11;41;3;197;181;897;767;1385;7395;15543;4655;40309;73169];
[32366;1;1;5;9;15;35;71;119;509;817;1169;75;1337;2959;611;38243;46987];
[32368;1;1;1;9;1;7;43;65;479;625;1685;1309;5619;14163;13633;18169;8311];
[32377;1;3;5;9;19;39;95;105;273;1023;79;229;6895;2931;5717;27911;22139];
[32384;1;3;5;7;1;55;15;15;297;731;2029;2789;11;1333;26571;62595;15131];
[32399;1;1;5;7;29;35;3;125;381;709;2047;2395;6315;2301;7175;19857;75085];
[32417;1;1;5;15;23;45;95;117;49;635;1525;1105;7335;4653;18159;29729;62627];
[32424;1;3;3;11;29;19;29;169;141;243;1765;1829;4555;16299;3053;58933;44605];
[32427;1;1;3;15;5;45;35;213;385;993;1521;9;3561;10497;12601;38163;86501];
[32429;1;3;3;13;9;23;109;95;491;1003;473;3325;6577;14617;17765;33391;82927];
[32438;1;3;3;11;25;31;93;111;231;71;1233;3581;6789;4569;16741;61967;32249];
[32442;1;3;3;15;15;63;39;247;79;923;327;2639;2013;12325;18133;60623;2215];
[32447;1;3;5;1;5;49;121;53;283;529;37;3233;6285;12447;4355;9343;45631];
[32469;1;1;7;11;11;11;111;139;429;279;1019;2139;2033;6809;8847;22535;107005];
[32479;1;3;5;1;1;21;35;97;167;57;491;511;4065;11699;16851;6847;40929];
[32483;1;3;1;15;3;55;113;33;255;537;835;1867;3927;839;955;29079;93727];
[32498;1;1;7;3;5;7;35;111;165;885;115;3051;4541;1701;22827;361;91843];
[32503;1;1;7;11;7;55;81;43;237;725;1761;1599;639;14189;31241;52827;107943];
[32507;1;3;1;3;29;35;67;119;369;877;1861;123;8121;13861;31155;60245;79799];
[32521;1;1;3;13;7;49;63;19;253;723;639;1677;291;13697;22231;46893;90069];
[32532;1;3;5;1;7;57;29;233;35;715;515;3221;2715;13839;18321;4445;103843];
[32539;1;3;1;7;1;63;33;7;481;461;1923;2679;2441;5449;13233;2245;48667];
[32551;1;1;7;11;11;9;95;151;441;333;1871;1181;3027;12887;11923;63847;6953];
[32572;1;3;5;5;15;33;53;47;351;387;55;393;5475;3027;18565;37997;120877];
[32577;1;3;5;9;23;43;67;97;445;783;1499;1977;1441;10159;13479;149;4939];
[32578;1;3;7;3;15;41;119;55;139;25;849;857;53;10421;2683;24839;107797];
[32587;1;1;7;13;25;51;51;13;333;93;95;1755;3055;12585;3519;44857;11257];
[32592;1;1;5;11;29;55;13;235;419;327;823;2675;8031;9303;8749;20215;12111];
[32602;1;1;3;5;7;31;103;19;467;255;583;419;2845;12179;63;51693;9755];
[32604;1;1;1;13;15;29;109;81;381;659;601;3867;7663;7307;16445;56327;48559];
[32613;1;3;3;15;31;35;29;153;423;247;55;3259;6199;4199;13931;14433;52645];
[32625;1;1;5;11;9;17;17;191;231;977;721;2817;2485;4965;32341;55131;4547];
[32631;1;1;7;7;7;7;89;69;299;503;597;311;1321;2335;30193;45347;126631];
[32641;1;1;7;11;13;43;105;153;89;229;1573;1549;3699;15981;28911;45011;83759];
[32642;1;3;7;3;1;3;121;137;263;325;1449;3793;5795;7715;7449;26453;85081];
[32644;1;3;1;7;23;15;39;217;99;873;1641;1411;4627;283;20707;41795;62239];
[32656;1;3;5;9;15;15;35;255;501;945;79;799;2361;4495;27825;27699;129335];
[32678;1;3;1;7;9;19;89;31;65;905;1475;1353;7253;12825;20723;47757;12007];
[32681;1;1;3;3;15;35;83;239;463;835;1249;2521;3429;14073;13569;6161;71309];
[32701;1;1;7;11;31;43;15;57;461;917;339;3787;2925;1879;7217;17091;108819];
[32713;1;3;7;3;17;51;29;105;221;941;1291;835;1563;15623;2953;62985;63037];
[32721;1;1;7;3;1;39;83;41;399;465;587;2011;137;6017;5067;52389;71053];
[32727;1;1;7;11;17;55;103;239;173;181;1219;2671;5183;3799;19589;31247;68889];
[32731;1;1;3;3;21;43;123;253;281;627;353;3077;1685;12143;19723;57775;70761];
[32734;1;1;7;15;31;13;101;159;311;305;1783;3523;149;9269;7103;40315;30569];
[32740;1;1;5;3;29;47;11;219;301;207;1361;563;7831;14469;18983;54535;64647];
[32773;1;1;3;15;11;37;85;237;225;1009;1065;985;6849;5395;22853;43965;51363];
[32774;1;3;3;1;11;61;45;131;201;609;757;2539;3817;9309;24759;26789;41437];
[32785;1;1;7;3;21;5;19;137;75;573;583;2499;41;3429;24273;36711;110015];
[32788;1;3;7;9;1;51;39;75;115;269;1983;2709;6989;6521;5551;43675;1019];
[32792;1;1;3;9;27;1;125;7;67;821;275;1253;4635;3557;4155;13831;1523];
[32797;1;1;5;15;23;15;79;43;275;791;1867;2495;2933;2167;22819;52913;88871];
[32801;1;1;1;5;31;59;27;153;159;919;219;3373;3227;6321;27559;33905;126145];
[32811;1;3;3;13;23;21;119;175;119;741;1745;3985;3847;5163;13699;32373;75201];
[32821;1;3;7;15;1;47;101;89;425;269;713;3587;3373;13315;16481;40031;50353];
[32828;1;3;7;3;19;29;5;69;385;979;1893;1849;8007;14415;18343;60555;109117];
[32839;1;1;3;13;5;35;111;239;489;395;1565;1607;543;89;8971;22311;899];
[32854;1;1;7;7;11;51;105;211;341;85;991;1275;3995;12611;2363;29501;44217];
[32867;1;1;5;13;9;17;93;69;145;917;469;1109;7405;12903;8341;50383;20133];
[32870;1;3;1;7;27;45;45;85;101;161;1117;2757;7847;359;17155;27073;123535];
[32873;1;3;1;3;9;11;67;205;109;257;1635;141;3969;11571;211;48683;108671];
[32881;1;1;3;7;13;9;29;251;113;851;1549;981;5553;6095;28885;32953;112563];
[32891;1;1;5;7;11;5;13;83;343;499;587;3887;3859;11459;7361;25665;86151];
[32900;1;1;5;1;13;43;3;37;273;749;1707;2069;3083;1095;3081;23919;21939];
[32903;1;3;5;13;13;49;115;99;357;95;699;2615;1911;12675;8607;12535;118651];
[32910;1;1;7;7;29;43;17;131;271;895;1427;3659;1843;8247;1175;48239;54435];
[32917;1;1;1;9;1;27;85;163;353;669;745;317;2505;7685;14831;31131;106687];
[32922;1;1;7;9;1;23;121;53;289;651;303;3049;6819;6733;17485;20023;110009];
[32928;1;3;7;3;5;47;93;75;363;479;825;1801;6807;3341;6419;9889;5557];
[32945;1;1;3;15;23;5;7;25;73;811;1597;2041;6707;6817;20427;50749;46255];
[32946;1;3;7;9;1;11;61;63;435;977;1937;93;2685;643;20113;25873;63829];
[32951;1;1;3;15;5;41;31;53;143;271;27;3899;5045;1063;17229;52715;67689];
[32958;1;1;3;11;1;57;121;13;291;861;1547;3899;7949;15401;29807;52307;104359];
[32965;1;3;5;15;23;3;95;43;377;437;1687;3075;5131;11791;3637;12621;105575];
[32978;1;3;1;3;27;1;117;11;153;401;1971;2097;3227;14603;4757;56281;112263];
[32980;1;3;3;5;13;25;51;209;367;327;1941;1943;1347;14393;31997;16001;129047];
[32983;1;1;5;11;19;51;109;229;71;923;1741;1193;4657;6043;26703;17757;75009];
[32987;1;1;7;3;23;3;125;165;137;999;1583;3493;859;15603;7143;28791;28201];
[33023;1;1;5;11;29;57;65;41;295;729;635;1871;6347;3509;59;40765;42673];
[33031;1;3;3;3;15;59;53;97;15;131;891;1105;841;6065;14427;4721;106433];
[33032;1;1;1;7;19;37;101;121;141;613;1363;691;1731;12477;8339;55669;99379];
[33035;1;3;5;13;17;49;75;25;447;113;1853;3465;5225;4531;14287;1039;17399];
[33038;1;3;5;3;3;49;101;79;117;939;1161;1991;2343;7183;12599;52877;94337];
[33040;1;3;1;1;19;47;73;195;475;435;1807;2723;7885;15469;26057;37325;57005];
[33043;1;1;1;11;17;7;111;143;357;977;719;553;4559;7225;10405;26895;8385];
[33050;1;3;3;9;17;5;1;73;125;913;1275;2387;5153;13611;20585;8465;27545];
[33059;1;1;7;5;27;51;107;147;503;699;851;1729;2875;16331;28025;26451;92705];
[33080;1;1;5;9;3;37;21;139;13;427;225;1345;2491;15495;25847;3095;128879];
[33098;1;1;3;11;7;47;113;133;99;871;1151;1953;7931;6389;28715;36861;60017];
[33108;1;1;7;1;21;47;35;83;137;945;2047;3491;3719;3001;20563;51243;14491];
[33115;1;1;5;15;1;13;85;61;479;853;813;805;4931;12651;22757;29531;92861];
[33117;1;3;7;7;27;63;31;169;43;185;637;729;7231;2381;23539;53885;90215];
[33133;1;1;3;13;5;51;69;111;357;277;1889;3809;8031;13341;14261;34001;63317];
[33134;1;1;7;3;11;59;1;43;227;503;1407;3917;7077;847;4513;53007;66721];
[33157;1;1;5;11;15;25;109;169;25;391;597;2997;2377;9045;15239;25291;5451];
[33169;1;3;3;11;15;11;1;59;347;707;239;2473;8057;4787;32247;17955;79151];
[33170;1;3;7;11;9;59;9;117;137;713;451;1105;4485;14979;26271;46017;89211];
[33176;1;3;3;3;3;19;95;131;413;291;1179;3265;7107;10419;13527;19905;8059];
[33182;1;3;7;9;29;43;19;243;443;27;1401;3469;6925;2833;19715;39667;11983];
[33192;1;3;3;7;23;33;115;59;29;61;1085;1115;4007;12673;26479;22397;95609];
[33205;1;3;3;5;1;47;43;83;21;621;59;1;891;12285;31855;48641;52479];
[33212;1;3;3;5;3;9;17;181;15;315;1705;2461;1853;14007;17665;40593;126179];
[33215;1;3;5;3;3;23;83;163;29;293;1891;2631;2989;7295;2441;21689;8187];
[33217;1;3;1;1;1;23;53;215;185;843;1083;2603;3857;4981;25079;20249;93717];
[33227;1;3;5;11;7;61;127;13;449;395;1909;3967;2441;3073;8159;33979;26345];
[33229;1;1;5;1;15;5;93;87;319;173;1729;1395;1019;5139;10819;29877;81025];
[33238;1;3;3;7;17;55;61;227;299;245;849;211;895;2999;18215;37069;32821];
[33241;1;1;5;3;17;49;115;55;447;533;1463;2983;3245;9345;11955;49145;128035];
[33260;1;3;1;7;5;17;61;71;101;529;1761;827;7887;5713;31039;18087;82277];
[33271;1;3;1;11;27;59;1;231;303;431;1279;3647;1333;3675;29401;55533;65997];
[33278;1;1;5;9;7;9;111;245;269;919;1147;1601;6219;4931;3035;12231;4011];
[33293;1;3;5;15;3;19;83;25;129;979;79;3027;3983;7703;16859;12085;83115];
[33294;1;1;5;11;31;41;99;3;383;943;1579;2435;1209;161;31733;11755;95697];
[33296;1;1;1;9;9;55;115;187;499;165;1081;813;2545;8065;10501;15475;85107];
[33302;1;1;1;3;1;31;81;213;301;575;605;543;3347;12759;21645;37173;36127];
[33305;1;3;3;9;21;29;51;91;307;617;1839;443;1013;4473;3885;57669;123271];
[33329;1;3;1;15;31;43;83;187;51;513;1505;3895;3557;9527;27537;6173;99595];
[33330;1;3;3;1;3;53;113;27;431;505;219;2143;6691;3219;9589;9885;24037];
[33332;1;1;5;9;13;3;53;145;49;411;691;289;6443;4963;13815;23663;95497];
[33354;1;3;5;9;19;7;53;101;199;69;1821;3233;3267;5947;4869;30095;21255];
[33383;1;1;5;11;29;7;79;11;451;585;987;2333;1891;1853;14739;34399;62895];
[33387;1;3;1;7;29;43;103;219;139;359;1663;3453;7469;1943;11457;19227;62211];
[33397;1;3;3;11;9;47;17;237;87;881;583;3473;2579;975;1531;50997;76219];
[33408;1;1;7;15;31;37;79;115;95;515;2003;2595;4077;4537;9171;31183;41219];
[33417;1;1;1;9;21;41;93;33;211;341;233;2217;6657;12913;8329;3881;42563];
[33420;1;3;3;11;25;3;23;197;49;339;877;1117;7817;14143;1575;50301;92367];
[33423;1;3;5;5;19;45;69;179;447;861;1633;1941;5821;1843;4085;23501;109047];
[33431;1;3;1;3;31;29;49;183;311;133;345;1541;111;5571;1943;11039;127673];
[33438;1;3;1;5;3;13;63;5;59;789;71;3271;3871;9105;22525;31;117803];
[33442;1;3;1;13;31;43;97;133;313;729;287;2971;5623;13183;15179;47271;28853];
[33444;1;1;3;13;27;15;35;37;507;139;1933;2847;361;10261;21031;3889;56875];
[33448;1;3;1;15;31;13;45;73;279;331;471;3881;3295;12035;28329;899;47397];
[33456;1;1;3;13;1;7;81;255;315;595;43;3919;5229;7953;25711;19509;107181];
[33459;1;1;3;15;7;33;117;169;71;577;629;3665;7761;13529;26375;17181;22125];
[33466;1;3;5;7;5;7;1;93;489;289;329;2273;685;14835;11433;26041;112735];
[33473;1;3;3;3;9;39;45;23;171;35;571;551;7815;6169;24283;61477;71877];
[33476;1;1;5;7;23;15;81;215;297;269;655;2059;3643;12741;11955;41085;46047];
[33491;1;1;7;5;3;35;125;141;419;137;1031;2053;7925;7267;6267;34323;77495];
[33494;1;1;7;11;3;57;91;43;139;691;1569;1825;7855;1093;19263;31601;16019];
[33507;1;3;1;5;21;7;11;225;105;757;1493;455;4757;12007;5139;3545;79717];
[33514;1;3;1;13;17;29;125;249;475;79;1271;341;863;853;2105;32897;121261];
[33521;1;3;1;11;17;59;3;29;61;399;1465;4029;2103;12481;28495;34363;63781];
[33528;1;3;3;15;29;13;101;191;435;215;1355;2263;6059;4545;7535;15041;84091];
[33534;1;1;3;9;29;23;99;55;91;145;235;2847;725;209;24565;16545;103669];
[33536;1;1;1;1;31;15;93;197;207;357;667;3511;3865;5329;6491;9027;125979];
[33551;1;3;3;13;17;35;99;187;153;589;1633;4053;1023;9541;9841;39585;24885];
[33554;1;3;7;11;23;5;71;89;455;665;1221;1821;591;11459;503;56777;65691];
[33563;1;3;1;1;9;33;51;203;223;709;1263;3535;7753;8279;8673;60259;2671];
[33575;1;1;7;9;17;63;5;229;495;435;1711;3359;399;15901;28519;56627;8079];
[33579;1;3;5;11;9;25;49;143;275;989;461;447;1917;9253;28421;1803;119725];
[33582;1;3;3;7;25;3;39;171;303;905;1353;2561;7347;7339;15271;61945;26343];
[33601;1;1;1;3;5;63;9;229;107;815;1705;3621;2345;3065;16315;17017;33667];
[33602;1;3;5;13;29;13;91;111;475;561;443;3825;5331;11211;27639;28305;101831];
[33614;1;3;1;9;15;33;17;47;249;89;429;3819;1959;14317;10737;28151;40395];
[33625;1;3;7;13;19;29;83;81;511;783;823;2865;5823;9459;27413;63297;44181];
[33628;1;3;1;1;19;53;45;227;193;631;289;1227;6241;6915;16051;31237;50201];
[33637;1;3;7;7;15;49;77;147;421;515;927;1561;4391;12943;6807;36889;70249];
[33656;1;3;7;7;17;15;63;123;101;283;59;977;5185;16161;5007;36255;11537];
[33665;1;1;7;1;13;17;79;35;193;947;767;1365;2145;13267;30561;51949;37591];
[33683;1;1;1;13;11;13;91;129;355;549;295;673;209;15953;14703;30857;47967];
[33695;1;3;5;9;17;17;83;161;189;585;21;1019;4879;15943;17281;46013;94839];
[33696;1;3;5;9;23;39;65;25;181;3;2005;635;201;9391;8755;38535;88697];
[33702;1;3;1;15;13;35;47;125;429;901;895;3495;327;397;7847;62157;3489];
[33708;1;3;5;3;19;21;81;39;85;169;1981;3323;113;2057;16617;58051;55059];
[33711;1;3;1;13;9;1;101;81;129;717;1495;4077;5555;93;12957;14805;110219];
[33716;1;3;5;5;5;47;107;111;387;987;2009;179;1111;3443;25579;12293;123035];
[33728;1;1;7;13;21;25;33;211;9;783;1785;2691;6835;2867;22469;17853;90685];
[33737;1;1;3;3;19;57;59;203;197;347;553;1361;7593;91;15303;30045;86605];
[33761;1;3;5;7;29;23;1;235;159;277;1227;1727;1853;9717;2377;13597;18119];
[33774;1;1;1;11;15;29;5;15;349;685;197;3127;1075;8847;27873;539;57149];
[33782;1;1;7;9;23;25;121;239;219;747;1981;2683;5319;75;22569;29697;27627];
[33788;1;3;7;5;31;43;95;131;423;547;1437;127;1953;861;839;54503;20465];
[33791;1;1;5;3;29;29;71;237;275;493;513;4067;393;9415;20511;29257;86267];
[33793;1;1;1;1;25;11;59;185;211;175;37;2999;4919;10225;16727;60447;59985];
[33811;1;1;3;3;1;9;69;195;197;677;229;599;5613;4537;5495;58801;14297];
[33813;1;3;1;15;17;23;5;101;331;943;1433;2199;313;469;3651;3281;100119];
[33818;1;1;5;15;13;25;87;45;229;821;59;761;6259;15159;3197;39763;87301];
[33829;1;3;5;7;19;21;89;15;19;623;603;4069;3531;13353;21267;6355;53821];
[33842;1;1;5;9;13;13;111;77;439;599;1577;959;4567;3117;7127;49265;35667];
[33854;1;3;7;9;27;61;1;19;43;475;221;655;4351;15827;30489;22245;41077];
[33856;1;1;3;13;17;17;111;85;253;11;367;2349;4103;12517;27037;42481;84451];
[33868;1;3;5;7;7;25;53;27;429;503;893;2923;2539;15849;30157;12111;108893];
[33879;1;1;7;9;13;29;51;113;273;745;759;263;3031;705;23203;64245;127183];
[33885;1;1;1;9;29;5;25;165;261;319;645;2199;3135;10263;10711;18713;63337];
[33886;1;1;5;1;23;41;43;71;365;683;1107;1671;7079;8933;12815;8095;97955];
[33892;1;3;1;15;9;43;105;217;131;299;1459;1087;3493;15297;11741;43383;35021];
[33907;1;3;1;3;3;57;69;7;73;977;1163;3591;243;13129;23247;20609;22489];
[33913;1;3;7;5;1;57;65;27;121;575;903;3527;5601;5597;1941;60079;88121];
[33923;1;3;1;3;15;3;23;87;233;389;1671;1557;4825;1017;17697;26735;53421];
[33925;1;3;5;3;5;43;61;249;273;251;1383;2415;1061;12363;3071;23785;127909];
[33935;1;3;3;13;5;63;15;165;353;603;1627;2037;487;11603;719;54693;52645];
[33937;1;3;5;11;31;41;41;83;481;251;1903;2655;5237;6073;20201;14069;91649];
[33954;1;3;1;15;21;41;99;61;55;63;1595;1805;7625;12261;23275;43471;5147];
[33963;1;3;1;5;23;21;71;169;197;51;1653;3053;4663;293;12751;15641;83993];
[33966;1;3;5;15;29;45;55;199;275;103;1093;3569;5997;9445;2291;30973;68589];
[33977;1;3;5;7;15;3;15;3;287;961;1759;1153;7613;9885;8981;5109;112865];
[33978;1;1;1;9;1;37;111;61;309;581;875;2121;1035;4345;1351;59743;34955];
[33991;1;3;7;7;11;23;51;235;23;697;991;1995;3615;6665;15885;18555;11711];
[33998;1;3;7;13;3;59;87;129;405;689;1189;2071;877;12347;18381;28367;27247];
[34012;1;1;1;9;23;29;113;71;479;421;215;1029;6125;13575;10823;45303;3153];
[34016;1;1;3;11;13;5;31;29;279;597;791;319;1391;14487;3811;36913;11513];
[34025;1;3;7;11;9;11;55;167;69;519;1887;145;6133;1307;14465;17419;18319];
[34033;1;1;3;1;29;25;57;75;19;187;1591;421;959;7499;8377;42811;53423];
[34036;1;3;1;3;7;9;73;217;383;755;1561;3923;3891;16129;13195;62097;67493];
[34045;1;3;7;9;5;7;47;29;319;243;405;2867;5803;2273;4913;54777;88301];
[34065;1;3;7;1;25;11;51;183;387;863;39;2119;2395;10175;20833;3235;108197];
[34078;1;1;7;13;25;43;21;67;103;709;603;1045;7079;8867;29039;61499;39533];
[34093;1;1;7;5;7;55;77;115;409;287;1149;1535;7459;5525;27129;43659;86953];
[34101;1;3;5;3;21;41;47;147;267;473;1501;2663;5381;41;18265;53845;16039];
[34108;1;1;7;15;27;63;95;103;169;1;133;3103;7539;5765;11453;4133;95133];
[34111;1;3;3;15;3;53;121;135;385;475;889;2557;4937;11129;18461;16757;30339];
[34120;1;3;1;13;11;39;111;13;475;201;1973;2151;6973;4083;12593;44093;108037];
[34123;1;3;7;9;31;31;97;235;179;689;403;1995;7697;7511;29333;11005;50723];
[34125;1;1;7;13;23;5;7;171;441;921;1455;3865;7089;5469;10423;53013;80559];
[34153;1;3;5;3;25;43;105;157;507;143;297;1111;2761;14103;4965;36733;11741];
[34171;1;3;7;9;29;61;49;239;271;697;211;1633;2991;14933;12347;44291;12219];
[34174;1;1;7;7;17;61;29;43;87;633;937;1931;3541;12259;23045;5923;48479];
[34178;1;3;3;3;15;25;105;17;159;863;1377;331;1475;10573;28947;8141;26671];
[34183;1;1;7;7;31;59;81;23;467;241;1257;1337;7731;9071;3417;51191;78369];
[34190;1;1;5;9;11;45;49;227;319;63;1339;885;4571;11649;5607;10509;55055];
[34201;1;3;3;9;29;17;7;235;191;927;575;1115;4111;14179;2041;13331;29825];
[34211;1;1;5;9;27;61;71;201;341;577;221;1371;1135;4347;24211;36171;23435];
[34220;1;3;3;1;1;29;75;121;193;647;1429;275;5243;783;28533;13941;68035];
[34225;1;3;5;15;21;27;117;183;251;991;935;3119;5133;2765;7423;28867;120565];
[34237;1;3;5;5;13;23;29;101;299;699;1249;1225;1335;6079;17825;60467;87787];
[34249;1;1;1;9;15;19;11;163;433;553;1487;813;3293;1195;895;28431;62905];
[34250;1;1;1;13;25;37;111;129;391;813;1061;4065;7339;10731;23799;41463;99673];
[34264;1;1;7;15;3;21;45;77;471;155;967;711;4947;13983;27827;28653;117839];
[34269;1;1;5;9;13;39;107;237;233;881;297;2189;8085;1221;18659;299;90951];
[34276;1;1;1;13;21;53;83;17;487;215;1203;3017;7887;3759;10521;31223;87917];
[34279;1;1;7;1;13;31;123;219;127;743;1325;3907;129;8901;4855;22509;47331];
[34293;1;1;7;11;29;37;11;157;401;35;2037;2873;7409;7837;1247;33911;3979];
[34303;1;1;5;15;1;13;35;253;287;1007;1417;1613;6019;11617;6323;56263;45073];
[34310;1;3;1;15;1;59;41;239;373;443;897;275;5783;8619;18559;16279;92063];
[34340;1;3;1;9;23;33;83;43;231;819;1657;1031;5507;12621;8961;23059;63453];
[34349;1;1;7;5;29;49;21;251;267;43;729;4013;1497;15489;16761;49689;122755];
[34352;1;3;7;1;31;21;11;149;127;711;1249;49;5503;677;12313;61301;16279];
[34355;1;1;5;11;9;15;41;61;81;991;1387;3567;221;15835;8609;28265;98199];
[34358;1;3;1;7;21;35;13;59;173;637;107;393;4551;6523;27389;33129;45579];
[34362;1;1;1;9;29;51;65;199;417;553;1321;2513;4749;8477;19721;24301;16301];
[34376;1;3;5;1;25;13;7;55;163;581;1677;2313;6843;15697;3055;53171;59899];
[34381;1;3;1;5;31;13;101;195;235;359;911;1017;2575;12801;997;7819;73243];
[34387;1;1;7;1;9;39;59;83;57;885;317;2689;5741;11833;25563;62581;62239];
[34389;1;1;5;15;25;25;55;207;223;907;913;387;5599;15567;8859;13703;66071];
[34394;1;1;5;15;19;39;83;177;333;531;1257;2687;7793;15967;19175;1381;106629];
[34410;1;3;5;13;29;29;77;1;273;483;725;3825;5115;4043;11571;8693;49761];
[34423;1;1;7;3;5;45;37;65;267;191;301;2863;167;9303;14563;41553;119561];
[34434;1;1;7;5;21;41;107;213;267;427;699;1485;2125;16011;29243;4691;50545];
[34436;1;3;3;9;15;29;81;53;289;689;933;2667;5175;10409;28221;56375;49109];
[34448;1;1;1;15;3;11;77;107;353;349;219;1961;7559;10081;25119;46041;103827];
[34453;1;3;3;1;5;27;109;17;271;543;565;397;2649;12037;4525;37835;107071];
[34454;1;1;5;15;3;37;123;157;389;619;1379;4093;6107;4419;21011;36189;21269];
[34460;1;3;1;7;25;17;37;133;247;113;985;815;441;7869;25121;49459;429];
[34464;1;3;3;11;7;23;59;51;403;685;2019;1167;7973;6915;10819;43807;127793];
[34479;1;1;3;1;29;3;125;107;305;101;391;2733;6883;5867;5139;16025;112439];
[34491;1;1;5;5;23;23;89;33;275;451;1033;649;3761;4735;26021;9627;102747];
[34501;1;1;5;13;3;17;117;251;425;917;759;3047;8171;14421;27765;11085;64889];
[34508;1;3;1;9;7;23;107;143;123;413;2045;655;6283;8783;20263;55463;33271];
[34516;1;3;7;11;5;49;73;55;465;43;587;3943;521;12357;16273;26603;23219];
[34529;1;3;5;13;9;3;127;171;271;227;993;1427;2235;6325;13501;1411;44393];
[34530;1;1;1;3;13;27;19;37;175;423;5;3403;5427;16345;30297;11909;104647];
[34553;1;3;1;3;3;39;111;179;487;923;1945;1609;4689;11807;13725;3081;48163];
[34564;1;3;1;1;9;35;7;151;109;925;1249;3171;1207;2053;5135;34821;57291];
[34568;1;1;5;13;31;35;101;199;499;725;1229;2857;6437;503;14437;35721;24971];
[34571;1;1;1;15;3;49;75;101;373;119;875;245;15;12937;4731;13037;1555];
[34582;1;1;1;7;15;5;53;5;423;69;73;2139;383;4035;6723;59941;124503];
[34586;1;1;3;13;1;23;29;47;145;785;1013;1579;4579;107;17571;46311;27777];
[34598;1;1;1;5;23;25;97;75;105;183;827;3871;2005;6453;28729;42583;62979];
[34604;1;3;5;9;11;49;29;201;333;441;429;1955;5301;11775;22915;58693;111917];
[34610;1;3;3;1;15;37;117;223;319;181;61;177;507;14871;16419;34261;106937];
[34619;1;3;3;9;25;27;81;253;459;5;693;1271;485;16171;427;17917;4393];
[34621;1;3;3;1;27;47;11;57;269;95;569;2733;3275;1599;15073;58071;86805];
[34633;1;3;7;13;21;57;75;63;53;487;251;3193;4279;2311;6613;38319;93557];
[34634;1;3;5;5;31;35;39;255;11;81;605;1457;6367;14121;8069;46653;79945];
[34657;1;1;1;7;17;19;19;247;13;757;1069;2811;4969;10943;29399;4153;120817];
[34682;1;1;1;15;31;13;1;247;157;785;1565;897;4825;8375;4933;60671;88403];
[34688;1;3;3;7;31;53;117;207;243;603;625;1039;5725;5021;20227;28613;123759];
[34691;1;1;5;1;7;29;65;153;393;821;295;2705;5999;15801;31301;15545;52917];
[34694;1;1;1;1;11;51;97;143;27;279;1005;1235;5539;1523;26293;35015;47835];
[34706;1;3;3;13;27;17;123;147;39;35;567;961;5431;5557;17849;46675;102181];
[34708;1;1;7;11;7;25;73;223;459;207;1637;647;2057;685;24539;48809;26877];
[34724;1;3;1;3;21;43;121;11;431;383;1703;1451;2349;11845;13801;20589;43125];
[34727;1;1;5;1;27;29;89;233;437;303;853;3425;263;2073;14111;39129;59547];
[34751;1;1;1;3;3;47;99;207;261;179;1761;2657;4339;6567;25455;18729;51431];
[34753;1;3;3;13;5;5;109;125;123;233;1713;1539;4375;12187;18355;49597;109959];
[34759;1;3;7;7;9;23;45;193;363;837;855;1413;7587;9091;27907;17809;63249];
[34763;1;3;3;9;19;23;63;85;419;1007;1753;539;1471;2171;9239;36289;105503];
[34777;1;3;1;11;23;5;105;79;473;879;1623;3155;5157;4699;697;41919;15441];
[34778;1;1;7;11;5;21;43;207;491;355;857;2325;819;15849;24529;5789;110661];
[34780;1;1;5;15;19;33;81;137;473;853;1681;3841;5617;13715;1987;52983;66327];
[34796;1;3;5;7;11;31;69;85;33;197;1771;1957;1311;169;14159;7327;8577];
[34799;1;1;3;9;11;23;19;143;9;579;111;2973;3567;8561;10447;55875;64305];
[34801;1;1;5;7;1;17;93;11;423;1007;839;719;3965;14531;17301;29577;4083];
[34817;1;3;5;13;19;17;123;61;59;115;1165;579;2545;633;5597;21865;109167];
[34824;1;1;5;3;29;29;99;163;321;367;1523;3719;665;15843;28831;63823;113533];
[34827;1;1;1;3;15;7;85;1;181;759;537;3315;7159;4363;4183;53775;8801];
[34837;1;3;1;1;15;53;9;35;459;417;1169;2055;1175;10923;335;24269;93001];
[34841;1;3;1;5;31;43;51;149;175;541;629;1147;7585;9725;18623;13345;65391];
[34853;1;3;7;1;13;39;13;217;507;765;721;1491;5037;6267;2871;19181;123751];
[34858;1;1;3;5;21;9;123;195;63;347;7;531;3015;9457;29543;51479;26607];
[34877;1;1;1;1;21;15;81;127;429;15;901;1503;1919;6515;2477;53571;113447];
[34886;1;3;1;13;9;33;79;169;499;767;441;2085;2429;10213;4125;2611;26137];
[34895;1;1;3;1;19;23;83;179;447;513;913;1201;1861;11595;29037;7775;116417];
[34897;1;3;3;7;3;57;47;183;413;319;1375;1401;2231;14331;28625;43839;102717];
[34898;1;1;5;11;31;27;111;85;191;155;2025;1501;4991;4655;3451;10219;60391];
[34916;1;3;3;7;17;19;113;37;423;479;709;3659;6567;1709;13483;61821;77101];
[34923;1;3;1;13;3;17;73;61;275;359;1341;449;1373;12047;11207;52651;83305];
[34928;1;1;7;9;9;45;15;121;15;51;509;2189;5057;6119;11669;14559;108323];
[34934;1;1;7;7;25;13;13;141;157;249;823;821;1909;5925;3505;13187;19237];
[34940;1;3;3;1;9;51;79;91;5;709;787;2427;4613;7307;20141;1675;49779];
[34944;1;1;1;11;11;13;33;81;413;981;907;2709;4113;10607;2587;12845;11103];
[34947;1;1;7;9;13;25;37;81;375;1013;2027;321;3947;2269;10687;7537;67495];
[34953;1;3;5;11;9;43;53;111;339;841;503;3209;6437;10893;13627;51809;57229];
[34956;1;3;1;1;21;15;71;93;453;405;1099;2979;7471;10173;17875;13179;48615];
[34967;1;3;5;9;9;1;121;117;275;157;57;3459;4787;15005;24591;23963;45077];
[34968;1;1;5;3;21;57;113;207;169;603;637;1455;6281;6527;17219;32307;18617];
[34971;1;3;7;5;25;15;99;91;253;267;537;713;3929;895;7999;47989;118731];
[34974;1;3;7;15;23;17;5;129;121;251;219;2547;7291;1079;14577;56229;35253];
[34977;1;3;1;15;5;61;35;135;497;681;751;2303;6697;11225;30389;61673;87313];
[34980;1;3;1;7;7;37;9;85;257;805;1325;3597;6065;727;18203;57077;437];
[34983;1;3;5;7;5;43;29;179;73;173;1441;1233;1779;7893;10629;27547;7775];
[34998;1;1;7;5;31;29;21;35;289;423;449;3331;2929;6827;15569;9873;76889];
[35004;1;1;7;13;13;37;55;99;135;797;1263;2539;893;4225;16689;38259;50857];
[35010;1;1;3;1;5;3;95;29;15;539;825;3931;4809;8299;29891;61357;97523];
[35012;1;3;1;9;27;25;115;239;387;163;1153;31;2375;7943;31929;1121;33085];
[35030;1;3;5;9;3;53;121;159;165;81;317;3051;1991;493;2029;43305;130209];
[35039;1;1;1;5;9;57;39;247;73;613;1047;3289;2569;5363;18475;32749;39415];
[35058;1;3;1;5;19;23;39;33;151;463;153;737;2501;7531;2769;35595;71799];
[35063;1;3;5;5;29;49;105;81;67;441;1101;2241;6243;6177;7157;51635;81241];
[35082;1;3;3;3;29;53;13;239;487;503;97;1323;1817;13021;12881;26943;21011];
[35095;1;1;1;15;25;9;5;205;85;635;789;2495;5069;4987;847;26857;84225];
[35096;1;1;3;15;9;51;79;13;377;637;159;3407;2057;13967;31781;40869;52987];
[35101;1;3;1;13;11;27;103;207;383;887;749;1119;285;4269;31745;57539;5671];
[35102;1;3;1;13;23;19;41;43;455;425;1653;4091;4855;16321;169;59289;82397];
[35105;1;3;3;15;31;39;51;127;391;989;1831;3327;6487;6077;17277;52093;20389];
[35112;1;3;5;15;19;1;21;241;15;543;1529;2355;1503;12795;17321;41219;61115];
[35118;1;1;3;11;9;33;21;197;307;141;1663;371;1663;8307;3617;56941;62477];
[35120;1;3;7;9;19;53;123;3;29;635;1795;2471;2491;15847;9169;2561;101515];
[35130;1;1;5;3;19;11;117;231;475;837;1833;3499;4415;9961;28285;37821;81497];
[35143;1;1;3;5;7;11;57;89;345;157;1519;3021;7157;2159;32557;31559;128907];
[35147;1;1;7;3;27;1;15;177;489;405;811;3597;4939;15595;7279;58097;84703];
[35152;1;3;1;9;25;61;119;219;111;339;1091;759;6087;16001;6757;15627;1691];
[35157;1;3;7;9;1;39;107;139;143;917;421;1623;7135;4851;6687;6177;102425];
[35164;1;1;7;13;23;17;19;167;317;331;743;3737;2195;545;2185;9125;30503];
[35178;1;1;5;13;27;33;117;141;493;129;1553;2335;4161;14205;24177;35163;84869];
[35195;1;3;7;1;11;9;75;133;113;507;2007;2473;4769;14655;17967;17709;90653];
[35197;1;1;7;11;17;11;83;23;387;61;29;3905;4351;15173;28375;9129;111939];
[35201;1;1;5;15;15;53;81;125;189;937;1607;2595;2847;7229;22241;26269;64781];
[35207;1;3;1;7;5;11;61;111;13;423;885;2329;6003;16331;11207;25743;54619];
[35231;1;3;5;9;1;13;95;241;237;629;263;1629;1063;12695;14501;5455;121483];
[35249;1;1;7;15;5;17;45;255;143;79;87;1755;6215;5095;32411;8695;85511];
[35250;1;3;7;7;21;11;117;135;333;73;1471;2749;5801;4209;9353;46171;90645];
[35256;1;1;7;13;11;35;77;149;159;783;1527;2881;1409;3455;26991;3225;30693];
[35259;1;1;3;15;19;55;21;245;207;103;775;2041;4637;7333;11267;60509;43099];
[35262;1;3;3;15;17;63;23;81;183;923;75;391;615;13343;20839;56529;115747];
[35273;1;3;1;13;5;5;15;27;263;497;1365;2733;5395;7461;2725;24735;89251];
[35282;1;1;7;7;29;17;39;117;363;915;123;283;4575;3497;20995;37883;16645];
[35298;1;3;3;9;1;25;79;181;331;617;393;1807;5145;8007;9173;45189;37945];
[35307;1;3;1;5;1;9;127;137;379;371;367;3237;581;15295;18191;37689;103495];
[35328;1;1;7;1;29;53;103;173;171;973;933;3847;3185;10107;31701;45021;106251];
[35334;1;1;1;7;23;9;61;25;343;471;2041;2179;7647;1885;15353;50379;67681];
[35343;1;1;5;11;31;13;51;185;83;917;85;1317;8185;14949;32455;57939;1217];
[35345;1;1;7;5;23;45;101;227;497;941;985;167;6847;9611;20011;40069;83285];
[35355;1;1;5;13;17;33;61;197;433;255;67;1479;5663;6501;30695;27235;80141];
[35388;1;1;3;5;11;45;123;49;327;893;1963;2225;2611;8925;22811;2313;8411];
[35399;1;3;7;7;15;39;75;235;13;847;575;3947;6947;2061;13467;103;86285];
[35403;1;1;7;3;21;43;113;197;141;873;1139;2707;7235;10683;10831;33695;57063];
[35408;1;3;5;1;3;27;45;43;119;979;1933;1851;6497;14937;4965;41285;120221];
[35413;1;1;3;1;23;59;67;7;49;351;1053;1837;501;7671;26239;51951;95119];
[35418;1;3;5;11;3;19;33;33;219;175;1439;197;1841;159;11229;20463;81797];
[35434;1;1;7;1;13;11;79;75;53;525;91;233;5999;2921;21295;56831;116049];
[35436;1;3;3;13;29;7;71;207;193;635;1393;3093;3775;12445;23281;29401;103225];
[35448;1;1;7;3;29;57;111;163;63;593;881;1587;3027;12599;30977;38891;95495];
[35460;1;1;5;15;17;57;111;169;149;767;377;765;7533;1539;22979;55489;29799];
[35475;1;3;5;15;25;7;127;71;319;389;497;1513;1287;7359;12311;45457;45897];
[35494;1;1;5;3;3;35;45;17;49;483;197;727;5355;7201;3035;14313;40933];
[35497;1;1;7;15;1;9;27;59;455;653;1907;281;1435;14593;18909;37655;87603];
[35503;1;1;7;11;29;9;67;17;353;709;859;3687;7741;4251;12263;41717;79393];
[35508;1;3;3;3;1;15;113;187;255;851;503;4089;7923;1701;305;8353;16357];
[35511;1;1;5;3;17;31;29;233;377;215;1889;3459;2443;3907;4193;16519;49089];
[35518;1;1;3;1;17;39;11;255;247;305;669;1769;1355;12055;2275;51681;112337];
[35520;1;3;1;1;17;17;75;95;409;21;1513;1443;4931;6491;1587;62979;90395];
[35530;1;1;3;5;3;19;125;175;279;911;301;407;7773;949;32107;13571;58717];
[35537;1;3;3;15;31;35;11;223;125;209;1719;1725;3387;14879;32243;7219;126791];
[35543;1;1;3;1;31;29;67;79;93;193;1573;2285;3209;8397;17717;5657;61545];
[35560;1;3;1;9;11;33;85;121;193;63;461;1835;889;10687;19831;49551;59087];
[35566;1;3;3;7;11;3;9;87;91;487;289;1113;8135;7971;16693;31009;81197];
[35571;1;3;3;1;23;23;61;209;409;845;547;1493;465;6399;17633;53647;52425];
[35598;1;1;7;7;21;31;71;249;63;895;653;93;4429;8951;16873;48089;33947];
[35609;1;3;5;11;3;35;49;15;379;645;855;3657;8019;2141;11233;60731;80455];
[35612;1;3;1;3;1;53;101;157;255;765;1575;1615;7677;9699;13351;2207;90939];
[35615;1;3;7;7;5;43;123;109;119;391;1889;1991;3151;1457;16321;65245;75891];
[35616;1;3;1;15;9;1;113;249;1;675;501;487;2209;4411;6609;29243;100177];
[35622;1;1;1;7;9;23;9;197;341;191;453;3733;5475;15515;28979;36077;17801];
[35626;1;1;3;13;5;35;85;121;59;429;1251;3437;3121;12411;14713;28125;31921];
[35633;1;3;5;3;27;17;61;255;485;709;83;3201;2191;3371;2941;10931;22141];
[35636;1;1;1;1;19;19;25;177;397;579;529;1619;3887;4537;8123;52481;8305];
[35645;1;1;3;15;3;15;77;51;31;881;203;2359;4947;6321;14705;16471;84395];
[35653;1;3;7;9;13;53;67;41;289;721;1743;2725;435;1327;14953;14283;113211];
[35663;1;3;1;5;19;23;73;181;187;675;125;1877;6167;7919;3955;25007;28299];
[35665;1;1;3;1;5;11;123;189;173;123;499;2175;483;13017;14709;5797;36327];
[35682;1;3;7;5;21;39;79;229;19;203;375;3901;1053;14209;13535;63155;99727];
[35687;1;1;1;13;11;29;29;173;441;271;1147;2891;965;10777;16325;37135;101601];
[35688;1;1;3;3;25;13;79;233;75;191;987;3231;3667;1525;14193;62027;77441];
[35691;1;3;1;1;15;53;17;45;367;263;425;1565;6139;13833;12547;61103;75361];
[35696;1;1;5;15;5;57;123;47;407;887;375;1181;5367;10283;24799;33121;76373];
[35727;1;1;7;3;11;17;65;133;3;609;601;3391;7801;4137;32095;55983;23037];
[35741;1;3;1;3;25;5;125;5;297;571;145;3601;1929;13457;16977;21049;92169];
[35742;1;3;5;13;23;29;13;143;507;187;857;427;5125;1377;10947;58473;110541];
[35746;1;3;3;15;15;49;39;103;193;507;639;2399;3829;12105;15993;52975;115935];
[35748;1;3;7;3;7;41;95;127;193;923;1729;3039;7959;3345;7725;35293;34361];
[35752;1;3;5;13;17;53;111;141;151;389;1955;3333;4523;6331;21239;57447;113325];
[35770;1;3;7;15;31;7;11;35;105;607;1665;3281;487;9417;26205;26963;81537];
[35811;1;3;1;1;17;15;3;55;451;691;1525;2009;6443;4629;15091;46961;83361];
[35817;1;3;1;15;1;29;99;79;225;665;623;2389;3303;7221;20567;15917;24677];
[35832;1;1;3;15;3;17;125;239;485;849;327;1459;3911;2145;14475;24337;19695];
[35838;1;3;5;7;7;37;19;51;373;587;147;563;7623;7781;18289;37239;6803];
[35850;1;3;5;1;9;63;5;87;171;5;1553;429;5001;7881;1493;20425;57727];
[35863;1;3;5;9;25;43;17;71;87;869;1219;2661;4571;9689;18799;62467;128531];
[35870;1;1;3;3;19;53;61;9;55;433;1555;2369;1423;9081;19185;8513;111079];
[35879;1;3;5;15;11;61;1;147;17;71;1563;1113;4809;16229;23743;59757;64699];
[35880;1;1;5;11;29;23;61;43;203;97;1119;237;6445;14507;9799;18447;14745];
[35891;1;3;5;15;11;17;117;139;117;537;251;149;2731;15863;1381;25435;25501];
[35893;1;3;3;15;31;57;53;43;95;445;1423;3833;2485;11789;16011;8101;39165];
[35903;1;1;3;11;15;37;117;3;245;57;593;2771;7181;11397;5691;3217;44139];
[35905;1;3;5;1;11;13;121;85;85;511;1837;611;237;4893;24025;28903;102025];
[35926;1;3;1;11;5;45;43;45;393;741;1157;1511;1665;2359;19071;24537;122879];
[35930;1;3;3;3;9;59;27;11;257;203;1535;2729;2313;3539;1689;31901;42949];
[35941;1;1;1;11;17;7;21;35;479;697;107;1317;6585;705;3789;20439;33375];
[35956;1;1;3;11;19;37;123;233;253;733;901;3047;3595;2357;24533;40519;109171];
[35963;1;3;3;13;29;51;25;149;57;253;2001;351;7367;15361;4955;60951;19449];
[35970;1;1;3;15;21;53;25;239;257;437;711;3599;5441;7405;15039;19207;63841];
[35984;1;3;1;9;17;41;43;231;413;747;1447;1407;2615;14529;10781;20001;82713];
[35996;1;3;7;7;9;29;25;55;53;423;1711;2871;2675;421;31703;57099;2955];
[36005;1;3;1;7;31;17;113;83;387;611;1815;2137;3453;4409;20377;60263;81205];
[36012;1;1;5;3;11;1;7;225;367;267;95;939;3801;2619;1207;62695;116407];
[36015;1;3;3;9;5;39;85;45;247;483;491;865;3493;8243;8411;26449;50473];
[36030;1;3;3;9;1;53;23;127;13;529;1925;2629;3451;15073;16075;29909;34101];
[36035;1;3;1;11;1;9;125;57;79;633;979;3843;325;883;7769;40155;104057];
[36042;1;1;7;13;23;53;27;157;493;901;1077;1079;1327;15903;20603;64377;103335];
[36047;1;3;3;3;3;35;37;167;73;301;385;1045;6913;2269;22491;19735;70125];
[36049;1;1;1;11;5;23;23;85;267;845;207;77;1245;16209;25579;12417;48723];
[36059;1;1;5;15;11;17;43;83;373;1005;541;115;163;2165;8181;35839;44471];
[36071;1;3;5;7;27;41;101;13;213;235;2037;2179;2121;4481;8127;20011;3981];
[36080;1;1;5;11;7;43;59;129;127;387;489;1985;623;13307;19765;62155;93271];
[36085;1;1;7;5;23;63;23;177;211;233;101;1809;7411;8003;25101;32601;75071];
[36097;1;1;1;11;3;25;9;91;459;611;867;3639;5457;9101;15333;40069;67723];
[36110;1;3;7;5;3;29;111;75;459;195;1405;2281;6085;4425;29061;57335;87449];
[36115;1;3;7;11;21;45;53;81;77;863;1901;3355;5253;10897;26289;48399;26877];
[36118;1;3;3;13;21;37;69;87;259;101;1203;167;6229;145;9355;15347;68047];
[36124;1;1;3;1;31;1;15;229;429;915;929;381;1857;8441;22207;47071;127853];
[36137;1;3;7;3;15;9;13;161;173;573;405;3253;7331;13965;3061;40687;130185];
[36138;1;3;5;5;29;29;9;115;393;377;909;321;2861;9881;17863;52033;55133];
[36155;1;1;7;7;27;53;101;213;199;301;1995;2549;5037;13639;18423;23547;79359];
[36160;1;3;1;7;21;51;29;151;301;665;571;53;2637;7229;12517;33647;49413];
[36189;1;3;3;13;13;49;49;131;325;273;1127;2981;2365;14287;23185;26915;81755];
[36190;1;1;5;3;17;45;25;79;37;265;1205;1805;6707;11525;16473;39525;9571];
[36203;1;3;3;15;9;43;55;101;469;939;365;3443;5759;4751;28893;46727;74569];
[36211;1;3;7;9;5;33;11;201;263;227;1475;2795;1489;11129;18053;31009;73105];
[36218;1;3;5;5;5;25;41;151;393;237;2017;3811;953;13835;28761;22439;76355];
[36230;1;1;5;13;21;37;29;11;289;67;1317;511;685;15227;8731;15039;79491];
[36241;1;3;1;9;31;59;123;169;473;139;575;1057;3213;8213;21845;28123;105335];
[36244;1;1;1;5;21;47;23;121;403;5;1457;2137;569;9267;6367;6991;3113];
[36253;1;3;3;7;13;7;25;215;81;1003;2041;1317;3913;14705;30551;50889;83441];
[36257;1;3;3;3;13;17;63;229;83;901;953;2603;4685;6961;7519;52441;33223];
[36264;1;3;7;5;7;57;65;73;243;531;261;2517;4083;5889;22913;49603;67135];
[36272;1;3;5;11;15;47;81;83;35;1021;1313;1109;5103;5469;18149;15307;34939];
[36290;1;3;7;5;21;13;105;157;435;23;931;3565;1;4987;8829;7327;51049];
[36292;1;1;3;11;29;9;59;49;261;1009;1953;2683;8125;10937;16683;36013;5967];
[36301;1;1;1;1;19;29;57;9;307;457;675;3023;495;15257;7945;10449;30155];
[36309;1;1;7;13;25;9;51;135;491;205;1715;3253;1031;4137;14885;39925;6061];
[36313;1;1;7;7;3;13;111;91;469;133;1221;1035;919;3697;26387;41675;487];
[36316;1;1;3;1;19;53;11;113;245;747;189;4051;87;1767;3595;10259;100097];
[36319;1;1;5;3;23;49;31;47;341;1019;723;2353;6191;3809;3297;39443;73529];
[36330;1;3;3;9;25;27;123;49;51;85;1063;2633;6549;14493;7367;3557;60651];
[36335;1;3;7;5;13;27;127;65;115;731;1147;283;91;14205;2457;57083;35815];
[36347;1;3;3;3;25;63;99;249;25;951;733;3621;7139;14223;23641;20287;30743];
[36353;1;3;3;7;21;23;83;207;235;467;1857;2661;1391;10097;12297;54825;5035];
[36356;1;1;5;3;31;17;77;9;215;553;989;3643;729;2057;32053;50305;5499];
[36368;1;1;7;1;23;5;111;195;431;947;403;1781;943;15073;67;52225;98987];
[36374;1;1;5;11;23;1;41;33;457;767;275;801;5119;3781;14805;52789;41775];
[36377;1;1;5;3;9;53;15;183;281;691;165;3277;7673;1509;16605;53799;100185];
[36384;1;3;5;11;19;45;29;159;167;67;1259;879;7787;8855;24153;42667;102855];
[36407;1;1;7;13;31;19;43;133;295;287;1985;2451;2297;3853;22401;27659;11149];
[36413;1;1;7;13;31;39;125;21;173;103;1119;3739;6467;2113;4465;26537;129949];
[36419;1;1;5;15;21;47;35;125;199;335;421;31;185;12769;30659;33427;106981];
[36425;1;3;5;13;25;35;53;253;325;921;1705;2735;6437;2287;20479;61107;91453];
[36426;1;3;7;13;25;63;83;183;5;401;329;525;3141;393;30469;16529;9605];
[36446;1;3;3;13;19;23;15;85;323;545;149;3645;6269;15595;18453;39;128169];
[36461;1;3;7;15;17;5;61;61;91;353;1039;2959;4147;13205;12599;53281;39509];
[36467;1;1;3;7;21;9;97;111;249;775;845;1789;667;489;6689;29217;56527];
[36474;1;3;5;7;11;5;59;219;29;803;923;3861;7953;8969;1819;43501;20513];
[36480;1;1;5;11;7;53;63;231;193;293;1467;1409;6397;13237;15903;19271;66257];
[36486;1;3;1;15;23;15;37;123;189;63;1121;751;6711;10095;6493;40709;47641];
[36489;1;3;7;3;23;59;99;183;249;479;771;1087;7979;409;4819;4337;33345];
[36495;1;1;5;1;17;7;15;167;305;411;1429;3127;23;9123;7185;44405;114841];
[36525;1;1;5;11;3;29;29;31;399;777;251;1841;3607;211;23543;29111;54565];
[36526;1;3;3;9;27;33;79;27;469;67;1327;183;5783;10039;13165;20443;4913];
[36533;1;3;7;15;21;23;5;227;141;1021;69;3347;7221;13837;20921;20525;32567];
[36534;1;1;5;5;25;53;73;111;319;311;1597;1809;5343;13963;6613;14471;53871];
[36540;1;3;3;1;15;57;47;205;53;471;185;273;8077;5031;31195;30859;15979];
[36555;1;1;3;5;23;15;87;211;83;265;1629;2979;69;12559;30455;36363;61461];
[36563;1;1;7;7;1;47;5;199;95;17;57;1887;6847;9501;21361;57763;77069];
[36565;1;1;3;5;9;15;15;149;141;605;639;2197;7237;5753;9415;4677;129947];
[36588;1;3;7;1;7;9;29;249;275;461;1667;4093;5763;3205;24079;11883;86455];
[36593;1;1;3;5;15;39;117;145;153;671;1819;111;3607;12279;4927;63759;42905];
[36596;1;1;1;5;31;5;35;183;189;839;1811;1877;6545;11373;27947;27183;29857];
[36606;1;3;5;7;29;47;3;183;511;145;1953;3419;6385;7745;12823;59783;69399];
[36614;1;3;5;9;5;39;85;145;33;899;1009;2035;6145;3855;20583;4329;95231];
[36626;1;1;3;3;15;61;85;181;247;705;413;1633;7489;1785;30397;42851;80197];
[36628;1;3;3;13;23;11;3;97;307;183;113;3881;7455;8327;6749;23977;101629];
[36641;1;1;7;13;1;23;59;219;125;789;1401;707;6915;6275;25813;46595;54119];
[36642;1;3;7;9;5;7;37;33;165;181;833;1993;4541;5799;23323;39825;44575];
[36651;1;3;1;13;13;43;69;219;437;521;503;2293;3607;6845;22583;291;65645];
[36653;1;1;7;9;29;13;123;67;191;933;1875;1223;5525;13797;29771;58191;84469];
[36673;1;1;7;7;3;57;101;69;23;239;1023;3289;1541;6245;23379;161;61155];
[36676;1;3;7;13;25;33;49;145;487;681;451;1719;109;16273;20009;3003;115815];
[36679;1;1;5;11;11;59;41;133;303;469;1975;847;5291;13947;8759;8533;25099];
[36694;1;1;1;1;29;31;53;11;239;57;1627;1247;1577;3269;20751;4627;40499];
[36698;1;3;7;15;1;1;51;39;383;203;1841;3867;4975;9937;1863;52611;83189];
[36704;1;3;7;7;13;59;15;217;355;945;1317;815;2413;10985;30647;37745;126553];
[36714;1;1;3;11;7;29;101;137;97;119;927;3269;6977;4253;10741;61907;122815];
[36721;1;3;3;1;29;5;49;137;411;349;905;2481;4961;4513;29409;19503;77915];
[36722;1;1;7;13;29;59;93;61;393;29;257;3601;6281;5105;17339;53827;83137];
[36727;1;1;1;13;5;23;61;7;51;161;737;1549;6021;3385;5539;21261;69995];
[36749;1;1;1;15;31;1;21;113;481;7;175;717;1593;5937;12347;51835;66649];
[36758;1;1;3;7;9;51;9;199;39;607;1157;3913;7767;14195;28721;27655;34709];
[36761;1;3;5;5;1;15;49;33;441;721;1749;1497;2023;8351;12641;11861;78545];
[36771;1;3;1;7;7;17;103;113;243;25;889;1419;3163;12401;22459;39037;101719];
[36788;1;1;7;11;17;45;121;215;3;409;1871;2149;4249;5071;14277;55869;91233];
[36797;1;1;3;7;19;31;47;241;175;749;1709;355;6037;10555;24107;64683;42673];
[36805;1;3;7;11;5;21;105;137;307;101;417;1903;1027;10257;27767;9755;92105];
[36830;1;1;3;13;9;59;11;63;295;923;401;1471;3517;7761;28855;11525;72455];
[36833;1;1;7;15;31;51;77;29;323;579;1313;3441;2903;1683;20605;8185;29753];
[36839;1;1;5;15;11;59;119;109;233;1001;1527;2709;73;5311;18313;27155;85999];
[36843;1;3;1;5;9;59;105;93;213;401;839;3225;3263;13501;2413;60367;121281];
[36860;1;1;7;3;19;25;75;27;325;435;527;1465;3601;5785;6135;32841;60129];
[36866;1;1;3;7;31;19;37;157;189;51;869;2963;5269;9151;14845;30441;89685];
[36871;1;3;3;9;17;51;23;177;417;255;1739;3085;7811;15177;25433;38487;51021];
[36875;1;1;3;7;27;1;45;235;59;491;1327;3967;7585;4313;29669;47193;89427];
[36877;1;1;3;9;19;5;27;63;263;593;1599;1311;1029;603;25291;51391;98915];
[36880;1;3;3;15;11;7;97;99;263;155;437;3849;2665;3371;8179;51883;3601];
[36892;1;1;3;15;7;35;37;149;251;619;1423;553;4453;16365;22543;6951;34655];
[36911;1;3;3;11;15;21;95;143;31;425;179;2383;4799;7655;26945;9273;103469];
[36914;1;3;1;9;13;49;3;117;361;459;227;2067;4909;13461;22505;10259;59697];
[36916;1;1;7;7;7;23;67;217;313;965;1747;995;579;6217;8915;49329;851];
[36923;1;1;3;1;17;19;7;99;281;207;1685;2401;967;9399;28741;28839;6003];
[36940;1;3;3;5;31;61;105;251;499;319;1167;2203;1195;2663;11797;12981;125523];
[36943;1;3;1;5;23;19;99;101;85;837;501;2737;4051;2413;9275;38995;21633];
[36948;1;3;7;13;17;17;119;75;281;527;1477;1515;7765;5573;10143;6219;57817];
[36957;1;1;5;11;19;35;85;171;107;905;1395;1199;7345;15719;14021;47425;36081];
[36958;1;1;3;9;9;63;109;15;323;73;1541;2227;5197;12617;23379;53415;105291];
[36967;1;3;3;5;5;41;85;99;3;895;1383;3627;3897;1893;23673;56501;78411];
[36974;1;1;7;1;25;27;45;185;475;577;1619;727;1407;2383;9215;55295;27349];
[36981;1;3;7;11;3;51;53;53;399;711;1075;511;5369;10777;14419;63217;130181];
[37001;1;1;7;13;25;19;107;71;151;73;735;3837;5307;10229;10529;9989;111925];
[37012;1;1;1;15;19;59;65;77;465;957;1085;1359;3959;15823;6273;12565;126167];
[37015;1;1;5;5;31;53;23;173;407;795;41;3275;1953;13673;26625;33477;14149];
[37019;1;1;7;7;1;11;121;139;77;321;1939;2597;621;9579;11629;13119;30505];
[37035;1;1;1;5;3;33;45;127;169;581;1521;1019;6489;1069;2469;40255;66619];
[37040;1;3;7;5;29;47;7;245;459;417;1027;857;4905;11255;3267;9491;78013];
[37063;1;3;5;9;25;49;61;215;19;731;303;1001;6031;3705;7797;31957;119383];
[37064;1;3;5;5;1;9;37;187;235;453;963;2833;3501;605;2763;41215;93547];
[37069;1;3;1;1;21;3;41;53;425;687;1051;2365;7835;3981;5557;61993;127417];
[37077;1;3;3;7;13;61;41;189;261;163;1931;1803;2379;16379;25453;17911;123431];
[37093;1;1;7;15;23;21;95;7;27;897;721;3917;7971;4643;5223;46583;32453];
[37097;1;1;7;7;1;25;83;109;223;573;533;449;6477;10719;28705;8283;94963];
[37106;1;1;5;13;21;45;63;31;21;223;31;1249;425;7199;11539;7731;44333];
[37115;1;1;5;15;29;5;87;215;287;567;297;451;5867;15511;1005;57469;87257];
[37118;1;3;5;11;13;51;117;139;377;1015;1237;2053;7625;1003;22673;64345;16203];
[37123;1;1;3;15;19;39;73;205;185;331;869;857;5043;7247;25253;5799;64857];
[37129;1;3;7;1;25;63;125;47;161;289;373;1603;1663;1123;28907;37855;47935];
[37130;1;1;7;15;9;17;97;63;79;123;1357;3055;2323;16083;21861;38743;81291];
[37135;1;1;3;15;5;23;7;159;127;511;55;2691;6823;16151;8059;43021;18911];
[37137;1;1;3;9;27;19;41;75;375;921;1745;35;1189;5857;29869;43827;16899];
[37138;1;1;1;5;3;21;13;235;51;529;291;2619;5419;12573;10907;8865;54987];
[37140;1;3;1;13;7;9;85;131;159;743;1671;3001;4559;12343;27563;49941;68447];
[37144;1;1;7;5;17;61;99;63;199;383;485;2569;5329;645;18805;20421;101229];
[37149;1;1;1;15;3;59;41;247;213;843;2003;125;7755;4203;20277;47195;48249];
[37156;1;1;5;15;15;17;113;101;27;811;1791;1777;749;14317;17267;54467;118369];
[37159;1;3;3;3;19;37;23;117;275;733;1259;567;1769;12071;5413;49411;99259];
[37163;1;3;1;11;3;27;103;113;251;731;481;2771;3205;14151;19403;30307;114691];
[37165;1;1;5;15;19;15;103;25;357;197;1437;3621;4747;773;5769;33465;28307];
[37183;1;1;5;15;5;17;89;87;423;611;549;2549;1275;14545;2931;3853;24577];
[37185;1;3;5;1;15;13;29;49;279;495;697;1015;4899;15977;10765;47979;40237];
[37195;1;3;3;9;31;51;21;5;279;947;1871;3075;5433;1631;30075;30517;99609];
[37198;1;1;1;15;19;63;79;81;19;629;617;1887;4015;15501;10551;56419;108739];
[37203;1;1;3;9;31;15;45;37;43;349;1357;189;4551;9363;15683;48445;89279];
[37212;1;1;1;1;17;19;121;119;397;947;1797;613;1627;9591;15779;62295;118843];
[37233;1;1;1;7;25;55;71;227;507;497;1209;2919;5733;15785;21437;40043;2325];
[37236;1;1;1;15;11;1;59;93;69;859;67;1831;6345;5643;29515;20337;77281];
[37240;1;3;5;9;19;53;59;63;161;853;697;1441;3457;951;29659;15337;38443];
[37256;1;3;1;9;7;21;73;81;89;291;411;3793;4639;2829;6855;38113;32875];
[37264;1;1;7;1;15;3;79;35;363;459;907;1157;5165;8021;10135;36367;111991];
[37267;1;3;5;13;21;23;63;155;393;869;1553;3345;2711;8249;24907;28111;36667];
[37273;1;1;7;11;15;25;29;93;45;637;1473;2053;313;8047;23411;8643;2925];
[37295;1;3;7;9;11;5;73;69;311;949;2017;259;2861;10547;12017;34125;74101];
[37315;1;3;1;13;19;61;115;59;447;787;1621;2221;7841;5329;18137;13857;51889];
[37330;1;3;7;13;1;23;117;49;449;541;7;3269;1725;6677;15979;4319;40919];
[37336;1;3;5;5;17;29;35;123;3;481;305;1589;4319;5183;31907;53019;49375];
[37339;1;3;1;7;11;59;79;89;479;821;763;3597;7457;13775;11213;22777;80379];
[37342;1;1;3;7;13;17;65;155;335;671;331;895;7459;1719;10675;60109;63143];
[37357;1;3;5;1;29;33;105;249;61;469;1629;3777;4393;14457;11701;6065;2635];
[37365;1;3;7;3;13;13;21;15;363;63;1263;1479;1459;6577;7481;30393;19831];
[37372;1;1;3;7;29;25;71;247;501;815;1697;2457;4975;3821;25759;24901;120603];
[37381;1;1;1;5;19;3;59;163;367;779;47;905;897;3293;13951;25497;99151];
[37399;1;3;1;5;11;47;21;171;123;215;1797;3741;4921;7213;4847;3239;114839];
[37416;1;3;3;5;23;63;57;31;409;431;1337;3301;4695;7401;9383;12639;34347];
[37429;1;3;3;5;27;57;29;147;111;1015;815;1509;3967;7255;15109;26001;90775];
[37436;1;1;7;13;31;45;21;99;377;399;255;459;6043;11055;5675;3333;32813];
[37442;1;3;1;7;1;55;121;77;429;433;297;3181;3029;6777;22795;61515;58553];
[37451;1;3;5;9;1;19;121;1;499;589;1597;2219;1029;4223;31613;45685;53517];
[37453;1;3;1;9;29;39;83;193;43;41;467;1711;2761;10635;15503;38043;120615];
[37475;1;1;7;13;27;61;1;181;163;613;221;63;6147;8215;15093;2417;71489];
[37482;1;1;7;15;31;63;47;139;427;847;53;1275;1019;9455;12537;22467;129947];
[37489;1;1;5;3;7;1;67;189;501;319;37;2849;2535;10917;11115;48083;67255];
[37490;1;1;3;13;7;31;69;137;19;73;1553;3945;2381;8761;3977;24291;128189];
[37523;1;3;5;11;1;59;43;229;301;771;559;195;1675;12605;22211;2915;90351];
[37525;1;3;3;9;13;27;97;33;273;229;1537;1179;6985;11679;17889;44673;126641];
[37530;1;1;7;3;31;29;41;123;491;639;269;45;2155;14103;6725;50781;42785];
[37535;1;3;5;9;9;11;89;249;475;701;1029;985;8167;439;31897;24529;45759];
[37539;1;1;5;11;9;39;127;179;15;135;1437;3331;5553;939;15319;64937;110783];
[37548;1;3;1;5;7;61;1;219;111;801;85;3427;2533;12861;5395;28969;48091];
[37559;1;1;1;9;23;57;77;41;61;635;457;231;8121;5349;27021;64807;87563];
[37560;1;3;5;7;31;31;101;155;255;199;1973;903;7681;15379;12845;47943;60663];
[37566;1;1;5;7;1;7;71;121;323;669;193;1209;267;9;21223;22037;121567];
[37597;1;3;1;5;17;29;97;189;219;813;187;1763;5817;13185;467;40159;18037];
[37601;1;1;7;9;7;59;3;189;379;843;631;3945;2909;4191;30343;11223;105629];
[37602;1;3;1;3;15;17;23;73;439;699;657;451;6139;15869;4101;32327;55485];
[37604;1;3;3;5;21;37;87;157;205;493;705;1539;2193;13539;2797;49063;55595];
[37616;1;1;5;11;11;41;5;131;445;781;1153;1371;6763;3101;32449;16065;86579];
[37622;1;3;5;1;23;51;97;87;161;261;269;2035;2139;3049;32217;25189;93571];
[37658;1;3;1;11;23;1;111;45;19;19;1767;3571;6027;3593;17453;53821;28121];
[37660;1;3;3;5;17;5;17;247;5;73;29;443;7713;15803;22311;56755;100119];
[37667;1;3;1;13;7;1;41;139;317;977;1529;1217;529;3231;21491;28461;96699];
[37684;1;3;1;13;11;41;103;99;81;849;231;1729;761;711;11499;25581;59433];
[37693;1;1;5;5;13;33;79;175;89;29;295;2867;1197;6137;32063;23471;21721];
[37694;1;1;5;15;17;29;123;249;273;437;443;2601;3957;11955;261;54863;85727];
[37696;1;1;5;13;3;31;57;205;3;903;905;3851;757;13761;28615;48185;33227];
[37706;1;3;7;1;1;1;107;15;307;405;45;297;4365;1569;9263;13685;36027];
[37711;1;3;1;9;17;61;113;121;249;743;191;2523;6621;5395;23797;57975;51675];
[37730;1;3;5;3;27;21;49;113;59;989;501;2651;3827;5121;29667;32903;84199];
[37735;1;1;7;7;19;43;11;191;143;93;1167;2521;2569;12187;28575;13073;113545];
[37742;1;1;7;3;27;39;11;85;61;979;49;2191;2607;13967;28123;48903;16327];
[37744;1;1;5;3;17;17;1;149;189;1017;705;3119;6441;1595;30533;18795;34265];
[37759;1;1;3;11;31;11;125;109;39;41;191;2615;1377;16089;8793;31425;90507];
[37777;1;1;1;1;23;15;21;245;337;649;585;2893;927;883;15119;2595;127963];
[37783;1;3;5;3;13;17;123;167;471;5;1671;2787;5081;12903;4257;19213;2503];
[37784;1;1;5;7;21;57;75;171;509;591;85;407;1747;6375;19641;55683;111289];
[37793;1;1;7;7;3;31;121;111;19;361;1033;4033;2359;13451;15095;61817;69683];
[37800;1;1;5;9;21;33;83;179;387;69;1085;2147;2751;10899;16971;40623;110891];
[37818;1;1;7;9;11;45;81;71;73;551;145;159;7519;3459;5197;48913;59045];
[37823;1;3;1;3;7;35;17;249;207;767;1189;1451;4351;3673;28807;671;69271];
[37825;1;3;1;15;21;27;81;243;55;191;1497;3205;1601;705;14891;14403;130729];
[37828;1;3;1;7;17;43;41;123;507;201;1873;3547;5681;1819;4251;39661;57923];
[37832;1;3;1;9;3;59;57;235;445;479;961;1937;2229;2511;15235;59707;72261];
[37849;1;1;5;13;9;63;67;217;63;259;175;2469;3075;12365;7727;42215;12635];
[37856;1;1;3;13;11;9;125;131;17;399;675;767;7349;10433;21615;46823;3955];
[37861;1;1;3;15;19;53;73;171;125;531;1093;1449;2931;10897;12263;9799;98251];
[37862;1;1;5;5;11;27;33;9;503;545;339;1099;1973;13261;26871;14569;22755];
[37886;1;3;7;1;19;5;79;133;247;1021;1431;3707;4603;3285;5469;46963;98203];
[37893;1;3;5;7;15;11;87;169;495;763;1295;2533;4213;8671;21683;12521;90071];
[37915;1;1;3;1;17;55;7;165;313;659;49;377;6675;15255;9881;11751;87789];
[37922;1;3;1;15;3;49;27;109;145;1011;1939;3201;6141;7229;20741;59285;129365];
[37936;1;1;5;5;5;51;117;17;363;795;1343;2637;6209;1045;22515;10687;48487];
[37939;1;1;5;15;1;37;91;241;245;703;505;3369;6163;10265;12497;46301;109523];
[37945;1;1;7;11;3;37;67;35;229;823;193;913;3331;4475;9271;11859;52709];
[37956;1;1;3;3;7;25;61;159;81;1011;1491;1439;1031;765;9839;61891;20969];
[37960;1;3;3;7;25;39;73;59;101;101;225;1105;5943;5223;12585;16411;62699];
[37971;1;1;7;5;25;19;27;113;465;319;2035;2127;1319;11793;26821;44805;28217];
[37980;1;3;5;11;7;9;81;107;67;31;1503;3303;4451;11417;32681;26861;54845];
[38002;1;3;1;1;3;51;93;235;93;247;2027;1517;6797;1703;10233;45313;60771];
[38007;1;3;3;15;25;11;83;77;413;189;119;597;2199;12347;7935;40191;125569];
[38018;1;3;7;9;11;3;77;31;89;163;1993;3017;3973;10943;22247;45565;7261];
[38020;1;3;7;7;15;13;7;155;373;893;607;3521;7455;13809;6145;31743;86329];
[38038;1;1;1;15;25;41;111;65;11;627;59;2725;995;3761;25361;45189;48355];
[38041;1;1;7;5;29;43;91;139;323;503;679;4079;403;1899;1425;26989;117057];
[38044;1;3;5;13;1;17;19;61;205;833;345;1031;7995;999;27469;15943;88011];
[38048;1;3;1;7;23;49;123;9;11;761;1163;669;3837;15225;23393;19513;9457];
[38051;1;1;5;9;9;33;29;123;277;433;1799;1583;3133;13461;26443;15807;80173];
[38054;1;3;7;3;31;29;77;105;297;617;491;647;6541;5033;31841;48405;126985];
[38065;1;1;5;5;31;39;17;25;3;279;89;3985;3333;5681;3701;36319;12585];
[38066;1;1;7;13;13;19;93;129;51;875;1083;1739;5193;6217;10033;51839;66071];
[38077;1;1;7;9;15;23;93;121;507;115;707;3181;1521;9609;4577;54389;19167];
[38090;1;3;3;7;17;51;19;29;387;711;1105;1627;4421;15183;14149;26485;106425];
[38109;1;3;3;15;25;59;11;45;259;1019;1997;3373;5083;5701;30217;44845;67559];
[38119;1;3;3;9;17;47;5;103;477;785;235;1523;1505;8811;15255;53493;4383];
[38120;1;3;7;3;7;37;73;247;397;409;1065;525;5665;8533;30627;19035;22937];
[38123;1;3;3;15;15;47;123;215;413;249;55;2563;8033;8743;18659;7947;56057];
[38146;1;1;7;3;11;61;103;109;313;293;149;999;901;13387;15351;52973;68385];
[38155;1;1;1;5;31;13;57;43;263;141;335;2777;3435;4231;20623;2597;33481];
[38160;1;1;7;13;21;53;101;75;237;275;1903;3501;8023;3651;19609;44417;60287];
[38181;1;1;1;1;13;43;83;255;355;567;1781;2943;1061;2701;24861;58381;60255];
[38188;1;1;3;9;25;5;81;85;445;857;517;3687;2641;6699;19273;4481;8715];
[38199;1;1;3;7;17;39;33;31;29;269;379;3149;4731;10387;7941;49199;18423];
[38203;1;1;7;15;19;37;105;157;185;1023;1865;53;6765;3;22897;17019;109521];
[38225;1;3;7;5;5;7;117;211;19;149;1091;3721;201;4455;18965;51401;67225];
[38226;1;3;5;11;1;55;101;41;469;271;1251;949;861;11903;14773;25675;114161];
[38231;1;1;7;7;23;13;103;185;137;575;797;1195;5301;13307;12043;26003;31719];
[38244;1;1;5;7;11;51;17;71;321;559;1461;3571;1033;15575;7097;14703;52359];
[38248;1;1;1;5;21;9;123;211;233;81;111;1433;7825;11771;30743;23993;48717];
[38259;1;3;5;15;7;3;109;33;99;135;393;3463;7271;14387;30723;19079;83073];
[38268;1;3;3;15;3;51;77;219;409;11;67;3787;5155;9259;7185;21611;32577];
[38271;1;3;7;1;5;49;125;85;151;301;887;1765;5;12849;11775;11319;29547];
[38272;1;1;7;11;17;15;105;29;327;637;1493;3361;1823;14709;18355;741;57807];
[38278;1;1;7;7;3;27;15;113;227;617;1543;1719;8065;13627;23525;20511;64759];
[38292;1;1;3;3;21;47;89;177;381;711;1367;2405;887;2351;22957;49679;5963];
[38296;1;3;7;9;7;1;39;71;9;275;875;1385;6215;10419;25921;63427;18031];
[38318;1;1;7;5;23;57;27;7;445;111;953;37;2769;1967;8165;35417;36471];
[38326;1;3;3;11;23;17;119;113;275;625;1957;2795;3815;7937;11049;31939;128053];
[38338;1;3;3;5;7;35;45;41;251;491;1953;3201;751;5705;595;27003;77917];
[38347;1;3;5;3;25;17;55;137;299;541;289;2225;4667;3569;13687;36193;75705];
[38373;1;1;7;15;21;9;27;157;469;441;193;2097;4863;2147;31197;24283;102039];
[38378;1;1;1;11;17;39;73;37;91;121;1283;367;1875;14365;28349;60993;10791];
[38380;1;3;5;9;13;63;89;53;459;347;343;2321;5237;2497;279;63833;10709];
[38388;1;1;1;15;11;23;41;79;45;567;1217;1669;1679;2561;16191;49041;4081];
[38392;1;3;1;5;3;9;103;245;47;561;229;2945;6563;797;21571;25769;12995];
[38397;1;3;5;7;5;47;99;55;49;951;765;2095;8021;4389;20501;26047;119967];
[38398;1;1;5;3;15;47;81;121;379;527;419;1093;367;10939;17181;13905;49859];
[38401;1;3;3;5;7;59;53;255;131;685;1677;3757;3601;89;6225;32705;28287];
[38404;1;3;7;1;7;55;85;47;425;793;605;2313;791;4247;9693;10633;82915];
[38422;1;3;5;13;13;49;127;213;27;657;419;55;6289;295;4211;8899;120237];
[38432;1;1;7;11;11;7;75;35;315;125;517;3677;2323;6897;11535;36789;20179];
[38469;1;1;5;9;11;3;77;43;323;647;383;485;3937;9081;27745;59149;103433];
[38482;1;3;3;13;3;47;91;81;115;625;2003;3601;531;113;20719;47391;111039];
[38493;1;1;3;13;5;49;123;189;109;325;497;923;3861;14029;22651;19857;104801];
[38507;1;1;5;3;29;23;25;23;501;371;1983;1303;2261;11865;13281;2587;75741];
[38518;1;3;5;13;27;61;45;11;157;615;897;1529;2213;757;30105;2011;27267];
[38521;1;3;5;13;29;31;95;159;449;307;1575;1897;2301;14023;6921;30543;31843];
[38527;1;3;3;5;1;1;79;147;437;623;1161;3407;3073;15425;4329;19651;90597];
[38533;1;1;1;11;17;7;43;171;447;841;573;3775;5517;3629;18241;31907;51423];
[38534;1;1;3;7;15;53;111;203;171;963;1983;2017;6067;12281;3417;7431;33803];
[38552;1;3;1;1;31;49;125;65;7;579;1709;1815;2643;11537;30093;11813;65157];
[38561;1;3;7;15;1;3;61;21;163;809;1263;2577;7811;12611;6921;18529;25709];
[38576;1;1;3;5;17;43;13;81;29;905;1975;589;5875;15683;29447;46453;127911];
[38581;1;1;5;3;19;29;11;67;375;771;755;3939;1465;3275;1119;24695;105105];
[38585;1;1;3;11;23;37;33;135;329;733;245;2353;2547;7823;16265;5975;37877];
[38594;1;3;7;13;15;9;47;181;239;723;1219;409;1685;5493;14189;18107;26231];
[38606;1;1;5;1;9;1;65;125;439;591;1499;3797;5879;4231;18655;9643;42265];
[38613;1;1;7;7;11;51;111;47;169;39;45;2211;6729;10987;22367;27257;112711];
[38617;1;3;5;3;19;61;89;185;23;793;1457;1743;3743;15063;14053;50201;109175];
[38634;1;1;5;13;31;51;69;135;427;527;1673;2393;5829;683;1509;56617;105735];
[38644;1;1;1;15;31;51;3;105;125;593;1589;3217;7449;525;30599;11689;14781];
[38651;1;1;1;11;9;37;113;45;487;961;87;1461;3521;8645;19771;43817;43277];
[38661;1;1;7;3;7;11;45;97;11;593;319;2597;37;4157;6669;29929;17213];
[38665;1;3;7;3;29;21;101;93;289;975;1937;3423;757;7075;12575;26801;90989];
[38668;1;1;7;15;25;49;49;149;503;365;1359;2155;7977;14955;18439;44269;88995];
[38674;1;3;7;13;25;27;15;67;157;873;339;2143;1405;12209;30939;36109;107699];
[38689;1;3;5;5;21;33;121;95;61;159;1423;2899;3811;263;9139;54481;107375];
[38695;1;1;7;7;13;49;83;53;267;131;673;3945;5255;2009;21017;41749;44817];
[38696;1;3;1;13;25;57;125;5;323;653;221;2013;7225;8719;28049;41953;14725];
[38707;1;3;7;7;5;13;35;161;221;951;769;717;267;2233;23387;47411;95739];
[38710;1;3;7;11;23;47;37;67;501;159;763;4045;5125;5667;9895;33041;101171];
[38716;1;1;7;1;31;31;111;183;33;895;1819;3593;1285;10145;3679;36615;82863];
[38733;1;3;5;7;21;59;55;163;139;855;1903;3229;3745;10289;28831;46895;12647];
[38736;1;3;7;9;25;31;113;177;459;201;565;2089;725;9273;26249;5987;49573];
[38742;1;1;7;15;3;37;49;145;121;803;1197;2797;21;833;2277;28189;93171];
[38751;1;1;7;7;13;31;93;153;345;363;1825;1481;3347;13277;26119;63153;118231];
[38752;1;3;1;11;31;9;33;95;433;595;1131;465;1797;15453;32527;40789;37799];
[38775;1;1;5;11;31;29;83;33;243;633;1325;3843;7717;851;29789;48827;89209];
[38779;1;1;3;7;25;31;127;219;281;51;1843;3363;5985;1697;3083;18967;117421];
[38792;1;3;7;9;1;19;125;199;41;117;903;1131;7731;14431;24753;62841;50251];
[38798;1;3;5;5;11;37;19;249;97;59;1849;1151;2171;1217;31277;26547;86601];
[38819;1;3;3;7;29;35;21;7;93;971;1155;1847;89;6759;29611;40793;88327];
[38822;1;3;5;5;29;23;91;71;479;943;1839;3699;2491;9603;15061;43221;20435];
[38839;1;3;3;7;29;11;15;83;21;585;501;161;4797;11243;14879;12519;19069];
[38851;1;1;5;15;13;37;9;215;433;925;987;3253;8027;7013;20801;12891;36497];
[38854;1;3;7;1;15;31;95;85;355;1013;1963;2943;1925;13691;15237;28943;63873];
[38863;1;3;3;1;17;21;99;201;465;819;665;901;2671;2457;29603;35275;28339];
[38865;1;1;1;9;5;23;111;107;27;433;1341;91;6879;1933;25433;37435;99061];
[38887;1;3;5;13;11;55;27;151;397;591;89;1221;5581;2701;15033;41879;71415];
[38896;1;3;3;5;17;35;15;119;487;903;875;3391;7731;12181;27823;32561;59133];
[38901;1;1;5;7;15;33;67;53;307;947;857;2713;803;765;4175;15513;23985];
[38912;1;3;1;15;23;11;15;101;467;429;153;3205;5627;7555;22515;12721;7905];
[38918;1;1;3;7;19;61;55;187;413;49;1031;3415;3903;6933;20017;50429;116407];
[38929;1;3;1;13;13;15;33;1;403;441;1969;775;2209;15061;15657;28819;62705];
[38941;1;1;5;13;13;47;67;97;87;677;1639;3281;1395;8499;18449;49935;25775];
[38948;1;3;3;13;7;13;77;45;405;881;293;2263;6517;15415;25809;5681;31327];
[38965;1;3;7;5;5;51;63;171;401;671;1631;1735;7361;8741;31933;44761;12209];
[38969;1;1;7;3;13;3;39;223;105;781;241;2895;5165;12135;5683;63009;58399];
[38977;1;1;5;11;29;11;37;1;445;157;219;2269;3025;5721;24539;41879;128445];
[38987;1;3;7;15;23;21;125;105;141;101;1981;3765;5349;13781;10055;7069;77721];
[38992;1;1;7;9;3;37;111;95;33;53;1021;1629;6945;4657;19977;36715;101401];
[38995;1;3;3;1;9;5;65;77;459;471;1045;2351;2787;13001;16211;22585;116205];
[39001;1;1;7;9;25;41;21;187;471;997;583;2243;6537;11837;21089;51051;98517];
[39004;1;1;7;5;13;15;81;39;223;935;951;5;4315;11789;18365;49647;92461];
[39011;1;3;3;5;11;15;97;245;43;819;1415;3287;2051;15879;21727;54467;53875];
[39018;1;3;1;11;7;47;125;155;301;469;805;3789;6967;12117;30369;55183;12671];
[39025;1;1;3;13;17;25;45;199;69;1015;581;3891;7743;9273;7639;59055;93923];
[39031;1;1;5;11;9;47;39;251;489;47;83;2147;943;1959;21361;5325;106079];
[39032;1;3;5;13;27;59;35;1;155;367;165;2665;3021;1127;28585;45347;66763];
[39044;1;3;1;5;31;31;15;125;485;581;1987;2293;4573;11431;20773;58661;79869];
[39056;1;3;5;15;31;11;109;229;11;831;1545;919;6125;9337;4169;58041;67577];
[39065;1;1;1;3;1;43;13;89;89;863;1607;1897;4831;5239;24503;51853;126983];
[39066;1;1;5;11;11;37;11;253;495;83;941;3665;5187;13679;11811;29563;80571];
[39084;1;3;7;15;3;45;45;157;477;321;1401;1133;271;12455;31543;18223;116701];
[39095;1;1;5;3;7;5;17;127;195;583;715;3975;6865;7617;6749;15687;42375];
[39099;1;1;1;7;5;7;21;163;303;45;1435;1345;2489;15333;18459;60837;104339];
[39101;1;3;1;1;7;23;39;93;347;947;345;1713;6383;15411;10849;32559;126431];
[39102;1;3;1;5;19;41;119;213;3;991;1745;3989;155;7761;28179;59805;106759];
[39104;1;1;7;5;25;11;105;89;505;711;1213;2831;8087;8855;31171;49749;921];
[39109;1;1;5;5;23;61;49;101;209;805;123;17;805;9033;25753;33261;33753];
[39114;1;1;3;5;5;17;93;223;179;307;869;1851;4313;477;12925;21365;103999];
[39121;1;1;7;13;21;23;105;53;393;939;291;2407;4815;4961;30305;8613;62599];
[39122;1;1;1;11;9;55;55;135;411;225;205;3357;4553;10139;17649;51209;94037];
[39127;1;3;5;15;17;17;119;15;121;581;169;2495;3673;7173;13099;7683;53397];
[39150;1;3;1;11;29;29;119;255;447;85;845;1015;2793;2471;12639;32155;99193];
[39172;1;3;3;3;9;33;77;251;425;1007;1003;2697;4989;7799;26581;15963;50443];
[39181;1;3;1;5;13;47;13;203;473;529;147;2061;343;4029;14615;51355;27863];
[39184;1;1;3;15;19;63;39;25;241;487;461;3021;3545;4537;8991;17689;77131];
[39193;1;3;5;5;7;1;61;89;495;943;1061;405;449;12785;25151;24497;65709];
[39199;1;1;5;3;7;43;51;55;193;615;37;1377;2541;3861;29447;32269;106335];
[39200;1;1;5;11;21;55;103;43;421;673;175;979;5175;1301;8617;55875;111095];
[39206;1;3;5;13;29;31;33;241;129;473;201;2015;447;99;23781;33517;107851];
[39209;1;3;5;3;13;27;125;205;287;957;1609;2907;5481;14239;19719;22459;75365];
[39235;1;3;3;5;27;23;53;39;329;381;745;517;7853;5333;2773;29119;7049];
[39238;1;3;5;15;29;11;89;3;503;755;485;2669;6737;16241;7345;50991;107291];
[39242;1;1;7;3;17;45;11;3;157;715;577;1309;3323;9401;10573;55135;100067];
[39244;1;1;5;9;19;21;49;103;349;503;1447;675;4273;7673;27507;57697;80875];
[39280;1;1;5;1;9;53;19;99;225;915;431;781;3291;4383;26505;50339;99799];
[39290;1;3;1;5;7;37;87;201;481;991;1553;1867;7893;13147;18647;10373;51951];
[39292;1;1;3;13;17;37;19;199;253;901;759;3545;3565;10461;11867;57605;75555];
[39296;1;1;1;5;15;23;115;69;363;673;201;2451;3197;10059;1667;47145;89];
[39305;1;1;7;13;19;31;63;35;93;939;1057;3221;951;3575;9659;7005;2087];
[39308;1;1;7;15;15;21;79;7;23;595;1123;1909;6863;7383;28067;30113;107497];
[39311;1;3;5;7;11;47;41;177;163;855;1853;3837;6995;9727;27285;62667;77531];
[39326;1;3;7;3;3;29;99;163;95;893;1049;2001;2961;601;4613;59745;61203];
[39329;1;3;5;1;27;5;5;47;119;631;1171;3467;2115;8581;24863;64193;52093];
[39330;1;1;1;5;9;51;49;251;97;177;311;993;1103;7875;25273;51587;9081];
[39336;1;3;7;5;31;21;43;137;143;779;691;2331;5073;5409;13335;999;127765];
[39339;1;1;7;1;31;33;27;193;175;755;1559;659;5663;10491;29209;50979;116683];
[39353;1;3;1;7;23;49;1;39;117;45;1767;3503;4901;5699;23613;44195;17867];
[39359;1;3;7;13;3;5;105;89;343;627;1117;3419;2081;5747;7919;44329;125133];
[39374;1;3;1;9;13;33;53;203;17;927;127;2195;415;11301;15115;54467;128777];
[39391;1;3;7;1;9;41;15;89;403;333;57;1159;1325;2335;10609;20485;110317];
[39392;1;3;3;5;3;61;25;155;477;907;359;359;5119;8157;29945;38955;106485];
[39402;1;1;7;5;19;47;91;89;367;703;761;431;6813;2983;29739;52453;125935];
[39409;1;1;1;7;7;61;127;239;277;649;1111;2319;1737;5071;13469;52119;48899];
[39410;1;3;5;15;7;17;21;209;265;895;719;263;6871;5835;28483;49859;67619];
[39415;1;3;3;15;3;7;113;109;333;545;597;1193;7593;3961;25169;64673;47839];
[39419;1;1;1;3;15;45;55;41;317;719;1587;2953;2441;1127;9183;21637;69075];
[39431;1;3;1;9;25;57;59;29;89;833;379;1085;763;14747;30797;24089;83367];
[39432;1;1;5;13;29;3;117;239;453;595;243;3103;6047;631;22739;41669;11683];
[39438;1;1;3;1;9;53;81;21;67;735;827;3519;7991;16249;4183;61295;4531];
[39443;1;3;5;3;1;57;47;99;91;71;1421;2949;5951;15439;25239;26453;50199];
[39445;1;1;3;15;21;3;93;21;41;809;855;727;7797;6957;15835;27175;60617];
[39449;1;1;1;13;1;3;83;135;197;171;1459;2841;5021;6961;30675;38295;39555];
[39461;1;1;7;5;7;49;83;83;117;73;639;2717;651;3253;31635;14427;116509];
[39462;1;3;1;3;23;63;15;23;433;539;903;2655;1787;12901;12013;41315;128217];
[39485;1;3;1;7;5;19;3;137;493;681;775;3725;4855;10817;25277;3631;60779];
[39508;1;3;3;5;1;7;67;39;309;77;1679;2853;3803;2065;7461;1555;88219];
[39515;1;1;3;5;3;47;17;193;429;789;1525;969;7905;6523;10149;64689;40037];
[39522;1;3;5;7;21;17;65;61;255;517;1765;2603;4929;11073;7871;29313;84739];
[39533;1;1;5;7;13;55;111;63;499;9;1715;957;6951;15839;13531;45483;17923];
[39541;1;1;1;1;27;7;13;135;27;259;1735;3847;7931;14777;15249;62367;45773];
[39542;1;1;5;3;5;7;99;171;491;1007;195;2223;2657;13557;6549;47125;25117];
[39557;1;1;1;9;13;21;59;205;205;951;1707;3387;2901;5463;13403;1917;90591];
[39570;1;3;3;5;21;37;71;91;297;885;1415;355;2877;9261;6485;45855;90081];
[39575;1;1;5;9;23;51;107;75;93;1015;439;3589;3307;337;17247;42285;85417];
[39576;1;1;7;15;29;33;51;23;269;35;1241;1137;729;14531;14603;47547;17151];
[39591;1;3;3;1;25;21;51;229;55;561;653;3289;7629;15445;21115;35941;113669];
[39597;1;1;5;15;1;33;119;171;75;621;2025;3235;1895;8279;13205;61085;105401];
[39603;1;3;1;7;25;33;73;25;1;531;603;77;4939;5957;28065;59467;66659];
[39610;1;1;7;3;17;61;103;47;289;39;917;2515;6607;1129;23361;46321;81929];
[39612;1;1;7;5;29;53;5;191;151;19;895;1215;5401;9861;24751;15481;34179];
[39617;1;3;7;9;5;3;29;205;173;547;727;947;5619;4181;30621;5553;37587];
[39620;1;1;3;9;13;59;95;145;287;849;1483;3375;3531;6585;29565;4243;88333];
[39624;1;1;7;11;21;23;59;223;71;743;443;697;7789;10371;28565;45127;37967];
[39627;1;3;5;11;15;25;79;71;21;817;751;189;1769;3835;21465;17991;102043];
[39635;1;1;7;11;3;19;25;5;261;181;49;261;7715;2195;19771;43463;36533];
[39641;1;1;7;13;21;21;15;235;191;197;1305;1351;4511;625;6613;37053;59491];
[39666;1;1;1;13;15;13;93;239;251;1009;527;1347;4173;14753;27389;20397;13101];
[39668;1;1;3;1;15;11;127;141;277;775;1419;2353;6929;2265;7253;19807;74853];
[39686;1;3;3;15;15;49;9;183;407;377;675;871;347;3417;4409;7805;40507];
[39692;1;3;5;3;23;11;81;53;343;681;1777;3411;757;10875;3581;56105;79907];
[39700;1;3;5;1;25;9;109;55;283;311;1607;2479;5675;8819;10853;38719;44471];
[39709;1;1;7;7;9;53;33;195;503;167;993;3203;3885;1921;1039;25785;47411];
[39726;1;3;3;3;31;3;11;85;475;743;1825;2649;2373;12177;21481;35579;85803];
[39728;1;3;7;3;23;45;45;207;369;773;1579;783;2491;7441;21203;57091;107413];
[39737;1;1;1;5;19;7;97;213;431;533;637;1767;4945;4693;977;64781;111811];
[39738;1;3;7;7;1;55;101;251;153;95;1043;3219;3499;6297;11571;9131;61899];
[39755;1;3;5;5;25;53;121;255;69;661;799;3559;2029;11701;14151;37897;18333];
[39757;1;1;1;9;21;19;97;21;321;957;1115;251;5131;8465;24215;34423;12747];
[39758;1;3;5;7;17;19;99;135;429;625;1401;1025;4193;2911;7349;34135;9341];
[39765;1;3;5;1;5;63;97;121;307;547;1967;641;487;4627;30899;62049;94343];
[39766;1;3;5;13;1;1;109;23;267;843;271;2277;855;4245;2177;33633;113835];
[39769;1;1;3;7;3;27;91;79;27;855;2025;443;4797;9005;27533;20497;100431];
[39779;1;3;3;5;23;7;73;35;395;649;881;2923;4065;853;10829;19461;82383];
[39785;1;3;1;5;25;13;85;93;369;259;393;3233;799;12409;26631;64291;110133];
[39794;1;3;5;5;31;35;25;239;455;893;573;1449;3359;12077;17149;12921;66931];
[39796;1;1;7;3;25;39;67;87;215;325;627;3609;4417;10021;12047;64593;116525];
[39809;1;1;5;5;23;51;125;247;83;419;655;635;7053;4907;12887;18083;49481];
[39815;1;1;7;11;5;25;65;139;235;331;1885;1851;1061;13265;14371;23067;56757];
[39829;1;1;7;9;11;15;29;255;509;869;561;2201;487;2989;14943;65373;35789];
[39834;1;1;1;3;3;33;23;121;129;351;1481;65;321;15927;23849;2813;98547];
[39839;1;1;1;3;23;55;121;35;339;87;1147;401;1477;10617;15943;20535;89321];
[39850;1;3;5;15;25;59;111;185;305;47;523;2801;5485;625;30191;58153;9019];
[39857;1;1;7;13;15;51;105;55;77;419;1011;1117;2705;15093;15629;51429;58487];
[39881;1;3;7;5;15;27;19;7;401;295;1841;1167;2133;1967;6941;13571;29467];
[39905;1;1;5;15;25;43;23;253;173;927;1299;2779;5489;16135;1503;51097;105751];
[39912;1;3;3;5;9;13;5;13;411;639;1323;1495;2539;15087;21489;49653;76229];
[39938;1;1;1;11;7;51;47;99;247;541;1355;2373;4121;13621;7715;16763;127985];
[39940;1;1;3;9;7;1;85;45;269;769;581;2229;7143;5203;22483;18511;30997];
[39944;1;3;5;7;21;41;97;225;109;195;1197;3417;7613;13225;29157;18969;82045];
[39955;1;3;3;3;17;41;13;77;129;679;1659;1299;4809;8537;19081;1281;70793];
[39961;1;1;5;5;5;49;5;15;313;941;775;259;6579;7745;20531;51669;35257];
[39977;1;1;5;5;17;35;13;235;169;699;1365;3907;4231;10965;7737;6735;4253];
[39980;1;1;5;3;29;3;1;197;133;935;571;3977;2467;2029;12803;64559;6427];
[39986;1;3;5;5;27;5;69;57;439;925;1695;827;4685;10971;3011;56821;92187];
[39988;1;1;1;3;9;45;77;179;173;1023;907;1999;3913;6973;26987;30237;62987];
[39991;1;3;7;3;5;21;17;97;433;277;1515;2923;8025;14119;11243;3983;33943];
[39998;1;1;5;7;15;13;119;169;21;927;439;361;2655;2237;19775;4157;84245];
[40003;1;3;5;5;31;41;117;159;421;505;1617;3855;7835;8105;29525;56735;82335];
[40005;1;1;5;5;1;33;51;3;79;933;389;493;5969;12493;26723;61159;116951];
[40023;1;3;7;13;17;23;75;13;355;111;675;3191;3931;5651;17495;4595;49869];
[40024;1;1;7;7;15;21;35;125;89;903;697;3493;4043;6631;4793;45655;86969];
[40045;1;3;1;15;13;43;113;213;451;473;191;2913;6391;1321;29615;24791;26979];
[40046;1;3;3;13;17;25;9;163;163;161;1647;3949;1343;12881;10931;31365;70013];
[40058;1;3;7;3;3;19;1;121;387;543;1655;1797;6727;2951;21925;21595;73207];
[40088;1;1;5;9;7;19;91;9;83;893;1393;163;2219;7763;32395;29569;98645];
[40091;1;1;5;7;13;63;91;115;247;387;87;3239;7561;297;32615;48817;41761];
[40098;1;3;5;3;21;23;27;141;257;377;1745;443;897;9033;1715;9225;110181];
[40109;1;1;7;9;23;49;125;131;225;253;139;2057;3273;4049;6861;4463;11659];
[40112;1;1;5;11;5;41;97;213;133;481;2009;2039;1533;10765;22427;23297;80661];
[40124;1;1;5;15;9;11;77;129;421;219;1623;703;1611;13377;9859;42869;101943];
[40130;1;3;3;3;17;63;55;29;317;973;1159;11;1733;14551;25911;39151;45861];
[40153;1;3;7;11;29;63;107;193;263;799;1171;543;553;12591;21965;8165;64347];
[40166;1;1;7;15;23;49;65;65;401;897;681;1113;6737;9157;1557;55891;129175];
[40175;1;3;3;1;15;23;107;123;313;633;1009;2615;1155;11701;21945;7939;28111];
[40183;1;3;1;11;15;11;47;137;299;393;877;1989;5903;6505;9599;4129;23073];
[40184;1;1;7;15;9;49;67;15;79;125;505;17;8071;12957;13855;23611;66465];
[40207;1;1;5;13;31;49;1;161;121;145;711;1347;5297;11309;9871;43075;95541];
[40215;1;3;3;13;19;7;55;199;469;471;1269;3779;6251;3513;1775;19501;94055];
[40225;1;3;3;13;9;41;109;211;197;227;1211;3327;1247;12253;4493;31507;38677];
[40235;1;1;7;3;11;45;11;103;325;849;1817;3971;1059;9047;27237;32211;121165];
[40240;1;3;3;3;13;43;7;35;293;3;679;1441;5189;7585;32009;6151;89803];
[40255;1;1;7;9;29;41;127;255;363;913;2027;3891;5187;10233;8871;48085;125609];
[40263;1;3;1;5;21;23;59;145;171;775;535;3803;6981;15901;20255;63199;92905];
[40270;1;3;5;9;7;63;53;7;145;547;1753;3351;1273;8175;24103;42133;87459];
[40277;1;3;7;7;25;33;5;217;469;473;1573;2525;7345;5261;7023;50893;124129];
[40282;1;3;5;13;5;51;23;61;429;775;519;2671;1979;9005;21617;33611;120487];
[40297;1;3;3;15;23;1;73;187;47;369;943;99;2529;5569;13649;51481;128949];
[40306;1;3;1;5;25;55;35;191;327;845;1353;261;6297;6067;22241;32381;17749];
[40315;1;1;5;15;31;5;29;129;15;47;739;755;7595;14743;14705;34347;11805];
[40333;1;3;1;3;15;49;119;47;185;63;2003;2847;5393;855;7699;29521;67011];
[40334;1;3;7;15;11;41;37;149;173;1015;29;1805;1269;16199;32337;11023;60065];
[40336;1;1;1;7;31;19;65;81;255;875;1379;2347;1873;14427;29523;38413;65583];
[40342;1;1;1;15;13;59;3;219;127;479;1029;3385;563;11825;10081;17423;26431];
[40345;1;1;1;1;25;27;79;87;489;281;457;3527;5117;4705;21167;46211;90383];
[40348;1;3;7;13;7;5;67;111;53;439;1483;3639;7781;9471;10957;60711;64957];
[40355;1;3;7;9;7;7;41;137;159;245;551;4007;1277;4743;4863;48689;123289];
[40372;1;3;7;9;15;49;55;77;41;475;1563;3569;5993;301;14831;44095;22641];
[40381;1;1;1;1;15;33;39;135;81;533;869;305;1125;6399;14321;37217;121081];
[40390;1;1;7;15;21;59;43;7;225;1;115;1531;2931;2593;15935;61973;106899];
[40407;1;1;1;1;13;13;99;191;437;367;641;1933;5807;11677;13557;46475;34875];
[40435;1;3;7;9;21;7;119;209;31;919;901;1229;5823;11439;18151;18991;114743];
[40437;1;3;3;3;19;37;109;53;411;617;1841;2769;1271;5719;22359;1199;72405];
[40441;1;1;1;5;29;3;51;59;141;897;1907;3799;1463;5661;181;50565;95085];
[40444;1;1;1;7;1;35;77;225;341;587;137;35;2177;15177;12869;35013;39471];
[40458;1;1;3;13;15;63;45;33;337;1;1133;263;4985;11591;1085;31197;67897];
[40460;1;1;5;13;23;11;123;21;185;639;145;3865;2999;6261;23247;23055;32755];
[40481;1;1;5;9;19;21;47;133;281;431;1661;3719;3637;973;9727;52627;60035];
[40484;1;1;3;5;3;19;19;89;63;549;551;3357;5665;4781;22437;1149;10825];
[40487;1;3;5;15;3;25;81;193;11;711;1481;1767;1159;4967;16915;3387;26245];
[40493;1;1;1;3;29;39;23;131;473;107;765;2249;6087;9145;20751;21085;42989];
[40494;1;3;1;9;7;39;13;199;475;333;269;1041;5927;14039;19081;9045;119645];
[40501;1;1;5;13;11;61;99;71;151;175;1327;3397;5063;10683;7895;62255;85749];
[40502;1;3;7;9;1;57;21;217;423;467;1435;2887;1567;8819;19961;36507;110309];
[40525;1;3;3;11;11;35;77;127;153;357;865;1943;1947;10995;13617;44347;26851];
[40550;1;3;1;11;9;43;31;81;123;813;995;169;6593;13621;32195;51125;53509];
[40553;1;1;5;5;27;29;77;35;93;545;377;2345;6475;15729;15103;49591;101121];
[40559;1;1;5;13;1;17;97;187;129;173;641;2937;3277;15087;28111;46905;112367];
[40562;1;3;7;7;1;27;75;43;305;431;571;1327;7419;3093;2691;23417;11975];
[40573;1;1;5;15;17;3;91;57;417;87;1891;1973;5765;5521;21931;60011;20883];
[40574;1;3;1;3;27;13;105;153;495;371;453;1295;5675;6377;8971;40505;41149];
[40578;1;1;1;15;1;17;105;177;41;455;611;3585;2307;2603;20985;5581;14033];
[40583;1;3;3;9;7;41;33;145;307;293;1321;2151;3265;14845;15687;38715;8041];
[40584;1;3;3;3;5;47;127;253;129;337;1467;5;2743;1921;26979;11737;41479];
[40587;1;1;1;5;15;35;37;9;5;405;1041;1903;3655;14315;9441;20577;50715];
[40597;1;1;5;15;7;5;53;61;409;353;87;1805;4523;11417;24105;21451;56387];
[40620;1;3;3;5;5;9;25;249;511;795;559;2695;3071;3971;29421;46593;96563];
[40623;1;1;3;1;3;39;61;85;399;105;1253;3787;3065;10553;8195;5637;129579];
[40631;1;3;3;7;23;23;23;197;263;687;943;1977;5767;15373;17995;24509;81293];
[40643;1;3;1;11;15;37;15;67;207;985;895;509;3435;11563;2055;19253;42649];
[40660;1;1;7;3;1;51;59;133;241;569;1575;3633;2243;11939;5501;11249;86013];
[40667;1;1;7;13;25;59;97;191;385;179;1195;1537;1837;11953;14231;37025;49803];
[40676;1;3;5;5;13;49;19;171;503;433;1633;553;2759;4379;18313;62437;37453];
[40693;1;3;3;15;29;49;107;239;21;913;1095;989;4749;10657;27169;15913;1573];
[40697;1;1;1;1;3;3;53;241;287;149;557;2665;2027;449;29231;23025;102521];
[40708;1;3;5;7;23;21;9;1;11;837;1337;2815;7883;16053;10031;43405;5037];
[40718;1;3;7;1;23;53;113;125;337;491;1125;3083;4941;951;15805;1571;79779];
[40726;1;3;7;13;1;3;95;105;431;723;1771;3773;177;2045;24719;57727;79005];
[40735;1;3;1;1;7;17;107;171;213;437;409;2015;7543;12693;23597;44477;72543];
[40739;1;3;5;9;7;21;27;167;473;901;1245;3737;3485;14593;7619;18753;14209];
[40748;1;1;1;3;25;37;51;21;363;73;711;3749;5147;8495;30151;14275;128217];
[40760;1;3;1;13;17;35;69;15;293;331;301;691;7315;6495;315;62909;105047];
[40763;1;3;5;3;25;23;105;111;213;887;1701;2085;5931;9217;4009;2321;103631];
[40773;1;1;7;15;17;57;59;249;267;941;777;2509;6587;12033;24969;31563;129049];
[40774;1;1;1;5;31;23;31;217;509;973;659;673;7759;3865;21221;4319;117411];
[40786;1;1;3;7;13;13;103;179;107;233;753;3121;835;13595;9271;31421;45275];
[40791;1;3;5;13;23;61;125;189;283;83;1087;755;3697;14845;27901;16389;82993];
[40798;1;3;1;3;1;55;25;139;435;681;1913;975;3109;6699;12943;50865;71811];
[40801;1;3;1;5;15;61;17;219;29;805;1881;3761;3535;473;15629;26301;51085];
[40808;1;3;1;1;7;43;87;93;355;247;641;2851;4565;9293;6025;1945;112549];
[40811;1;3;7;5;19;55;69;227;107;443;1587;2457;2873;953;27529;57527;54145];
[40813;1;1;5;9;1;33;31;241;339;791;399;3435;1711;10815;32657;59875;31291];
[40825;1;1;1;7;25;59;87;115;435;47;1907;193;6069;10933;9877;46443;3451];
[40831;1;3;3;15;25;33;19;121;133;253;1227;75;2839;3341;30727;52451;44883];
[40835;1;1;7;11;5;47;97;255;235;565;1701;529;839;15473;24471;5749;73135];
[40856;1;1;3;7;21;15;31;81;389;957;603;3879;2875;11987;24625;53667;77775];
[40861;1;1;5;11;29;29;31;233;107;541;561;2533;1421;13587;6943;45635;71315];
[40880;1;3;1;9;25;19;33;53;509;485;1637;2877;5927;16059;195;17279;127025];
[40889;1;1;1;3;9;23;97;101;337;43;1979;1139;3693;2601;8225;53037;63709];
[40912;1;1;7;7;17;25;121;253;63;105;527;1397;121;9665;29151;10795;79077];
[40918;1;3;3;1;27;33;123;69;209;25;1677;1569;4441;7817;5165;29517;117165];
[40924;1;1;5;15;3;59;13;25;359;71;179;3925;6899;6007;9121;36297;88541];
[40927;1;1;3;11;23;17;55;133;27;277;1055;1057;807;1221;1665;64129;102395];
[40928;1;3;1;15;13;15;105;141;329;73;609;1663;3277;1767;6371;34325;109563];
[40938;1;1;5;1;17;21;37;81;187;403;291;1495;5071;14289;29075;44089;95001];
[40952;1;3;3;3;15;33;49;155;41;853;15;3571;1433;8469;18711;59007;98703];
[40957;1;3;1;13;17;47;61;151;127;87;207;3157;5141;14745;32567;18401;7497];
[40961;1;3;5;1;19;25;49;147;137;603;1223;3195;5965;11335;20343;10109;63975];
[40968;1;1;7;13;29;59;1;33;157;765;961;641;7303;3279;20287;37553;114573];
[40974;1;3;5;1;11;63;63;41;15;717;1037;227;7875;8681;26943;11761;28005];
[40986;1;3;1;3;19;5;67;169;209;293;343;2033;7669;1077;15513;54475;15459];
[40992;1;1;3;3;17;47;49;187;341;767;1463;301;2083;9265;12313;14763;126627];
[41001;1;3;5;13;11;15;45;237;445;55;319;2989;5043;1053;22809;23111;7617];
[41004;1;1;7;9;7;15;41;185;511;701;1279;1995;7829;2947;3431;45799;1709];
[41022;1;3;7;15;5;15;85;29;487;811;1653;483;1193;11331;21815;57215;8373];
[41033;1;3;1;15;27;19;111;161;19;373;419;1547;2415;10705;17283;56663;73625];
[41036;1;1;3;11;27;7;75;57;411;35;685;1249;5227;7313;3167;30537;40655];
[41039;1;3;1;9;7;37;9;209;353;319;843;657;2069;6523;611;16291;107121];
[41044;1;1;5;11;11;51;25;171;315;63;207;2279;2379;3583;31927;62451;109911];
[41064;1;1;7;11;15;41;19;175;103;605;1889;3161;1217;3259;29655;11715;35551];
[41078;1;3;5;13;23;11;121;147;179;397;659;3753;2355;1093;25863;39751;112381];
[41091;1;3;5;7;1;23;37;117;7;361;991;661;4427;15333;5307;55171;96959];
[41103;1;3;1;5;17;9;77;147;289;79;295;1271;7809;6387;31785;26489;9335];
[41108;1;1;1;7;17;33;63;147;17;515;1349;1907;7703;5511;27773;54025;30019];
[41112;1;3;5;3;27;57;75;129;219;533;207;3569;5799;6943;12271;53115;120389];
[41127;1;1;1;13;11;25;101;251;289;215;1875;1821;703;15395;27167;43187;63401];
[41128;1;1;7;15;7;39;125;41;57;513;17;965;3225;12833;21131;53243;60377];
[41136;1;3;5;3;21;19;43;195;259;523;587;3393;6621;43;10951;51877;79967];
[41141;1;3;3;7;7;19;11;89;321;821;99;2201;1297;949;11539;6295;19721];
[41146;1;1;5;3;29;27;123;111;441;441;337;3849;1677;14403;17203;50661;92177];
[41156;1;3;5;9;23;23;73;153;241;841;371;1503;5815;14117;4679;17997;112269];
[41159;1;1;1;1;7;37;105;185;453;905;15;57;6963;9665;3371;2391;96023];
[41163;1;3;7;1;1;21;35;43;449;111;191;2163;3249;15049;30215;43569;127973];
[41165;1;3;3;3;17;13;77;123;471;929;1797;2061;355;4441;1101;24631;128711];
[41166;1;3;7;7;17;51;1;69;23;1003;535;3751;765;5253;21027;52901;61951];
[41184;1;1;7;9;25;13;33;13;423;787;223;729;4443;227;11487;14259;52951];
[41193;1;3;5;5;25;27;113;93;13;679;1295;3773;7253;14629;8907;45885;85387];
[41202;1;3;3;13;15;55;99;31;119;955;1477;3745;6777;973;4723;62133;65093];
[41211;1;3;3;9;13;51;105;37;477;579;765;2573;6869;3891;30969;63413;56603];
[41216;1;3;1;3;15;23;67;109;75;721;523;1433;3455;6377;23795;13711;121349];
[41239;1;1;3;11;5;5;99;117;233;621;509;3235;7483;12325;13203;20075;27537];
[41243;1;3;3;9;23;51;93;245;307;689;1993;3607;1985;11839;25553;54941;68741];
[41249;1;1;3;5;19;21;33;71;447;539;351;2549;87;4317;1287;62289;121065];
[41262;1;3;5;5;9;23;37;189;449;263;37;3127;1709;10793;7379;38565;8267];
[41267;1;1;7;7;7;33;23;79;457;947;1275;2755;3747;9225;31385;8785;76945];
[41276;1;3;1;9;17;33;29;59;505;649;1679;3609;1361;5987;26455;17295;98697];
[41279;1;1;3;11;7;47;127;79;419;143;349;985;6397;10271;29427;19661;32629];
[41305;1;1;5;13;15;5;79;171;491;223;1601;705;623;4405;10065;28057;105737];
[41306;1;1;7;3;29;7;81;69;265;669;1763;2109;6275;7683;19561;26737;54449];
[41312;1;1;1;7;1;1;5;9;65;487;1663;1021;1819;9971;22065;40407;4187];
[41317;1;3;5;5;21;33;11;213;309;575;427;1421;6435;981;31533;16751;47813];
[41321;1;3;3;13;7;59;65;65;401;195;211;421;1139;11729;19717;20699;111863];
[41332;1;3;7;5;17;51;25;217;223;935;431;1703;4869;5635;199;5485;37311];
[41335;1;1;3;11;23;25;15;37;187;1007;857;3327;5471;10089;13745;1741;37769];
[41345;1;3;5;15;31;17;75;125;1;449;1293;3427;709;8285;31143;50655;130793];
[41346;1;1;7;3;25;55;105;255;319;183;1571;2425;5429;7151;8569;37447;23055];
[41351;1;3;1;1;23;37;17;61;161;559;1025;2651;5861;5231;1365;4853;127301];
[41365;1;3;1;9;17;37;87;241;411;53;1555;3805;6867;125;9829;53581;117413];
[41388;1;3;3;3;23;55;121;109;441;623;1345;3055;2591;11329;16891;61347;125643];
[41399;1;3;1;1;5;29;53;97;15;275;1587;1245;379;16117;24369;26873;39547];
[41405;1;3;1;5;3;63;85;167;301;45;1357;1185;3939;945;24961;59427;128129];
[41414;1;3;1;7;23;25;109;253;37;151;17;1241;787;15895;7947;65071;14765];
[41432;1;3;3;1;7;3;103;35;73;533;1055;823;7403;8117;28813;42457;56037]].
